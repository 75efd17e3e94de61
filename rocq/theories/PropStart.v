(** * C70: the start screen *)
From Coq Require Import Reals Lra ZArith Lia Floats.SpecFloat.
From Flocq Require Import Core BinarySingleNaN Mult_error.
From Verif Require Import Base Arith FloatBridge ServoModel ServoFloat KinModel DisplayModel StartModel ConfigModel PropDisplay PropRobot.
Open Scope Z_scope.

(** ** Specification *)
(** the screen has 128 columns, 0..127, and 32 rows, 0..31: a horizontal line below row 31 is not on it *)
Definition below_the_screen (d : draw) : Prop := match d with DrawLine _ y0 _ y1 => 32 <= y0 /\ y1 = y0 | _ => False end.
Definition is_line (d : draw) : bool := match d with DrawLine _ _ _ _ => true | _ => false end.
(** an arm built in the x-z plane, as the kinematics assume: no vector has a y component *)
Definition zero32 (x : spec_float) : Prop := exists s, x = S754_zero s.
Definition planar (g : geom spec_float) : Prop := zero32 (vy (g0 g)) /\ zero32 (vy (g1 g)) /\ zero32 (vy (g2 g)) /\ zero32 (vy (g3 g)) /\ zero32 (vy (g4 g)).

(** "STARTING" *)
Definition text_starting : list Z := [83; 84; 65; 82; 84; 73; 78; 71].

(** ** Proofs *)
Section Start.
Context (L : libm).
Notation A := (IEEE L).

Lemma planar_height (g : geom (F A)) : planar g -> to_int A (extent A (vy (g0 g)) (vy (g1 g)) (vy (g2 g)) (vy (g3 g))) = Ok 0.
Proof.
  destruct g as [[x0 y0 z0] [x1 y1 z1] [x2 y2 z2] [x3 y3 z3] [x4 y4 z4]]. unfold planar. cbn [g0 g1 g2 g3 g4 vy].
  intros ((s0 & ->) & (s1 & ->) & (s2 & ->) & (s3 & ->) & _). destruct s0, s1, s2, s3; reflexivity.
Qed.

(** infinite or NaN *)
Definition wild (x : spec_float) : Prop := match x with S754_infinity _ | S754_nan => True | _ => False end.
Lemma wild_line sc x y g : wild sc -> start_line A sc x y g = Ub BadConv.
Proof.
  intros H. unfold start_line. cbn [fadd fsub fmul fofz IEEE].
  assert (M : wild (SFmul 24 128 (vx g) sc)) by (destruct sc; try contradiction; destruct (vx g); exact I).
  assert (S1 : forall a b, wild b -> wild (SFadd 24 128 a b)).
  { intros a b W. destruct b; try contradiction; destruct a; try exact I. cbn. destruct (Bool.eqb _ _); exact I. }
  assert (M2 : forall a b, wild a -> wild (SFmul 24 128 a b)) by (intros a b W; destruct a; try contradiction; destruct b; exact I).
  specialize (S1 (SpecFloat.binary_normalize 24 128 x 0 false) _ M). specialize (M2 _ (SpecFloat.binary_normalize 24 128 2 0 false) S1).
  unfold to_i16. cbn [ftoz IEEE]. destruct (SFmul 24 128 (SFadd 24 128 (SpecFloat.binary_normalize 24 128 x 0 false) (SFmul 24 128 (vx g) sc)) (SpecFloat.binary_normalize 24 128 2 0 false)); try contradiction; reflexivity.
Qed.

Lemma pos_finite x r : v32 x r -> (0 < r)%R -> exists m e, x = S754_finite false m e.
Proof.
  intros (b & <- & F & <-) P. destruct b as [s|s| |s m e B]; try discriminate; cbn [B2R B2SF] in *; [lra|]. destruct s; [|eauto].
  exfalso. unfold F2R in P. cbn [Fnum Fexp cond_Zopp] in P. pose proof (bpow_gt_0 radix2 e). pose proof (IZR_lt 0 (Z.pos m) ltac:(lia)).
  assert (IZR (Z.neg m) <= 0)%R by (apply (IZR_le _ 0); lia). assert (Q : (IZR (Z.neg m) * bpow radix2 e <= 0 * bpow radix2 e)%R) by (apply Rmult_le_compat_r; lra). rewrite Rmult_0_l in Q. exact (Rlt_not_le _ _ P Q).
Qed.
Lemma r32_ge1 w : 1 <= w <= 2147483647 -> (1 <= r32 (IZR w) <= 3000000000)%R.
Proof.
  intros H. split; [rewrite <- (r32_IZR 1) by lia; apply r32_le, IZR_le; lia|].
  destruct (r32_near (IZR w) 2147483647) as [_ B]; [rewrite Rabs_pos_eq; [apply IZR_le; lia|apply (IZR_le 0); lia]|].
  assert (IZR w <= 2147483647)%R by (apply IZR_le; lia). pose proof tiny_small. lra.
Qed.
(** a flat arm of positive width: the scale is 64 / width *)
Lemma flat_scale w : 1 <= w <= 2147483647 -> v32 (start_scale A w 0) (r32 (64 / r32 (IZR w))).
Proof.
  intros H. pose proof (r32_ge1 w H) as B. assert (V : v32 (fofz A w) (r32 (IZR w))) by (apply v_ofz; lia).
  unfold start_scale. destruct (pos_finite _ _ V ltac:(lra)) as (m & e & E).
  assert (T : flt A (fdiv A (fofz A 64) (fofz A 20)) (fdiv A (fofz A w) (fofz A 0)) = true) by (rewrite E; reflexivity).
  rewrite T. apply v_div; [apply (v_int 64); lia|exact V|lra|]. assert (0 < / r32 (IZR w) <= 1)%R.
  { split; [apply Rinv_0_lt_compat; lra|]. rewrite <- Rinv_1. apply Rinv_le_contravar; lra. }
  unfold Rdiv. rewrite Rabs_pos_eq; lra.
Qed.
Lemma no_scale w : -2147483648 <= w <= 0 -> wild (start_scale A w 0).
Proof.
  intros H. unfold start_scale. destruct (Z.eq_dec w 0) as [->|N]; [exact I|].
  assert (B : (1 <= r32 (IZR (- w)))%R) by (rewrite <- (r32_IZR 1) by lia; apply r32_le, IZR_le; lia).
  assert (V : v32 (fofz A w) (r32 (IZR w))) by (apply v_ofz; lia). rewrite opp_IZR, r32_opp in B.
  assert (E : exists m e, fofz A w = S754_finite true m e).
  { destruct V as (b & <- & F & V). destruct b as [s|s| |s m e Bd]; try discriminate; cbn [B2R B2SF] in *; [lra|]. destruct s; [eauto|].
    exfalso. unfold F2R in V. cbn [Fnum Fexp cond_Zopp] in V. pose proof (bpow_gt_0 radix2 e). pose proof (IZR_lt 0 (Z.pos m) ltac:(lia)).
    assert (0 <= IZR (Z.pos m) * bpow radix2 e)%R by (apply Rmult_le_pos; lra). lra. }
  destruct E as (m & e & E).
  assert (T : flt A (fdiv A (fofz A 64) (fofz A 20)) (fdiv A (fofz A w) (fofz A 0)) = false) by (rewrite E; reflexivity).
  rewrite T. exact I.
Qed.

(** with a finite scale a flat arm stays on its row *)
Lemma flat_line sc k x g d x' y' : v32 sc k -> zero32 (vy g) -> start_line A sc x 32 g = Ok (d, x', y') -> below_the_screen d /\ y' = 32.
Proof.
  intros (b & <- & F & _) (s & Z) E. destruct g as [gx gy gz]. cbn [vy] in Z. subst gy. unfold start_line in E. cbn [vx vy fadd fsub fmul fofz IEEE] in E.
  assert (Y : SFsub 24 128 (SpecFloat.binary_normalize 24 128 32 0 false) (SFmul 24 128 (S754_zero s) (B2SF b)) = SpecFloat.binary_normalize 24 128 32 0 false).
  { destruct b as [s'|s'| |s' m e B]; try discriminate; cbn [B2SF SFmul]; reflexivity. }
  rewrite Y in E. cbv zeta in E. destruct (to_i16 A (SFmul _ _ _ _)) as [c|]; cbn [bind] in E; [|discriminate].
  change (to_i16 A (SpecFloat.binary_normalize 24 128 32 0 false)) with (Ok (A := Z) 32) in E. change (to_unsigned A (SpecFloat.binary_normalize 24 128 32 0 false)) with (Ok (A := Z) 32) in E. cbn [bind] in E.
  destruct (to_unsigned A _) as [xx|]; cbn [bind] in E; [|discriminate]. injection E as <- <- <-. split; [|reflexivity]. cbn [below_the_screen]. split; [vm_compute; discriminate|reflexivity].
Qed.
Lemma flat_lines sc k l : v32 sc k -> forall x ds, Forall (fun g => zero32 (vy g)) l -> start_lines A sc x 32 l = Ok ds -> Forall below_the_screen ds.
Proof.
  intros V. induction l as [|g l IH]; intros x ds Z E; cbn [start_lines] in E; [injection E as <-; constructor|].
  inversion Z as [|? ? Z1 Z2]; subst. destruct (start_line A sc x 32 g) as [[[d x'] y']|] eqn:SL; cbn [bind] in E; [|discriminate].
  destruct (flat_line sc k x g d x' y' V Z1 SL) as [B ->]. destruct (start_lines A sc x' 32 l) as [r|] eqn:E1; cbn [bind] in E; [|discriminate]. injection E as <-.
  constructor; eauto.
Qed.

(** ** C70 is false of the code *)
Lemma nothing_visible (g : geom (F A)) ds : planar g -> start_screen A g = Ok ds -> Forall below_the_screen (filter is_line ds).
Proof.
  intros P E. unfold start_screen, display_geometry in E. destruct (to_int A (extent A (vx (g0 g)) (vx (g1 g)) (vx (g2 g)) (vx (g3 g)))) as [w|] eqn:EW; cbn [bind] in E; [|discriminate].
  rewrite (planar_height (g : geom spec_float) P) in E. cbn [bind] in E.
  assert (W : -2147483648 <= w <= 2147483647).
  { unfold to_int in EW. destruct (ftoz A _); [|discriminate]. destruct ((-2147483648 <=? z) && (z <=? 2147483647)) eqn:R; [|discriminate]. injection EW as <-. lia. }
  destruct P as (P0 & P1 & P2 & P3 & P4).
  destruct (Z_le_dec w 0) as [N|N].
  - cbn [start_lines] in E. rewrite wild_line in E by (apply no_scale; lia). discriminate.
  - destruct (start_lines A (start_scale A w 0) 30 32 [g0 g; g1 g; g2 g; g3 g; g4 g]) as [arm|] eqn:SL; cbn [bind] in E; [|discriminate]. injection E as <-. cbn [filter is_line].
    assert (Q : Forall (fun g => zero32 (vy g)) [g0 g; g1 g; g2 g; g3 g; g4 g]) by (constructor; [exact P0|constructor; [exact P1|constructor; [exact P2|constructor; [exact P3|constructor; [exact P4|constructor]]]]]).
    pose proof (flat_lines _ _ _ (flat_scale w ltac:(lia)) 30 arm Q SL) as F.
    clear - F. induction F as [|d l B F IH]; cbn [filter]; [constructor|]. destruct (is_line d); [constructor|]; auto.
Qed.

(** (1) Nothing of the arm is ever visible on the start screen: for every arm built in the x-z plane (as the kinematics assume),
    whatever its dimensions, all lines are drawn below the last row; "STARTING" is all that is shown. *)
Theorem C70_nothing_visible_refuted (g : geom spec_float) ds : planar g -> start_screen A g = Ok ds -> Forall below_the_screen (filter is_line ds).
Proof. exact (nothing_visible g ds). Qed.

Lemma column (g : geom (F A)) :
  to_int A (extent A (vx (g0 g)) (vx (g1 g)) (vx (g2 g)) (vx (g3 g))) = Ok 0 ->
  to_int A (extent A (vy (g0 g)) (vy (g1 g)) (vy (g2 g)) (vy (g3 g))) = Ok 0 ->
  start_screen A g = Ub BadConv.
Proof.
  intros W H. unfold start_screen, display_geometry. rewrite W, H. cbn [bind start_lines]. rewrite wild_line; [reflexivity|exact I].
Qed.
(** (2) A column, i.e. an arm whose first four vectors go straight up: power-up is undefined, whatever its heights and its tool. *)
Definition column_arm (g : geom spec_float) : Prop :=
  zero32 (vx (g0 g)) /\ zero32 (vx (g1 g)) /\ zero32 (vx (g2 g)) /\ zero32 (vx (g3 g)) /\ planar g.
Lemma column_width (g : geom (F A)) : column_arm g -> to_int A (extent A (vx (g0 g)) (vx (g1 g)) (vx (g2 g)) (vx (g3 g))) = Ok 0.
Proof.
  destruct g as [[x0 y0 z0] [x1 y1 z1] [x2 y2 z2] [x3 y3 z3] [x4 y4 z4]]. unfold column_arm. cbn [g0 g1 g2 g3 g4 vx].
  intros ((s0 & ->) & (s1 & ->) & (s2 & ->) & (s3 & ->) & _). destruct s0, s1, s2, s3; reflexivity.
Qed.
Theorem C70_column_refuted (g : geom spec_float) : column_arm g -> start_screen A g = Ub BadConv.
Proof. intros C. apply column; [exact (column_width g C)|apply (planar_height g), C]. Qed.

(** ** where it is defined *)
(** one more vector to the right *)
Lemma step_right (t mx g : F A) t0 a : v32 t t0 -> v32 mx t0 -> (0 <= t0 <= 5000000)%R -> v32 g a -> (0 <= a <= 1000000)%R ->
  exists t' mx', extent_step A (t, mx, fofz A 0) g = (t', mx', fofz A 0) /\ v32 t' (r32 (t0 + a)) /\ v32 mx' (r32 (t0 + a)) /\ (t0 <= r32 (t0 + a))%R.
Proof.
  intros V Vm B Vg Bg. assert (V1 : v32 (fadd A t g) (r32 (t0 + a))) by (apply v_add; auto; rewrite Rabs_pos_eq; lra).
  assert (M : (t0 <= r32 (t0 + a))%R) by (rewrite <- (v32_r _ _ V) at 1; apply r32_le; lra).
  assert (V0 : v32 (fofz A 0) 0) by (apply (v_int 0); lia).
  unfold extent_step. assert (C1 : flt A mx (fadd A t g) = rltb t0 (r32 (t0 + a))) by exact (fv_lt 24 128 _ _ _ _ Vm V1).
  assert (C2 : flt A (fadd A t g) (fofz A 0) = rltb (r32 (t0 + a)) 0) by exact (fv_lt 24 128 _ _ _ _ V1 V0).
  rewrite C1, C2. destruct (rltb t0 (r32 (t0 + a))) eqn:C; [eauto 10|]. apply rltb_false in C. assert (r32 (t0 + a) = t0) as E1 by lra.
  assert (rltb (r32 (t0 + a)) 0 = false) as -> by (apply rltb_false; lra). do 2 eexists. split; [reflexivity|]. rewrite E1 in *. auto.
Qed.
(** an arm reaching to the right: the width is the sum, rounded *)
Lemma right_extent (a b c d : F A) x0 x1 x2 x3 : v32 a x0 -> v32 b x1 -> v32 c x2 -> v32 d x3 ->
  (0 <= x0)%R -> (0 <= x1)%R -> (0 <= x2)%R -> (0 <= x3)%R -> (2 <= x0 + x1 + x2 + x3 <= 1000000)%R ->
  exists w, v32 (extent A a b c d) w /\ (Rabs (w - (x0 + x1 + x2 + x3)) <= (x0 + x1 + x2 + x3) / 1000000)%R.
Proof.
  intros Va Vb Vc Vd P0 P1 P2 P3 S. assert (V0 : v32 (fofz A 0) 0) by (apply (v_int 0); lia). pose proof tiny_small as T1. pose proof tiny_pos as T0.
  unfold extent. cbn [fold_left].
  destruct (step_right _ _ a 0 x0 V0 V0 ltac:(lra) Va ltac:(lra)) as (t1 & m1 & -> & A1 & B1 & C1). rewrite Rplus_0_l in *. pose proof (v32_r _ _ Va) as E0. rewrite E0 in *.
  destruct (step_right t1 m1 b x0 x1 A1 B1 ltac:(lra) Vb ltac:(lra)) as (t2 & m2 & -> & A2 & B2 & C2). destruct (r32_near (x0 + x1) (x0 + x1)) as [N1 N2]; [rewrite Rabs_pos_eq; lra|]. set (s2 := r32 (x0 + x1)) in *.
  destruct (step_right t2 m2 c s2 x2 A2 B2 ltac:(lra) Vc ltac:(lra)) as (t3 & m3 & -> & A3 & B3 & C3). destruct (r32_near (s2 + x2) (s2 + x2)) as [N3 N4]; [rewrite Rabs_pos_eq; lra|]. set (s3 := r32 (s2 + x2)) in *.
  destruct (step_right t3 m3 d s3 x3 A3 B3 ltac:(lra) Vd ltac:(lra)) as (t4 & m4 & -> & A4 & B4 & C4). destruct (r32_near (s3 + x3) (s3 + x3)) as [N5 N6]; [rewrite Rabs_pos_eq; lra|]. set (s4 := r32 (s3 + x3)) in *.
  exists (r32 (s4 - 0)). split; [apply v_sub; auto; rewrite Rminus_0_r, Rabs_pos_eq; lra|]. rewrite Rminus_0_r, (v32_r _ _ A4). apply Rabs_le. lra.
Qed.

(** an arm along row 32: every line begins where the one before ended (in steps of two columns), the first at column 60,
    and is as long as the vector at a scale of 128 columns for [z] units *)
Fixpoint drawn_to_scale (z : R) (x : Z) (l : list R) (ds : list draw) : Prop :=
  match l, ds with
  | [], [] => True
  | a :: l, DrawLine c0 r0 c1 r1 :: ds => c0 = 2 * x /\ r0 = 32 /\ r1 = 32 /\ (Rabs (IZR c1 - (2 * IZR x + 128 * (a / z))) <= 1 + / 100)%R /\
      exists x', (c1 = 2 * x' \/ c1 = 2 * x' + 1) /\ drawn_to_scale z x' l ds
  | _, _ => False
  end.

Lemma r32_double x q : v32 x q -> r32 (q * 2) = (q * 2)%R.
Proof.
  intros V. pose proof (v32_r _ _ V) as E. assert (G : generic_format radix2 (FLT_exp (-149) 24) q).
  { rewrite <- E. apply (generic_format_round radix2 (FLT_exp (-149) 24)); auto with typeclass_instances. }
  apply (round_generic radix2 (FLT_exp (-149) 24)); [auto with typeclass_instances|].
  exact (Mult_error.mult_bpow_pos_exact_FLT radix2 (-149) 24 q 1 G ltac:(lia)).
Qed.

Lemma right_line sc k x (g : V3 (F A)) a : v32 sc k -> (0 <= k <= 64)%R -> zero32 (vy g) -> v32 (vx g) a -> (0 <= a * k <= 200)%R -> 0 <= x <= 5000 ->
  exists c x', start_line A sc x 32 g = Ok (DrawLine (2 * x) 32 c 32, x', 32) /\ 0 <= x' <= x + 201 /\ (c = 2 * x' \/ c = 2 * x' + 1) /\
    (Rabs (IZR c - (2 * IZR x + 2 * (a * k))) <= 1 + 1 / 500)%R.
Proof.
  intros V K Z Va AK X. assert (Z' := Z). destruct g as [gx gy gz]. cbn [vx vy] in *. destruct Z as (s & ->). pose proof tiny_small as T1. pose proof tiny_pos as T0.
  assert (Vx : v32 (fofz A x) (IZR x)) by (apply v_int; lia). assert (X' : (0 <= IZR x <= 5000)%R) by (split; [apply (IZR_le 0); lia|apply IZR_le; lia]).
  destruct (r32_near (a * k) 200) as [N1 N2]; [rewrite Rabs_pos_eq; lra|]. pose proof (r32_pos (a * k) ltac:(lra)) as N0.
  assert (V1 : v32 (fmul A gx sc) (r32 (a * k))) by (apply v_mul; auto; rewrite Rabs_pos_eq; lra). set (p := r32 (a * k)) in *. clearbody p.
  destruct (r32_near (IZR x + p) 6000) as [M1 M2]; [rewrite Rabs_pos_eq; lra|]. pose proof (r32_pos (IZR x + p) ltac:(lra)) as M0.
  assert (V2 : v32 (fadd A (fofz A x) (fmul A gx sc)) (r32 (IZR x + p))) by (apply v_add; auto; rewrite Rabs_pos_eq; lra). set (q := r32 (IZR x + p)) in *. clearbody q.
  destruct (r32_near (q * 2) 12000) as [Q1 Q2]; [rewrite Rabs_pos_eq; lra|]. pose proof (r32_pos (q * 2) ltac:(lra)) as Q0.
  assert (V3 : v32 (fmul A (fadd A (fofz A x) (fmul A gx sc)) (fofz A 2)) (r32 (q * 2))) by (apply v_mul; [exact V2|apply (v_int 2); lia|rewrite Rabs_pos_eq; lra]).
  assert (Y : fsub A (fofz A 32) (fmul A (S754_zero s) sc) = fofz A 32).
  { destruct V as (b & <- & Fb & _). destruct b as [s'|s'| |s' m e B]; try discriminate; reflexivity. }
  unfold start_line. cbn [vx vy]. cbv zeta. change (F A) with spec_float in Y |- *. rewrite Y.
  set (nx := fadd A (fofz A x) (fmul A gx sc)) in *. set (n2 := fmul A nx (fofz A 2)) in *.
  assert (T2 : ftoz A n2 = Some (rtrunc (r32 (q * 2)))) by exact (fv_trunc 24 128 _ _ V3).
  assert (Tx : ftoz A nx = Some (rtrunc q)) by exact (fv_trunc 24 128 _ _ V2).
  destruct (rtrunc_pos _ Q0) as [[R1 R1u] R2]. destruct (rtrunc_pos _ M0) as [[R3 R3u] R4].
  assert (R5 : rtrunc (r32 (q * 2)) <= 12000) by (apply le_IZR; apply Rle_trans with (1 := R1); assert (q <= 5500)%R by lra; lra).
  assert (R6 : rtrunc q <= x + 201) by (apply le_IZR; rewrite plus_IZR; lra).
  unfold to_i16 at 1. rewrite T2. replace ((-32768 <=? rtrunc (r32 (q * 2))) && (rtrunc (r32 (q * 2)) <=? 32767)) with true by lia. cbn [bind].
  change (to_i16 A (fofz A 32)) with (Ok (A := Z) 32). cbn [bind]. unfold to_unsigned at 1. rewrite Tx. replace ((0 <=? rtrunc q) && (rtrunc q <=? 4294967295)) with true by lia. cbn [bind].
  change (to_unsigned A (fofz A 32)) with (Ok (A := Z) 32). cbn [bind]. exists (rtrunc (r32 (q * 2))), (rtrunc q).
  split.
  { repeat f_equal. - rewrite u32_small, PropDisplay.i16_id; lia. }
  split; [lia|]. assert (D : r32 (q * 2) = (q * 2)%R) by (apply r32_double with (1 := V2)). rewrite D in *.
  split. { assert (2 * rtrunc q <= rtrunc (q * 2) < 2 * rtrunc q + 2); [|lia]. split; [|apply lt_IZR; rewrite plus_IZR, mult_IZR; lra].
    assert (2 * rtrunc q < rtrunc (q * 2) + 1); [|lia]. apply lt_IZR. rewrite plus_IZR, mult_IZR. lra. }
  apply Rabs_le. lra.
Qed.

(** an arm in the x-z plane that reaches to the right: finite x components, none negative, the first four together between 2 and 10^6 units,
    the tool not longer than that *)
Definition reaches_right (g : geom spec_float) (x0 x1 x2 x3 x4 : R) : Prop :=
  planar g /\ v32 (vx (g0 g)) x0 /\ v32 (vx (g1 g)) x1 /\ v32 (vx (g2 g)) x2 /\ v32 (vx (g3 g)) x3 /\ v32 (vx (g4 g)) x4 /\
  (0 <= x0 /\ 0 <= x1 /\ 0 <= x2 /\ 0 <= x3 /\ 2 <= x0 + x1 + x2 + x3 <= 1000000 /\ 0 <= x4 <= x0 + x1 + x2 + x3)%R.

(** For such arms, like both shipped ones, power-up is defined, and the lines are the arm seen along z,
    to a scale of 128 columns for its reach ([z] is the reach, cut to a whole number), but on row 32. *)
Lemma defined (g : geom (F A)) x0 x1 x2 x3 x4 : reaches_right g x0 x1 x2 x3 x4 -> exists ds (z : Z), start_screen A g = Ok (DrawText 0 0 text_starting :: ds) /\
  (x0 + x1 + x2 + x3 - (1 + / 1000 + (x0 + x1 + x2 + x3) / 1000000) <= IZR z <= (x0 + x1 + x2 + x3) * (1 + / 1000000))%R /\ drawn_to_scale (IZR z) 30 [x0; x1; x2; x3; x4] ds.
Proof.
  intros (P & V0 & V1 & V2 & V3 & V4 & P0 & P1 & P2 & P3 & S & P4).
  destruct (right_extent _ _ _ _ _ _ _ _ V0 V1 V2 V3 P0 P1 P2 P3 S) as (w & Vw & Ew). set (s := (x0 + x1 + x2 + x3)%R) in *.
  apply Rabs_bounds in Ew. unfold start_screen, display_geometry.
  assert (EW : to_int A (extent A (vx (g0 g)) (vx (g1 g)) (vx (g2 g)) (vx (g3 g))) = Ok (rtrunc w) /\ 1 <= rtrunc w <= 1000002 /\ (w - 1 < IZR (rtrunc w) <= w)%R).
  { destruct (rtrunc_pos w ltac:(lra)) as [[R1 R2] R3]. assert (1 <= rtrunc w). { assert (0 < rtrunc w); [|lia]. apply lt_IZR. lra. }
    assert (rtrunc w <= 1000002) by (apply le_IZR; lra). split; [|split; [lia|lra]]. unfold to_int. assert (T : ftoz A (extent A (vx (g0 g)) (vx (g1 g)) (vx (g2 g)) (vx (g3 g))) = Some (rtrunc w)) by exact (fv_trunc 24 128 _ _ Vw).
    rewrite T. replace ((-2147483648 <=? rtrunc w) && (rtrunc w <=? 2147483647)) with true by lia. reflexivity. }
  destruct EW as (EW & W1 & W2). rewrite EW. cbn [bind].
  assert (EH := planar_height g P). rewrite EH. cbn [bind]. clear EW EH.
  set (z := rtrunc w) in *. clearbody z. pose proof (flat_scale z ltac:(lia)) as Vs. rewrite (r32_IZR z) in Vs by lia. pose proof tiny_small as T1. pose proof tiny_pos as T0.
  assert (Z1 : (1 <= IZR z <= 1000002)%R) by (split; [apply (IZR_le 1); lia|apply IZR_le; lia]).
  assert (I1 : (0 < / IZR z <= 1)%R) by (split; [apply Rinv_0_lt_compat; lra|rewrite <- Rinv_1; apply Rinv_le_contravar; lra]).
  assert (K0 : (0 <= 64 / IZR z <= 64)%R) by (unfold Rdiv; lra).
  destruct (r32_near (64 / IZR z) (64 / IZR z)) as [K1 K2]; [rewrite Rabs_pos_eq; lra|]. pose proof (r32_pos (64 / IZR z) ltac:(lra)) as K3.
  assert (K4 : (r32 (64 / IZR z) <= 64)%R) by (apply Rle_trans with (r32 64); [apply r32_le; lra|rewrite (r32_IZR 64); [lra|lia]]).
  set (k := r32 (64 / IZR z)) in *. clearbody k.
  assert (SK : (s * k <= 199)%R).
  { (* s <= 3 z *) assert (HS : (s <= 3 * IZR z)%R) by lra.
    assert (k * IZR z <= 66)%R.
    { assert (K5 : (k <= 64 / IZR z * (1 + 1 / 100))%R) by (assert (tiny <= 64 / IZR z * (1 / 1000))%R; [|lra]; assert (64 / IZR z >= 64 / 1000002)%R by (apply Rle_ge; unfold Rdiv; apply Rmult_le_compat_l; [lra|]; apply Rinv_le_contravar; lra); lra).
      apply Rle_trans with (64 / IZR z * (1 + 1 / 100) * IZR z)%R; [apply Rmult_le_compat_r; lra|]. replace (64 / IZR z * (1 + 1 / 100) * IZR z)%R with (64 * (1 + 1 / 100))%R by (field; lra). lra. }
    apply Rle_trans with (3 * IZR z * k)%R; [apply Rmult_le_compat_r; lra|]. lra. }
  assert (AK : forall x, (0 <= x <= s -> 0 <= x * k <= 200)%R).
  { intros x B. split; [apply Rmult_le_pos; lra|]. apply Rle_trans with (s * k)%R; [apply Rmult_le_compat_r; lra|lra]. }
  destruct P as (Y0 & Y1 & Y2 & Y3 & Y4). set (sc := start_scale A z 0) in *. clearbody sc. cbn [start_lines].
  assert (KZ : forall a, (0 <= a <= s)%R -> (Rabs (2 * (a * k) - 128 * (a / IZR z)) <= / 200)%R).
  { intros a Ba. assert (a / IZR z <= 3)%R. { unfold Rdiv. apply Rle_trans with (3 * IZR z * / IZR z)%R; [apply Rmult_le_compat_r; lra|]. rewrite Rmult_assoc, Rinv_r by lra. lra. }
    assert (0 <= a / IZR z)%R by (unfold Rdiv; apply Rmult_le_pos; lra).
    assert (L1 : (a * k <= a * (64 / IZR z + (64 / IZR z / 16777216 + tiny)))%R) by (apply Rmult_le_compat_l; lra).
    assert (L2 : (a * (64 / IZR z - (64 / IZR z / 16777216 + tiny)) <= a * k)%R) by (apply Rmult_le_compat_l; lra).
    assert (L3 : (a * tiny <= / 1000)%R) by (apply Rle_trans with (1000000 * tiny)%R; [apply Rmult_le_compat_r; lra|lra]).
    replace (a * (64 / IZR z + (64 / IZR z / 16777216 + tiny)))%R with (64 * (a / IZR z) + 64 * (a / IZR z) / 16777216 + a * tiny)%R in L1 by (field; lra).
    replace (a * (64 / IZR z - (64 / IZR z / 16777216 + tiny)))%R with (64 * (a / IZR z) - 64 * (a / IZR z) / 16777216 - a * tiny)%R in L2 by (field; lra).
    apply Rabs_le. lra. }
  assert (BD : forall c x a : R, (0 <= a <= s)%R -> (Rabs (c - (2 * x + 2 * (a * k))) <= 1 + 1 / 500)%R -> (Rabs (c - (2 * x + 128 * (a / IZR z))) <= 1 + / 100)%R).
  { intros c x a Ba B. pose proof (KZ a Ba) as Q. apply Rabs_bounds in B, Q. apply Rabs_le. lra. }
  destruct (right_line sc k 30 (g0 g) x0 Vs (conj K3 K4) Y0 V0 (AK x0 ltac:(unfold s; lra)) ltac:(lia)) as (c0 & p0 & E0 & B0 & D0 & F0). rewrite E0. cbn [bind].
  destruct (right_line sc k p0 (g1 g) x1 Vs (conj K3 K4) Y1 V1 (AK x1 ltac:(unfold s; lra)) ltac:(lia)) as (c1 & p1 & E1 & B1 & D1 & F1). rewrite E1. cbn [bind].
  destruct (right_line sc k p1 (g2 g) x2 Vs (conj K3 K4) Y2 V2 (AK x2 ltac:(unfold s; lra)) ltac:(lia)) as (c2 & p2 & E2 & B2 & D2 & F2). rewrite E2. cbn [bind].
  destruct (right_line sc k p2 (g3 g) x3 Vs (conj K3 K4) Y3 V3 (AK x3 ltac:(unfold s; lra)) ltac:(lia)) as (c3 & p3 & E3 & B3 & D3 & F3). rewrite E3. cbn [bind].
  destruct (right_line sc k p3 (g4 g) x4 Vs (conj K3 K4) Y4 V4 (AK x4 ltac:(lra)) ltac:(lia)) as (c4 & p4 & E4 & B4 & D4 & F4). rewrite E4. cbn [bind].
  exists [DrawLine (2 * 30) 32 c0 32; DrawLine (2 * p0) 32 c1 32; DrawLine (2 * p1) 32 c2 32; DrawLine (2 * p2) 32 c3 32; DrawLine (2 * p3) 32 c4 32], z.
  split; [reflexivity|]. split; [lra|]. cbn [drawn_to_scale].
  split; [reflexivity|]. split; [reflexivity|]. split; [reflexivity|]. split; [apply BD; [unfold s; lra|exact F0]|]. exists p0. split; [exact D0|].
  split; [reflexivity|]. split; [reflexivity|]. split; [reflexivity|]. split; [apply BD; [unfold s; lra|exact F1]|]. exists p1. split; [exact D1|].
  split; [reflexivity|]. split; [reflexivity|]. split; [reflexivity|]. split; [apply BD; [unfold s; lra|exact F2]|]. exists p2. split; [exact D2|].
  split; [reflexivity|]. split; [reflexivity|]. split; [reflexivity|]. split; [apply BD; [unfold s; lra|exact F3]|]. exists p3. split; [exact D3|].
  split; [reflexivity|]. split; [reflexivity|]. split; [reflexivity|]. split; [apply BD; [lra|exact F4]|]. exists p4. split; [exact D4|exact I].
Qed.
Theorem C70_defined_partial (g : geom spec_float) x0 x1 x2 x3 x4 : reaches_right g x0 x1 x2 x3 x4 -> let s := (x0 + x1 + x2 + x3)%R in
  exists ds (z : Z), start_screen A g = Ok (DrawText 0 0 text_starting :: ds) /\
    (s - (1 + / 1000 + s / 1000000) <= IZR z <= s * (1 + / 1000000))%R /\ drawn_to_scale (IZR z) 30 [x0; x1; x2; x3; x4] ds.
Proof. exact (defined g x0 x1 x2 x3 x4). Qed.
End Start.
Print Assumptions C70_nothing_visible_refuted.
Print Assumptions C70_column_refuted.
Print Assumptions C70_defined_partial.

(** ** Concrete cases *)
(** both shipped arms: planar and defined; what is drawn for the kit *)
Lemma kit_right (L : libm) : exists a b, reaches_right (kit_geom (IEEE L)) a 0 1 b 0.
Proof.
  exists (SF2R radix2 (vx (g0 (kit_geom (IEEE L))))), (SF2R radix2 (vx (g3 (kit_geom (IEEE L))))).
  split; [unfold planar; repeat split; exists false; reflexivity|].
  split; [cbn [kit_geom g0 vx]; lit|]. split; [apply (v_int 0); lia|]. split; [apply (v_int 1); lia|]. split; [cbn [kit_geom g3 vx]; lit|]. split; [apply (v_int 0); lia|].
  cbn [kit_geom g0 g3 vx]. lits. lra.
Qed.
Lemma d_right (L : libm) : exists a b, reaches_right (d_geom (IEEE L)) a 0 1 b 0.
Proof.
  exists (SF2R radix2 (vx (g0 (d_geom (IEEE L))))), (SF2R radix2 (vx (g3 (d_geom (IEEE L))))).
  split; [unfold planar; repeat split; exists false; reflexivity|].
  split; [cbn [d_geom g0 vx]; lit|]. split; [apply (v_int 0); lia|]. split; [apply (v_int 1); lia|]. split; [cbn [d_geom g3 vx]; lit|]. split; [apply (v_int 0); lia|].
  cbn [d_geom g0 g3 vx]. lits. lra.
Qed.
(** so power-up of either is defined, and shows nothing of the arm *)
Theorem C70_shipped (L : libm) : 
  (exists ds, start_screen (IEEE L) (kit_geom (IEEE L)) = Ok ds /\ Forall below_the_screen (filter is_line ds)) /\
  (exists ds, start_screen (IEEE L) (d_geom (IEEE L)) = Ok ds /\ Forall below_the_screen (filter is_line ds)).
Proof.
  destruct (kit_right L) as (a & b & K). destruct (d_right L) as (a' & b' & D). split.
  - destruct (C70_defined_partial L _ _ _ _ _ _ K) as (ds & z & E & _). eexists. split; [exact E|]. exact (C70_nothing_visible_refuted L _ _ (proj1 K) E).
  - destruct (C70_defined_partial L _ _ _ _ _ _ D) as (ds & z & E & _). eexists. split; [exact E|]. exact (C70_nothing_visible_refuted L _ _ (proj1 D) E).
Qed.
Print Assumptions C70_shipped.
Example C70_kit_lines : start_screen IF (kit_geom IF) =
  Ok [DrawText 0 0 [83; 84; 65; 82; 84; 73; 78; 71]; DrawLine 60 32 94 32; DrawLine 94 32 94 32; DrawLine 94 32 101 32; DrawLine 100 32 191 32; DrawLine 190 32 190 32].
Proof. vm_compute. reflexivity. Qed.
(** a column: all links along z; and an arm with a single link of two units to the left *)
Example C70_column_case :
  start_screen IF (mkGeom (mk3 (fi 0) (fi 0) (fi 100)) (mk3 (fi 0) (fi 0) (fi 50)) (mk3 (fi 0) (fi 0) (fi 50)) (mk3 (fi 0) (fi 0) (fi 50)) (mk3 (fi 0) (fi 0) (fi 10))) = Ub BadConv /\
  start_screen IF (mkGeom (mk3 (fi (-2)) (fi 0) (fi 0)) (mk3 (fi 0) (fi 0) (fi 50)) (mk3 (fi 0) (fi 0) (fi 50)) (mk3 (fi 0) (fi 0) (fi 50)) (mk3 (fi 0) (fi 0) (fi 10))) = Ub BadConv.
Proof. vm_compute. split; reflexivity. Qed.
