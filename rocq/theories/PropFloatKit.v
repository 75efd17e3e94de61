(** * The working range of the kit in the arithmetic of the device, from the decimal numbers the host writes *)
From Coq Require Import Reals Lra ZArith Lia Floats.SpecFloat.
From Flocq Require Import Core BinarySingleNaN.
From Verif Require Import Base Arith FloatBridge ServoModel ServoSpec ServoProofs ServoFloat.
From Verif Require Import RobotModel RobotSpec RobotProofs KinModel ConfigModel PropRobot PropKit PropFloat PropFloatMoves PropFloatSync.
From Verif Require Import MrilModel MrilSpec PropSettings DecFloat KinFloat PropFloatText.
Set Default Goal Selector "!".
Open Scope Z_scope.

(** ** Specification *)
(** a joint target in degrees lies in the ranges of the configuration, each of them widened by [own] degrees
    and the one that joints 1 and 2 have together (the forearm's parallelogram) by [sum] *)
Definition from_to (lo hi : Z) (slack x : R) : Prop := (IZR lo - slack <= x <= IZR hi + slack)%R.
Definition working_degrees (own sum : R) (d : V6 R) : Prop :=
  from_to (-90) 90 own (v0 d) /\
  from_to (-45) 90 own (v1 d) /\
  from_to (-45) 135 own (v2 d) /\ from_to (-45) 135 sum (v1 d + v2 d) /\
  from_to (-90) 85 own (v3 d) /\
  from_to (-140) 15 own (v4 d) /\
  from_to (-90) 60 own (v5 d).
Definition to_radians (d : R) : R := (d * PI / 180)%R.

Lemma ok_pair {S T} (a c : S) (b d : T) : Ok (a, b) = Ok (c, d) -> c = a /\ d = b.
Proof. intros H. split; congruence. Qed.

(** ** a legal target is carried out *)
Section Legal.
Context (L : libm).
Notation A := (IEEE L).
Lemma dec_m4 : v64 (sf_dec 53 1024 false 1 (-4)) (SF2R radix2 (sf_dec 53 1024 false 1 (-4))) /\ (0 < SF2R radix2 (sf_dec 53 1024 false 1 (-4)) <= 1 / 10000 * (1 + 1 / 100000000000))%R.
Proof.
  split.
  - let y := eval vm_compute in (sf_dec 53 1024 false 1 (-4)) in change (sf_dec 53 1024 false 1 (-4)) with y. apply fv_valid; reflexivity.
  - lits. lra.
Qed.
(** one joint at least 2 * 10^-4 away is seen *)
Lemma differs x y : fin 1000000 x -> fin 1000000 y -> (2 / 10000 <= Rabs (val x - val y))%R ->
  dle A (ddec A false 1 (-4)) (f2d A (fabsf A (fsub A x y))) = true.
Proof.
  intros Hx Hy D. cbn [dle ddec f2d fabsf fsub IEEE]. destruct (sub_abs x y Hx Hy) as (c & V & B & N).
  pose proof tiny_36 as T1. pose proof tiny_pos as T0.
  assert (V2 : v64 (sf_conv 53 1024 (SFabs (SFsub 24 128 x y))) (r64 c)).
  { apply (fv_conv 24 128 53 1024); [exact V|]. apply r64_bound. rewrite Rabs_pos_eq; lra. }
  destruct dec_m4 as [V3 B3]. rewrite (fv_le 53 1024 _ _ _ _ V3 V2). unfold rleb. destruct (Rle_dec _ _) as [H|H]; [reflexivity|]. exfalso. apply H.
  destruct (r64_near c c) as [K _]; [rewrite Rabs_pos_eq; lra|]. lra.
Qed.

Context (fwd : V6 (F A) -> V6 (F A)) (inv : V6 (F A) -> option (V6 (F A))) (l2p p2l : V6 (F A) -> V6 (F A)) (limits : V6 (F A * F A)).
Context (mn mx M : Z -> R).
Context (L2P : forall a, six (fin 1000000) a -> six (fin 10000000) (l2p a)).
Context (P2L : forall a, six (fin 1100) a -> six (fin 1000000) (p2l a)).
Context (M3 : forall i, (M i <= 3)%R).
Notation run := (r_run A fwd inv l2p p2l limits).

Lemma angles_differ a b i : six (fin 1000000) a -> six (fin 1000000) b -> 0 <= i < 6 -> (2 / 10000 <= dist6 a b i)%R -> angles_equal A a b = false.
Proof.
  intros (A0 & A1 & A2 & A3 & A4 & A5) (B0 & B1 & B2 & B3 & B4 & B5) Hi D. unfold angles_equal, list6. cbn [forallb zip6 v0 v1 v2 v3 v4 v5]. change (F A) with spec_float.
  unfold dist6 in D.
  assert (Q : i = 0 \/ i = 1 \/ i = 2 \/ i = 3 \/ i = 4 \/ i = 5) by lia.
  destruct Q as [->|[->|[->|[->|[->| ->]]]]]; cbn [at6] in D; (apply differs in D; [|assumption|assumption]); rewrite D; cbn [negb]; rewrite ?andb_false_r; reflexivity.
Qed.

(** ** C35 in IEEE arithmetic: a joint target inside the limits is carried out *)
Theorem C35_legal_target_is_executed_ieee (r : robot A) target i :
  ready L mn mx M r -> r_trans r = false -> six (fin 1000000) target ->
  within (A := A) l2p limits (r_servos r) target ->
  0 <= i < 6 -> (2 / 10000 <= Rabs (val (at6 (current_logical A p2l r) i) - val (at6 target i)))%R ->
  exists r1 evs vels, run r [OSetAngles (A := A) target; OProcess] = Ok (r1, evs) /\
    servo_cmds evs = all_six (A := A) vels (l2p target) /\ is_moving r1 = true.
Proof.
  intros RD TR FT [W1 W2] Hi D. pose proof RD as (IA & _ & _ & _ & (mv & Vmv & Bmv) & MP & PC).
  cbn [r_run r_step bind]. unfold r_process, set_angles6. cbn [r_state with_state].
  unfold r_prepare. cbn [r_trans r_achg r_pchg with_state with_flags with_targets]. rewrite TR, PC. cbn [andb].
  cbv zeta.
  match goal with |- context [angles_equal A ?x ?y] =>
    change (angles_equal A x y) with (angles_equal A (current_logical A p2l r) target) end.
  rewrite (angles_differ _ _ i (logical_fin L p2l mn mx M P2L r IA) FT Hi D).
  cbn [r_method with_state with_flags with_targets with_starts]. rewrite MP. cbn [bind].
  match goal with |- context [r_start_move _ _ _ _ _ _ ?x] => set (rs := x) in * end.
  assert (MS : r_method rs = P2P) by exact MP.
  set (time := d2f A (dmul A (f2d A (fdiv A (max_change A (current_logical A p2l r) target) (r_maxvel r))) (RAD_TO_DEG A))).
  destruct (start_move_p2p_accept A fwd inv l2p p2l limits rs time MS) as (r1 & evs & vels & E & C & S).
  - apply outside_iff. exact W1.
  - apply outside_iff. exact W2.
  - reflexivity.
  - change (r_targetA rs) with target.
    destruct (time_bounds L l2p p2l mn mx M L2P P2L M3 r rs target time RD FT eq_refl W2 eq_refl) as (T & VT & BT & _ & ID).
    assert (IT : (2 / 10000 * 57 / 100000 <= ideal_time L l2p p2l r target)%R).
    { unfold ideal_time. eapply Rle_trans; [|apply Rmax_l]. rewrite (val_v _ _ Vmv).
      assert (MX : (2 / 10000 <= max6 (dist6 (current_logical A p2l r) target))%R).
      { eapply Rle_trans; [exact D|]. pose proof (max6_ge (dist6 (current_logical A p2l r) target)) as (X0 & X1 & X2 & X3 & X4 & X5).
        assert (Q : i = 0 \/ i = 1 \/ i = 2 \/ i = 3 \/ i = 4 \/ i = 5) by lia.
        destruct Q as [->|[->|[->|[->|[->| ->]]]]]; assumption. }
      change (2 / 10000 * 57 * / 100000 <= max6 (dist6 (current_logical A p2l r) target) * degrees * / mv)%R. apply Rmult_le_compat; [lra|lra| |].
      - apply Rmult_le_compat; [lra|lra|exact MX|unfold degrees; lra].
      - apply Rinv_le_contravar; lra. }
    assert (T0 : (0 < T)%R).
    { apply Rabs_bounds in ID. lra. }
    cbn [feq fofz IEEE]. rewrite (fv_eq 24 128 _ _ _ _ VT (v_int 0 ltac:(lia))). unfold reqb. destruct (Req_EM_T T 0); [lra|reflexivity].
  - rewrite E. cbn [bind]. rewrite app_nil_r. exists r1, evs, vels. split; [reflexivity|]. split; [exact C|]. unfold is_moving. now rewrite S.
Qed.
End Legal.

(** ** degrees, as the host writes them, in radians, as the device computes them *)
Section Degrees.
Context (L : libm).
Notation A := (IEEE L).
Definition unit64 : R := SF2R radix2 (DEG_TO_RAD A).
Definition rad (d : R) : R := r32 (r64 (r64 (r32 (r64 d)) * unit64)).
Lemma unit64_near : (Rabs (unit64 - PI / 180) <= PI / 180 / 10000000000)%R.
Proof. exact (proj2 (deg_to_rad64 L)). Qed.
Lemma unit64_bounds : (17 / 1000 <= unit64 <= 18 / 1000)%R.
Proof. pose proof unit64_near as E. pose proof PI_digits. apply Rabs_bounds in E. lra. Qed.
Lemma rad_le x y : (x <= y -> rad x <= rad y)%R.
Proof.
  intros H. pose proof unit64_bounds. unfold rad. apply r32_le, r64_le. apply Rmult_le_compat_r; [lra|]. apply r64_le, r32_le, r64_le. exact H.
Qed.
Lemma rad_near d : (Rabs d <= 1000000)%R -> (Rabs (rad d - to_radians d) <= Rabs (to_radians d) * (13 / 100000000) + 20 * tiny)%R.
Proof.
  intros B. unfold rad, to_radians. replace (d * PI / 180)%R with (d * (PI / 180))%R by (unfold Rdiv; ring).
  pose proof unit64_near as EK. pose proof PI_digits as PD. pose proof tiny_pos as T0. pose proof tiny_small as T1.
  assert (K1 : (17 / 1000 <= PI / 180 <= 18 / 1000)%R) by lra. set (k := (PI / 180)%R) in *. clearbody k.
  pose proof (two_rounds d) as E0. set (a := r32 (r64 d)) in *. clearbody a.
  pose proof (r64_close a) as E1. set (b := r64 a) in *. clearbody b.
  pose proof (abs_of _ _ _ E0) as BA. pose proof (Rabs_pos d) as D0. pose proof (Rabs_pos a) as A0.
  assert (E2 : (Rabs (b - d) <= Rabs d * (601 / 10000000000) + 5 * tiny)%R) by (eapply tri3; [exact E1|exact E0|]; lra).
  apply Rabs_bounds in EK.
  assert (P1 : (Rabs (b * unit64 - d * k) <= Rabs (d * k) * (604 / 10000000000) + 6 * tiny)%R).
  { replace (b * unit64 - d * k)%R with ((b - d) * unit64 + d * (unit64 - k))%R by ring. eapply Rle_trans; [apply Rabs_triang|]. rewrite !Rabs_mult, (Rabs_pos_eq k) by lra.
    rewrite (Rabs_pos_eq unit64) by lra.
    assert (Q1 : (Rabs (b - d) * unit64 <= (Rabs d * (601 / 10000000000) + 5 * tiny) * (k * (1 + 1 / 10000000000)))%R).
    { apply Rmult_le_compat; [apply Rabs_pos|lra|exact E2|lra]. }
    assert (Q2 : (Rabs d * Rabs (unit64 - k) <= Rabs d * (k / 10000000000))%R) by (apply Rmult_le_compat_l; [apply Rabs_pos|apply Rabs_le; lra]).
    assert (0 <= Rabs d * k)%R by (apply Rmult_le_pos; lra). assert (tiny * k <= tiny)%R by (rewrite <- (Rmult_1_r tiny) at 2; apply Rmult_le_compat_l; lra). lra. }
  pose proof (two_rounds (b * unit64)) as E3. pose proof (abs_of _ _ _ P1) as B3. pose proof (Rabs_pos (d * k)).
  eapply tri3; [exact E3|exact P1|]. lra.
Qed.
Lemma rad_within d B : (Rabs d <= B)%R -> (0 <= B <= 1000000)%R -> (Rabs (rad d - to_radians d) <= B * (23 / 10000000000) + 1 / 1000000000000)%R.
Proof.
  intros H HB. pose proof (rad_near d ltac:(lra)) as E. pose proof tiny_36. pose proof PI_digits.
  assert (Q : (Rabs (to_radians d) <= B * (1746 / 100000))%R).
  { unfold to_radians. replace (d * PI / 180)%R with (d * (PI / 180))%R by (unfold Rdiv; ring). rewrite Rabs_mult, (Rabs_pos_eq (PI / 180)) by lra. apply Rmult_le_compat; try lra. apply Rabs_pos. }
  lra.
Qed.
Lemma written_v n : numeral_ok n -> (Rabs (decimal n) <= 1000000)%R -> v32 (in_radians A (written A n)) (rad (decimal n)).
Proof.
  intros OK B. destruct (num_v L n OK ltac:(lra)) as [_ V]. rewrite written_eq. unfold in_radians, rad. cbn [d2f dmul f2d IEEE].
  pose proof (two_rounds (decimal n)) as E0. set (a := r32 (r64 (decimal n))) in *. pose proof tiny_small as T1. pose proof tiny_pos as T0.
  pose proof (abs_of _ _ _ E0) as BA. pose proof (r64_close a) as E1. pose proof (abs_of _ _ _ E1) as BB. pose proof unit64_bounds as UB.
  pose proof (Rabs_pos (decimal n)). pose proof (Rabs_pos a).
  assert (P : (Rabs (r64 a * unit64) <= 2000000)%R).
  { rewrite Rabs_mult, (Rabs_pos_eq unit64) by lra. apply Rle_trans with (2000000 * 1)%R; [|lra]. apply Rmult_le_compat; try lra. apply Rabs_pos. }
  apply (fv_conv 53 1024 24 128).
  - apply (fv_mul 53 1024); [|exact (proj1 (deg_to_rad64 L))|apply r64_bound; fold unit64; lra].
    apply (fv_conv 24 128 53 1024); [exact V|apply r64_bound; lra].
  - apply r32_bound. pose proof (r64_close (r64 a * unit64)) as E2. pose proof (abs_of _ _ _ E2). pose proof (Rabs_pos (r64 a * unit64)). lra.
Qed.
(** the limits of the configuration *)
Lemma deg_v z : Z.abs z <= 1000 -> v32 (deg A z) (rad (IZR z)).
Proof.
  intros H. unfold deg, rad.
  assert (I64 : r64 (IZR z) = IZR z) by (apply (rnd_IZR 53 1024); [|lia]; apply Z.le_trans with (1 := H); vm_compute; discriminate).
  assert (I32 : r32 (IZR z) = IZR z) by (apply r32_IZR; lia). rewrite I64, I32, I64.
  cbn [d2f dmul IEEE].
  assert (Q : forall n, 0 <= n <= 1000 -> v64 (dnum A n) (IZR n)).
  { intros n Hn. unfold dnum. cbn [ddec IEEE]. replace (IZR n) with (r64 (rdec false n 0)).
    - apply (fv_dec 53 1024); [lia|]. apply r64_bound. rewrite rdec_int. rewrite Rabs_pos_eq; [apply (IZR_le _ 1000000000000000)|apply IZR_le]; lia.
    - rewrite rdec_int. apply (rnd_IZR 53 1024); [|lia]. apply Z.le_trans with 1000; [lia|]. vm_compute. discriminate. }
  assert (V : v64 (if z <? 0 then dopp A (dnum A (- z)) else dnum A z) (IZR z)).
  { destruct (Z.ltb_spec z 0).
    - replace (IZR z) with (- IZR (- z))%R by (rewrite opp_IZR; ring). apply fv_opp. apply Q. lia.
    - apply Q. lia. }
  assert (B : (Rabs (IZR z) <= 1000)%R) by (rewrite <- abs_IZR; apply (IZR_le _ 1000); lia). pose proof unit64_bounds as UB.
  assert (P : (Rabs (IZR z * unit64) <= 1000)%R).
  { rewrite Rabs_mult, (Rabs_pos_eq unit64) by lra. apply Rle_trans with (1000 * 1)%R; [|lra]. apply Rmult_le_compat; try lra. apply Rabs_pos. }
  apply (fv_conv 53 1024 24 128).
  - apply (fv_mul 53 1024); [exact V|exact (proj1 (deg_to_rad64 L))|apply r64_bound; fold unit64; lra].
  - apply r32_bound. pose proof (r64_close (IZR z * unit64)) as E2. pose proof (abs_of _ _ _ E2). pose proof (Rabs_pos (IZR z * unit64)). pose proof tiny_small. lra.
Qed.

(** comparisons with a limit *)
Lemma not_outside_v x lo hi a : v32 x a -> Z.abs lo <= 1000 -> Z.abs hi <= 1000 ->
  not_outside A x (deg A lo) (deg A hi) <-> (rad (IZR lo) <= a <= rad (IZR hi))%R.
Proof.
  intros V Hl Hh. unfold not_outside. cbn [flt IEEE]. rewrite (fv_lt 24 128 _ _ _ _ V (deg_v lo Hl)), (fv_lt 24 128 _ _ _ _ (deg_v hi Hh) V).
  rewrite !rltb_false. tauto.
Qed.
Lemma rad_in lo hi d : from_to lo hi 0 d -> (rad (IZR lo) <= rad d <= rad (IZR hi))%R.
Proof. intros [H1 H2]. split; apply rad_le; lra. Qed.
Lemma in_rad lo hi d : Z.abs lo <= 140 -> Z.abs hi <= 140 -> (rad (IZR lo) <= rad d <= rad (IZR hi))%R -> from_to lo hi (1 / 10000) d.
Proof.
  intros Hl Hh [H1 H2]. apply Z.abs_le in Hl, Hh. destruct Hl as [Hl1 Hl2], Hh as [Hh1 Hh2]. apply IZR_le in Hl1, Hl2, Hh1, Hh2. change (-140) with (- (140)) in *.
  rewrite ?opp_IZR in *. pose proof PI_digits.
  split; apply Rnot_lt_le; intros X.
  - pose proof (rad_le d (IZR lo - 1 / 10000) ltac:(lra)) as K.
    pose proof (rad_within (IZR lo) 141 ltac:(apply Rabs_le; lra) ltac:(lra)) as E1. pose proof (rad_within (IZR lo - 1 / 10000) 141 ltac:(apply Rabs_le; lra) ltac:(lra)) as E2.
    apply Rabs_bounds in E1, E2. unfold to_radians in *.
    replace ((IZR lo - 1 / 10000) * PI / 180)%R with (IZR lo * PI / 180 - PI / 180 / 10000)%R in E2 by field. set (u := (IZR lo * PI / 180)%R) in *. lra.
  - pose proof (rad_le (IZR hi + 1 / 10000) d ltac:(lra)) as K.
    pose proof (rad_within (IZR hi) 141 ltac:(apply Rabs_le; lra) ltac:(lra)) as E1. pose proof (rad_within (IZR hi + 1 / 10000) 141 ltac:(apply Rabs_le; lra) ltac:(lra)) as E2.
    apply Rabs_bounds in E1, E2. unfold to_radians in *.
    replace ((IZR hi + 1 / 10000) * PI / 180)%R with (IZR hi * PI / 180 + PI / 180 / 10000)%R in E2 by field. set (u := (IZR hi * PI / 180)%R) in *. lra.
Qed.
(** joints 1 and 2 together *)
Lemma both_near x y : (Rabs x <= 136)%R -> (Rabs y <= 136)%R -> (Rabs (r32 (rad y + rad x) - to_radians (x + y)) <= 95 / 100000000)%R.
Proof.
  intros Hx Hy. pose proof (rad_within x 136 Hx ltac:(lra)) as E1. pose proof (rad_within y 136 Hy ltac:(lra)) as E2. pose proof PI_digits. pose proof tiny_36. pose proof tiny_pos.
  assert (X : (Rabs (to_radians x) <= 24 / 10)%R /\ (Rabs (to_radians y) <= 24 / 10)%R).
  { unfold to_radians, Rdiv. rewrite !Rmult_assoc, (Rabs_mult x), (Rabs_mult y), (Rabs_pos_eq (PI * / 180)) by lra. split; (apply Rle_trans with (136 * (PI * / 180))%R; [apply Rmult_le_compat_r; lra|lra]). }
  destruct X as [X Y]. assert (S : (to_radians (x + y) = to_radians x + to_radians y)%R) by (unfold to_radians; field). rewrite S.
  apply Rabs_bounds in E1, E2, X, Y. set (u := to_radians x) in *. set (v := to_radians y) in *. set (p := rad x) in *. set (q := rad y) in *.
  pose proof (r32_error (q + p)) as E. assert (B : (Rabs (q + p) <= 49 / 10)%R) by (apply Rabs_le; lra). apply Rabs_bounds in E. apply Rabs_le. lra.
Qed.
End Degrees.

(** ** the kit *)
Section Kit.
Context (L : libm).
Notation A := (IEEE L).
Context (fwd : V6 (F A) -> V6 (F A)) (inv : V6 (F A) -> option (V6 (F A))).
Notation kit_run := (r_run A fwd inv (kit_l2p A) (kit_p2l A) (kit_limits A)).
Definition asked (n : V6 numeral) : V6 spec_float := map6 (fun x => in_radians A (written A x)) n.

Lemma kit_within (s : V6 (servo A)) (n : V6 numeral) : same_limits A (kit_servos A) s ->
  axes (fun i => numeral_ok (at6 n i) /\ (Rabs (decimal (at6 n i)) <= 1000000)%R) ->
  (within (A := A) (kit_l2p A) (kit_limits A) s (asked n) -> working_degrees (1 / 10000) (1 / 10000) (map6 decimal n)) /\
  (working_degrees 0 (- (1 / 10000)) (map6 decimal n) -> within (A := A) (kit_l2p A) (kit_limits A) s (asked n)).
Proof.
  intros SL ((O0 & B0) & (O1 & B1) & (O2 & B2) & (O3 & B3) & (O4 & B4) & (O5 & B5)).
  cbn [at6] in *. unfold same_limits, axes in SL. cbn [at6] in SL.
  destruct SL as ((L0 & K0) & (L1 & K1) & (L2 & K2) & (L3 & K3) & (L4 & K4) & (L5 & K5)).
  pose proof (written_v L _ O0 B0) as V0. pose proof (written_v L _ O1 B1) as V1. pose proof (written_v L _ O2 B2) as V2.
  pose proof (written_v L _ O3 B3) as V3. pose proof (written_v L _ O4 B4) as V4. pose proof (written_v L _ O5 B5) as V5.
  unfold within, axes. cbn [at6]. rewrite L0, K0, L1, K1, L2, K2, L3, K3, L4, K4, L5, K5. clear L0 K0 L1 K1 L2 K2 L3 K3 L4 K4 L5 K5.
  unfold asked, kit_limits, kit_l2p, kit_servos, kit_servo, map6. cbn [v0 v1 v2 v3 v4 v5 fst snd s_min s_max].
  rewrite !(not_outside_v L _ _ _ _ V0), !(not_outside_v L _ _ _ _ V1), !(not_outside_v L _ _ _ _ V2), !(not_outside_v L _ _ _ _ V3), !(not_outside_v L _ _ _ _ V4), !(not_outside_v L _ _ _ _ V5) by (cbn; lia).
  unfold working_degrees. cbn [v0 v1 v2 v3 v4 v5].
  set (d0 := decimal (v0 n)) in *. set (d1 := decimal (v1 n)) in *. set (d2 := decimal (v2 n)) in *. set (d3 := decimal (v3 n)) in *. set (d4 := decimal (v4 n)) in *. set (d5 := decimal (v5 n)) in *.
  assert (V12 : v32 (fadd A (in_radians A (written A (v2 n))) (in_radians A (written A (v1 n)))) (r32 (rad L d2 + rad L d1))).
  { cbn [fadd IEEE]. apply v_add; [exact V2|exact V1|].
    pose proof (rad_near L d1 B1) as E1. pose proof (rad_near L d2 B2) as E2. pose proof tiny_36. pose proof PI_digits.
    assert (X : forall d, (Rabs d <= 1000000)%R -> (Rabs (to_radians d) <= 20000)%R).
    { intros d Hd. unfold to_radians, Rdiv. rewrite Rmult_assoc, Rabs_mult, (Rabs_pos_eq (PI * / 180)) by lra. apply Rle_trans with (1000000 * (PI * / 180))%R; [apply Rmult_le_compat_r; lra|lra]. }
    pose proof (abs_of _ _ _ E1). pose proof (abs_of _ _ _ E2). pose proof (X d1 B1). pose proof (X d2 B2). eapply Rle_trans; [apply Rabs_triang|]. lra. }
  rewrite (not_outside_v L _ _ _ _ V12) by (cbn; lia).
  pose proof PI_digits as PD.
  assert (E45 : (Rabs (rad L (-45) - to_radians (-45)) <= 2 / 10000000)%R) by (pose proof (rad_within L (-45) 45 ltac:(apply Rabs_le; lra) ltac:(lra)); lra).
  assert (E135 : (Rabs (rad L 135 - to_radians 135) <= 32 / 100000000)%R) by (pose proof (rad_within L 135 135 ltac:(apply Rabs_le; lra) ltac:(lra)); lra).
  split.
  - intros ((H0 & H1 & H2 & H3 & H4 & H5) & (_ & _ & H12 & _)).
    apply in_rad in H0, H1, H2, H3, H4, H5; try (cbn; lia).
    split; [exact H0|]. split; [exact H1|]. split; [exact H2|]. split; [|auto].
    destruct H1 as [H1 H1'], H2 as [H2 H2'].
    pose proof (both_near L d1 d2 ltac:(apply Rabs_le; lra) ltac:(apply Rabs_le; lra)) as EB.
    apply Rabs_bounds in E45, E135, EB. unfold to_radians in *. set (sm := (d1 + d2)%R) in *.
    split; apply Rnot_lt_le; intros X.
    + assert (sm * PI / 180 <= (-45 - 1 / 10000) * PI / 180)%R; [|lra].
      unfold Rdiv. rewrite !Rmult_assoc. apply Rmult_le_compat_r; lra.
    + assert ((135 + 1 / 10000) * PI / 180 <= sm * PI / 180)%R; [|lra].
      unfold Rdiv. rewrite !Rmult_assoc. apply Rmult_le_compat_r; lra.
  - intros (H0 & H1 & H2 & H12 & H3 & H4 & H5).
    pose proof (rad_in L _ _ _ H0) as R0. pose proof (rad_in L _ _ _ H1) as R1. pose proof (rad_in L _ _ _ H2) as R2.
    pose proof (rad_in L _ _ _ H3) as R3. pose proof (rad_in L _ _ _ H4) as R4. pose proof (rad_in L _ _ _ H5) as R5.
    split; [auto 10|]. split; [exact R0|]. split; [exact R1|]. split; [|auto].
    destruct H1 as [H1 H1'], H2 as [H2 H2'], H12 as [H12 H12'].
    pose proof (both_near L d1 d2 ltac:(apply Rabs_le; lra) ltac:(apply Rabs_le; lra)) as EB.
    apply Rabs_bounds in E45, E135, EB. unfold to_radians in *. set (sm := (d1 + d2)%R) in *.
    assert (X1 : ((-45 + 1 / 10000) * PI / 180 <= sm * PI / 180)%R) by (unfold Rdiv; rewrite !Rmult_assoc; apply Rmult_le_compat_r; lra).
    assert (X2 : (sm * PI / 180 <= (135 - 1 / 10000) * PI / 180)%R) by (unfold Rdiv; rewrite !Rmult_assoc; apply Rmult_le_compat_r; lra).
    split; lra.
Qed.

Lemma asked_fin n : axes (fun i => numeral_ok (at6 n i) /\ (Rabs (decimal (at6 n i)) <= 1000000)%R) -> six (fin 1000000) (asked n).
Proof.
  assert (X : forall x, numeral_ok x /\ (Rabs (decimal x) <= 1000000)%R -> fin 1000000 (in_radians A (written A x))).
  { intros x [OK B]. exists (rad L (decimal x)). split; [apply written_v; assumption|].
    pose proof (rad_near L _ B) as E. pose proof (abs_of _ _ _ E) as BE. pose proof tiny_36. pose proof PI_digits.
    assert (Y : (Rabs (to_radians (decimal x)) <= 20000)%R).
    { unfold to_radians, Rdiv. rewrite Rmult_assoc, Rabs_mult, (Rabs_pos_eq (PI * / 180)) by lra. apply Rle_trans with (1000000 * (PI * / 180))%R; [apply Rmult_le_compat_r; lra|lra]. }
    lra. }
  intros (H0 & H1 & H2 & H3 & H4 & H5). unfold six, asked, map6. cbn [v0 v1 v2 v3 v4 v5]. cbn [at6] in *. auto 10.
Qed.

(** the shafts' angles commanded for a target in the working range: those of the degrees written *)
Lemma asked_shafts n : axes (fun i => numeral_ok (at6 n i)) -> working_degrees 0 (- (1 / 10000)) (map6 decimal n) ->
  axes (fun i => Rabs (val (at6 (kit_l2p A (asked n)) i) - at6 (shafts_for (map6 (fun x => to_radians (decimal x)) n)) i) <= 1 / 1000000)%R.
Proof.
  intros (O0 & O1 & O2 & O3 & O4 & O5) (H0 & H1 & H2 & _ & H3 & H4 & H5). cbn [at6] in *. unfold map6 in *. cbn [v0 v1 v2 v3 v4 v5] in *.
  unfold from_to in *.
  assert (X : forall x, numeral_ok x -> (Rabs (decimal x) <= 140)%R -> v32 (in_radians A (written A x)) (rad L (decimal x)) /\ (Rabs (val (in_radians A (written A x)) - to_radians (decimal x)) <= 1 / 1000000)%R).
  { intros x OK B. pose proof (written_v L x OK ltac:(lra)) as V. rewrite (val_v _ _ V). split; [exact V|]. pose proof (rad_within L _ 140 B ltac:(lra)). lra. }
  unfold axes, kit_l2p, asked, shafts_for, map6. cbn [at6 v0 v1 v2 v3 v4 v5].
  split; [apply X; [assumption|apply Rabs_le; lra]|]. split; [apply X; [assumption|apply Rabs_le; lra]|].
  split; [|split; [apply X; [assumption|apply Rabs_le; lra]|split; (apply X; [assumption|apply Rabs_le; lra])]].
  destruct (X _ O1 ltac:(apply Rabs_le; lra)) as [V1 _]. destruct (X _ O2 ltac:(apply Rabs_le; lra)) as [V2 _].
  pose proof (both_near L (decimal (v1 n)) (decimal (v2 n)) ltac:(apply Rabs_le; lra) ltac:(apply Rabs_le; lra)) as EB.
  assert (V12 : v32 (fadd A (in_radians A (written A (v2 n))) (in_radians A (written A (v1 n)))) (r32 (rad L (decimal (v2 n)) + rad L (decimal (v1 n))))).
  { cbn [fadd IEEE]. apply v_add; [exact V2|exact V1|]. pose proof PI_digits.
    pose proof (rad_within L (decimal (v1 n)) 140 ltac:(apply Rabs_le; lra) ltac:(lra)) as E1. pose proof (rad_within L (decimal (v2 n)) 140 ltac:(apply Rabs_le; lra) ltac:(lra)) as E2.
    assert (Y : forall d, (Rabs d <= 140)%R -> (Rabs (to_radians d) <= 3)%R).
    { intros d Hd. unfold to_radians, Rdiv. rewrite Rmult_assoc, Rabs_mult, (Rabs_pos_eq (PI * / 180)) by lra. apply Rle_trans with (140 * (PI * / 180))%R; [apply Rmult_le_compat_r; lra|lra]. }
    pose proof (abs_of _ _ _ E1). pose proof (abs_of _ _ _ E2). pose proof (Y (decimal (v1 n)) ltac:(apply Rabs_le; lra)). pose proof (Y (decimal (v2 n)) ltac:(apply Rabs_le; lra)).
    eapply Rle_trans; [apply Rabs_triang|]. lra. }
  rewrite (val_v _ _ V12). replace (to_radians (decimal (v1 n)) + to_radians (decimal (v2 n)))%R with (to_radians (decimal (v1 n) + decimal (v2 n))) by (unfold to_radians; field). lra.
Qed.

Lemma start_ready_ok (r : robot A) target : ready L (kit_mn L) (kit_mx L) (fun _ => 3%R) r -> six (fin 1000000) target ->
  exists r1 evs, kit_run r [OSetAngles (A := A) target; OProcess] = Ok (r1, evs).
Proof.
  intros RD FT.
  destruct (step_ready L fwd inv (kit_l2p A) (kit_p2l A) (kit_limits A) (kit_mn L) (kit_mx L) (fun _ => 3%R) (kit_l2p_fin L) (kit_p2l_fin L) r (OSetAngles (A := A) target) RD FT) as (r1 & e1 & E1 & RD1 & _).
  destruct (step_ready L fwd inv (kit_l2p A) (kit_p2l A) (kit_limits A) (kit_mn L) (kit_mx L) (fun _ => 3%R) (kit_l2p_fin L) (kit_p2l_fin L) r1 (OProcess (A := A)) RD1 I) as (r2 & e2 & E2 & _).
  cbn [r_run]. rewrite E1. cbn [bind]. rewrite E2. cbn [bind]. do 2 eexists. reflexivity.
Qed.

(** ** C64 in IEEE arithmetic, from the decimal numbers written by the host.

    After any history of joint moves since power-on, the six joint angles [n] (decimal numbers, in degrees) are
    carried out if they lie in the working range - a ten-thousandth of a degree inside where joints 1 and 2 are taken together -
    and the shafts are sent to the angles written, to within a millionth of a radian; nothing moves if they lie more
    than a ten-thousandth of a degree outside. *)
Theorem C64_working_range_ieee (os : list (RobotModel.rop A)) (r : robot A) evs0 (n : V6 numeral) :
  Forall (joint_op L) os -> kit_run (robot_new A fwd (kit_p2l A) (kit_servos A)) os = Ok (r, evs0) -> r_trans r = false ->
  axes (fun i => numeral_ok (at6 n i) /\ (Rabs (decimal (at6 n i)) <= 1000000)%R) ->
  exists r1 evs, kit_run r [OSetAngles (A := A) (asked n); OProcess] = Ok (r1, evs) /\
    (working_degrees 0 (- (1 / 10000)) (map6 decimal n) ->
     (exists i : Z, 0 <= i < 6 /\ (2 / 10000 <= Rabs (val (at6 (current_logical A (kit_p2l A) r) i) - val (at6 (asked n) i)))%R) ->
       (exists vels angles, servo_cmds evs = all_six (A := A) vels angles /\
          axes (fun i => Rabs (val (at6 angles i) - at6 (shafts_for (map6 (fun x => to_radians (decimal x)) n)) i) <= 1 / 1000000)%R) /\
       is_moving r1 = true) /\
    (~ working_degrees (1 / 10000) (1 / 10000) (map6 decimal n) ->
       servo_cmds evs = [] /\ r_servos r1 = r_servos r /\ is_moving r1 = false).
Proof.
  intros J E TR ON.
  pose proof (run_ready L fwd inv (kit_l2p A) (kit_p2l A) (kit_limits A) (kit_mn L) (kit_mx L) (fun _ => 3%R) (kit_l2p_fin L) (kit_p2l_fin L) os _ r evs0 (kit_ready L fwd) J E) as RD.
  pose proof (run_limits A fwd inv _ _ _ os _ _ _ E) as SL. cbn [r_servos robot_new with_targets] in SL.
  pose proof (asked_fin n ON) as FT. destruct (kit_within (r_servos r) n SL ON) as [W1 W2].
  destruct (start_ready_ok r (asked n) RD FT) as (r1 & evs & X).
  exists r1, evs. split; [exact X|]. split.
  - intros I (i & Hi & D).
    destruct (C35_legal_target_is_executed_ieee L fwd inv (kit_l2p A) (kit_p2l A) (kit_limits A) (kit_mn L) (kit_mx L) (fun _ => 3%R) (kit_l2p_fin L) (kit_p2l_fin L) (fun _ => Rle_refl 3) r (asked n) i RD TR FT (W2 I) Hi D) as (r1' & evs' & vels & X' & C & MV).
    rewrite X in X'. injection X' as <- <-. split; [|exact MV]. exists vels, (kit_l2p A (asked n)). split; [exact C|].
    apply asked_shafts; [|exact I]. unfold axes in *. tauto.
  - intros O. assert (NW : ~ within (A := A) (kit_l2p A) (kit_limits A) (r_servos r) (asked n)) by (intros K; apply O, W1; exact K). clear O W1 W2 ON.
    set (target := asked n) in *. clearbody target. pose proof RD as (_ & _ & _ & _ & _ & MP & PC). clear RD.
    revert X. cbn [r_run r_step bind]. unfold r_process, set_angles6. cbn [r_state with_state].
    unfold r_prepare. cbn [r_trans r_achg r_pchg with_state with_flags with_targets]. rewrite TR, PC. cbn [andb]. cbv zeta.
    match goal with |- context [angles_equal A ?x ?y] =>
      change (angles_equal A x y) with (angles_equal A (current_logical A (kit_p2l A) r) target) end.
    destruct (angles_equal A (current_logical A (kit_p2l A) r) target) eqn:AE.
    { cbn [bind]. intros X. apply ok_pair in X as [-> ->]. split; [reflexivity|]. split; reflexivity. }
    cbn [r_method with_state with_flags with_targets with_starts]. rewrite MP. cbn [bind].
    match goal with |- context [r_start_move _ _ _ _ _ _ ?x] => set (rs := x) in * end.
    assert (MS : r_method rs = P2P) by exact MP.
    unfold r_start_move, r_plan. cbn [r_method with_steps]. rewrite MS. cbv zeta. cbn [bind].
    cbn [r_targetA r_servos r_startA r_maxvel with_steps].
    change (r_targetA rs) with target. change (r_servos rs) with (r_servos r).
    destruct (outside A target (map6 fst (kit_limits A)) (map6 snd (kit_limits A))) eqn:O1.
    + cbn [bind]. intros X. apply ok_pair in X as [-> ->]. split; [reflexivity|]. split; reflexivity.
    + destruct (outside A (kit_l2p A target) (map6 s_min (r_servos r)) (map6 s_max (r_servos r))) eqn:O2.
      * cbn [bind]. intros X. apply ok_pair in X as [-> ->]. split; [reflexivity|]. split; reflexivity.
      * exfalso. apply NW. split.
        -- apply (outside_false A fwd inv (kit_l2p A) (kit_p2l A)) in O1. exact O1.
        -- apply (outside_false A fwd inv (kit_l2p A) (kit_p2l A)) in O2. exact O2.
Qed.
End Kit.

(** ** The hypotheses are met, and the margin is needed *)
(** joints 1 and 2 at the decimal numbers x and y, the others at 0 *)
Definition zero : numeral := mkNum false [0] None.
Definition both (x y : numeral) : V6 numeral := mk6 zero x y zero zero zero.
Definition dec1 (i : list Z) (f : Z) : numeral := mkNum false i (Some [f]).
Definition joints12 (x y : numeral) : bool * nat :=
  let run := r_run IF (fun x => x) demo_inv (kit_l2p IF) (kit_p2l IF) (kit_limits IF) in
  match run (robot_new IF (fun x => x) (kit_p2l IF) (kit_servos IF)) [OSetAngles (A := IF) (asked flat_libm (both x y)); OProcess] with
  | Ok (r1, evs) => (is_moving r1, length (servo_cmds evs))
  | Ub _ => (false, 99%nat)
  end.
(** "M01 R1 45.5 R2 89.4" is carried out, "M01 R1 60 R2 90" moves nothing; and "M01 R1 0.4 R2 134.6" asks for exactly 135 degrees together
    - which is in the range - but the sum rounds to more than 135 degrees and nothing moves: hence the margin *)
Example C64_kit_ieee_cases :
  joints12 (dec1 [4; 5] 5) (dec1 [8; 9] 4) = (true, 6%nat) /\
  joints12 (mkNum false [6; 0] None) (mkNum false [9; 0] None) = (false, 0%nat) /\
  joints12 (dec1 [0] 4) (dec1 [1; 3; 4] 6) = (false, 0%nat) /\
  working_degrees 0 0 (map6 decimal (both (dec1 [0] 4) (dec1 [1; 3; 4] 6))) /\
  working_degrees 0 (- (1 / 10000)) (map6 decimal (both (dec1 [4; 5] 5) (dec1 [8; 9] 4))) /\
  ~ working_degrees (1 / 10000) (1 / 10000) (map6 decimal (both (mkNum false [6; 0] None) (mkNum false [9; 0] None))) /\
  axes (fun i => numeral_ok (at6 (both (dec1 [4; 5] 5) (dec1 [8; 9] 4)) i)).
Proof.
  split; [vm_compute; reflexivity|]. split; [vm_compute; reflexivity|]. split; [vm_compute; reflexivity|].
  split; [|split; [|split]].
  - unfold working_degrees, from_to, map6, both, dec1, zero, decimal. cbn [v0 v1 v2 v3 v4 v5 nneg nint nfrac app length pow].
    change (val10 [0]) with 0. change (val10 [0; 4]) with 4. change (val10 [1; 3; 4; 6]) with 1346. splits; lra.
  - unfold working_degrees, from_to, map6, both, dec1, zero, decimal. cbn [v0 v1 v2 v3 v4 v5 nneg nint nfrac app length pow].
    change (val10 [0]) with 0. change (val10 [4; 5; 5]) with 455. change (val10 [8; 9; 4]) with 894. splits; lra.
  - unfold working_degrees, from_to, map6, both, dec1, zero, decimal. cbn [v0 v1 v2 v3 v4 v5 nneg nint nfrac app length pow].
    change (val10 [0]) with 0. change (val10 [6; 0]) with 60. change (val10 [9; 0]) with 90. intros (_ & _ & _ & [_ H] & _). lra.
  - unfold axes, both, dec1, zero, numeral_ok. cbn [at6 v0 v1 v2 v3 v4 v5 nint nfrac app].
    assert (D : forall l, forallb (fun d => (0 <=? d) && (d <=? 9)) l = true -> Forall digit_ok l).
    { intros l H. apply Forall_forall. intros x I. rewrite forallb_forall in H. specialize (H x I). unfold digit_ok. lia. }
    splits; first [left; discriminate | discriminate | apply D; vm_compute; reflexivity].
Qed.
Print Assumptions C64_working_range_ieee.
