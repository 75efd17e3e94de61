(** * Joint moves in the arithmetic of the device: all joints arrive together, and the move ends *)
From Coq Require Import Reals Lra ZArith Lia Floats.SpecFloat.
From Flocq Require Import Core BinarySingleNaN.
From Verif Require Import Base Arith FloatBridge ServoModel ServoSpec ServoProofs ServoFloat.
From Verif Require Import RobotModel RobotSpec RobotProofs ConfigModel PropRobot PropFloat PropFloatMoves.
Open Scope Z_scope.

Lemma tiny_36 : (tiny <= / 1000000000000000000000000000000000000)%R.
Proof. apply Rinv_le_contravar; [lra|]. apply (IZR_le 1000000000000000000000000000000000000). vm_compute. discriminate. Qed.

(** the speed of a synchronised move: d/T up to one millionth *)
Lemma speed_bounds d d' T w v0 v : (5 / 10000000 <= d <= 7)%R -> (d - (d / 16777216 + tiny) <= d' <= d + (d / 16777216 + tiny))%R ->
  (0 < T <= 1000000000000)%R -> (1 / 1000 <= w <= 10000)%R -> (r32 (d' / w) <= T)%R ->
  v0 = r32 (d' / T) -> (v = v0 /\ v0 <= w \/ v = w /\ w < v0)%R ->
  (d / T * (1 - 1 / 1000000) <= v <= d / T * (1 + 1 / 1000000))%R /\ (0 < v0 <= 10001)%R /\ (Rabs (d' / T) <= 20000)%R.
Proof.
  intros D D' HT W TW V0 V. pose proof tiny_36 as T1. pose proof tiny_pos as T0.
  assert (IW : (0 < / w <= 1000)%R). { split; [apply Rinv_0_lt_compat; lra|]. replace 1000%R with (/ (1 / 1000))%R by field. apply Rinv_le_contravar; lra. }
  assert (IT : (0 < / T)%R) by (apply Rinv_0_lt_compat; lra).
  assert (IT2 : (/ 1000000000000 <= / T)%R) by (apply Rinv_le_contravar; lra).
  (* q = d'/w *)
  assert (Qw : (4 / 100000000000 <= d' / w)%R).
  { assert (I4 : (/ 10000 <= / w)%R) by (apply Rinv_le_contravar; lra). apply Rle_trans with (4 / 10000000 * / 10000)%R; [lra|]. unfold Rdiv. apply Rmult_le_compat; lra. }
  assert (TL : (d' / w * (1 - 1 / 16777216 - 1 / 100000000) <= T)%R).
  { apply Rle_trans with (2 := TW). destruct (r32_near (d' / w) (d' / w)) as [K _]; [rewrite Rabs_pos_eq; lra|]. lra. }
  assert (E1 : (d' * (1 - 1 / 16777216 - 1 / 100000000) <= T * w)%R).
  { apply Rmult_le_compat_r with (r := w) in TL; [|lra]. replace (d' / w * (1 - 1 / 16777216 - 1 / 100000000) * w)%R with (d' * (1 - 1 / 16777216 - 1 / 100000000))%R in TL by (field; lra). exact TL. }
  assert (E2 : (d' / T * (1 - 1 / 16777216 - 1 / 100000000) <= w)%R).
  { apply Rmult_le_reg_r with T; [lra|]. replace (d' / T * (1 - 1 / 16777216 - 1 / 100000000) * T)%R with (d' * (1 - 1 / 16777216 - 1 / 100000000))%R by (field; lra). lra. }
  assert (QT : (4 / 10000000 * / 1000000000000 <= d' / T)%R) by (unfold Rdiv at 2; apply Rmult_le_compat; lra).
  assert (DT : (d / T * (1 - 1 / 16777216 - 1 / 100000000) <= d' / T <= d / T * (1 + 1 / 16777216 + 1 / 100000000))%R).
  { assert (X : (d * (1 - 1 / 16777216 - 1 / 100000000) <= d' <= d * (1 + 1 / 16777216 + 1 / 100000000))%R) by lra. unfold Rdiv.
    split.
    - apply Rle_trans with (d * (1 - 1 * / 16777216 - 1 * / 100000000) * / T)%R; [lra|]. apply Rmult_le_compat_r; lra.
    - apply Rle_trans with (d * (1 + 1 * / 16777216 + 1 * / 100000000) * / T)%R; [|lra]. apply Rmult_le_compat_r; lra. }
  destruct (r32_near (d' / T) (d' / T)) as [K1 K2]; [rewrite Rabs_pos_eq; lra|]. rewrite <- V0 in K1, K2.
  set (x := (d / T)%R) in *. set (y := (d' / T)%R) in *.
  assert (K1' : (y * (1 - 1 / 16777216 - 1 / 100000000) <= v0)%R) by lra.
  assert (K2' : (v0 <= y * (1 + 1 / 16777216 + 1 / 100000000))%R) by lra.
  split; [|split; [lra|rewrite Rabs_pos_eq; lra]].
  destruct V as [[-> V]|[-> V]]; lra.
Qed.

(** the position, as computed, against the ideal one *)
Lemma sync_bounds a t v T tau : let d := Rabs (t - a) in (5 / 10000000 <= d)%R -> (-4 <= a <= 4)%R -> (-3 <= t <= 3)%R -> r32 a = a ->
  (0 < T <= 1000000000000)%R -> (0 <= v <= 10000)%R -> 0 <= tau < 4294967296 ->
  (d / T * (1 - 1 / 1000000) <= v <= d / T * (1 + 1 / 1000000))%R ->
  let p := rstep a t (rdelta v tau) in
  (Rabs (p - (a + (t - a) * Rmin 1 (IZR tau / 1000 / T))) <= d / 100000 + 2 / 1000000)%R /\
  (T * (1 + 1 / 100000) <= IZR tau / 1000 -> p = t)%R.
Proof.
  intros d D Ba Bt Ea HT Bv Htau V p. pose proof tiny_36 as T1. pose proof tiny_pos as T0.
  assert (IT : (0 < / T)%R) by (apply Rinv_0_lt_compat; lra). assert (TA : (0 <= IZR tau)%R) by (apply IZR_le; lia).
  destruct (rdelta_chain v tau Bv Htau) as (_ & _ & _ & _ & _ & P & DLo & DHi). set (dl := rdelta v tau) in *.
  set (rho := (IZR tau / 1000 / T)%R) in *.
  set (Y := (d * rho)%R).
  assert (RP : (0 <= rho)%R) by (unfold rho, Rdiv; apply Rmult_le_pos; lra).
  assert (YE : (d / T * (IZR tau / 1000) = Y)%R) by (unfold Y, rho; field; lra).
  assert (XB : (Y * (1 - 1 / 1000000) <= v * IZR tau / 1000 <= Y * (1 + 1 / 1000000))%R).
  { rewrite <- YE. assert (0 <= IZR tau / 1000)%R by lra. split.
    - apply Rle_trans with (d / T * (1 - 1 / 1000000) * (IZR tau / 1000))%R; [lra|]. apply Rle_trans with (v * (IZR tau / 1000))%R; [apply Rmult_le_compat_r; lra|lra].
    - apply Rle_trans with (v * (IZR tau / 1000))%R; [lra|]. apply Rle_trans with (d / T * (1 + 1 / 1000000) * (IZR tau / 1000))%R; [apply Rmult_le_compat_r; lra|lra]. }
  set (X := (v * IZR tau / 1000)%R) in *.
  assert (Y0 : (0 <= Y)%R) by (unfold Y; apply Rmult_le_pos; lra).
  assert (DL : (Y * (1 - 2 / 1000000) - 10000 * tiny <= dl <= Y * (1 + 2 / 1000000) + 10000 * tiny)%R) by lra.
  set (d' := Rabs (r32 (t - a))).
  assert (DD : (d - (d / 16777216 + tiny) <= d' <= d + (d / 16777216 + tiny))%R).
  { unfold d', d. pose proof (r32_error (t - a)) as E. pose proof (Rabs_triang_inv (r32 (t - a)) (t - a)) as I1.
    pose proof (Rabs_triang_inv (t - a) (r32 (t - a))) as I2. rewrite (Rabs_minus_sym (t - a)) in I2. lra. }
  (* the ideal way *)
  set (m := Rmin 1 rho). assert (Zd : ((d * m = d /\ d <= Y) \/ (d * m = Y /\ Y <= d))%R).
  { unfold m, Rmin, Y. destruct (Rle_dec 1 rho) as [H|H]; [left; split; [ring|]|right; split; [reflexivity|]].
    - rewrite <- (Rmult_1_r d) at 1. apply Rmult_le_compat_l; lra.
    - rewrite <- (Rmult_1_r d) at 2. apply Rmult_le_compat_l; lra. }
  assert (D7 : (d <= 7)%R) by (unfold d; apply Rabs_le; lra).
  assert (SG : (a < t /\ d = t - a)%R \/ (t < a /\ d = a - t)%R).
  { unfold d in *. unfold Rabs in *. destruct (Rcase_abs (t - a)); [right|left]; split; lra. }
  assert (PC : (p = t /\ d' < dl)%R \/ (dl <= d' /\ (a < t -> p = r32 (a + dl)) /\ (t < a -> p = r32 (a - dl)))%R).
  { unfold p, rstep. fold d'. rewrite (Rabs_pos_eq dl P). unfold rltb. destruct (Rlt_dec d' dl) as [Q|Q]; [left; auto|right].
    split; [lra|]. destruct (Rlt_dec a t); split; intros; try lra; reflexivity. }
  split.
  - destruct PC as [[-> Q]|(Q & PU & PD)].
    + assert (Yd : (d * (1 - 5 / 1000000) <= Y)%R) by lra.
      assert (R : (0 <= d - d * m <= d * (5 / 1000000))%R) by (destruct Zd as [[-> K]|[-> K]]; lra).
      replace (t - (a + (t - a) * m))%R with ((t - a) - (t - a) * m)%R by ring.
      destruct SG as [[O E]|[O E]].
      * rewrite <- E. rewrite Rabs_pos_eq; lra.
      * replace (t - a)%R with (- d)%R by lra. replace (- d - - d * m)%R with (- (d - d * m))%R by ring. rewrite Rabs_Ropp, Rabs_pos_eq; lra.
    + assert (R : (d * m - d * (3 / 1000000) - 1 / 100000000 <= dl <= d * m + d * (3 / 1000000) + 1 / 100000000)%R).
      { destruct Zd as [[-> K]|[-> K]]; lra. }
      destruct SG as [[O E]|[O E]].
      * rewrite (PU O). rewrite <- E. destruct (r32_near (a + dl) 12) as [K1 K2]; [apply Rabs_le; lra|]. apply Rabs_le. lra.
      * rewrite (PD O). replace (t - a)%R with (- d)%R by lra. destruct (r32_near (a - dl) 12) as [K1 K2]; [apply Rabs_le; lra|].
        replace (- d * m)%R with (- (d * m))%R by ring. apply Rabs_le. lra.
  - intros F. destruct PC as [[-> _]|(Q & _)]; [reflexivity|]. exfalso.
    assert (R1 : (1 + 1 / 100000 <= rho)%R).
    { assert (RT : (rho * T = IZR tau / 1000)%R) by (unfold rho; field; lra). apply Rmult_le_reg_r with T; [lra|]. rewrite RT. lra. }
    assert (Y1 : (d * (1 + 1 / 100000) <= Y)%R) by (unfold Y; apply Rmult_le_compat_l; lra). lra.
Qed.

Lemma fold_ge B l : Forall (pos B) l -> forall m, pos B m ->
  exists r, v32 (fold_left (fun m x => if SFltb m x then x else m) l m) r /\ (0 <= r <= B)%R /\
    (forall rm, v32 m rm -> rm <= r)%R /\ Forall (fun x => forall rx, v32 x rx -> (rx <= r)%R) l.
Proof.
  induction 1 as [|x l H F IH]; intros m P; cbn [fold_left].
  - destruct P as (r & V & K). exists r. split; [exact V|]. split; [exact K|]. split; [|apply Forall_nil]. intros rm W. pose proof (fv_inj 24 128 _ _ _ V W). lra.
  - destruct H as (rx & Vx & Bx), P as (rm & Vm & Bm).
    destruct (IH (if SFltb m x then x else m)) as (r & V & K & G1 & G2); [destruct (SFltb m x); [exists rx|exists rm]; auto|].
    exists r. split; [exact V|]. split; [exact K|].
    assert (rm <= r /\ rx <= r)%R as [G3 G4].
    { rewrite (fv_lt 24 128 _ _ _ _ Vm Vx) in G1. unfold rltb in G1. destruct (Rlt_dec rm rx); [specialize (G1 _ Vx)|specialize (G1 _ Vm)]; lra. }
    split; [intros z Vz; pose proof (fv_inj 24 128 _ _ _ Vm Vz); lra|]. apply Forall_cons; [|exact G2]. intros z Vz. pose proof (fv_inj 24 128 _ _ _ Vx Vz). lra.
Qed.

Section Sync.
Context (L : libm).
Notation A := (IEEE L).

Lemma at_target_32 (s : servo A) p t : v32 (s_cur s) p -> v32 (s_target s) t -> (-4 <= p <= 4)%R -> (-4 <= t <= 4)%R -> (Rabs (p - t) <= 9 / 10000000)%R -> servo_at_target A s = true.
Proof.
  intros Vp Vt Bp Bt B. pose proof tiny_36 as T1. pose proof tiny_pos as T0. unfold servo_at_target. cbn [dlt f2d fabsf fsub ddec IEEE].
  assert (V1 : v32 (SFabs (SFsub 24 128 (s_cur s) (s_target s))) (Rabs (r32 (p - t)))) by (apply fv_abs, v_sub; auto; apply Rabs_le; lra).
  apply Rabs_bounds in B. destruct (r32_near (p - t) (9 / 10000000)) as [K1 K2]; [apply Rabs_le; lra|].
  assert (B2 : (Rabs (r32 (p - t)) <= 91 / 100000000)%R) by (apply Rabs_le; lra). pose proof (Rabs_pos (r32 (p - t))) as B0.
  set (x := Rabs (r32 (p - t))) in *. destruct (r64_near x (91 / 100000000)) as [K3 K4]; [rewrite Rabs_pos_eq; lra|].
  assert (V2 : v64 (sf_conv 53 1024 (SFabs (SFsub 24 128 (s_cur s) (s_target s)))) (r64 x)).
  { apply (fv_conv 24 128 53 1024); auto. apply r64_bound. rewrite Rabs_pos_eq; lra. }
  assert (V3 : v64 (sf_dec 53 1024 false 1 (-6)) (SF2R radix2 (sf_dec 53 1024 false 1 (-6)))).
  { let y := eval vm_compute in (sf_dec 53 1024 false 1 (-6)) in change (sf_dec 53 1024 false 1 (-6)) with y. apply fv_valid; reflexivity. }
  rewrite (fv_lt 53 1024 _ _ _ _ V2 V3). unfold rltb. destruct (Rlt_dec _ _) as [H|H]; [reflexivity|]. exfalso. apply H.
  apply Rle_lt_trans with (92 / 100000000)%R; [lra|]. lits. lra.
Qed.

(** one servo of a synchronised move of duration T *)
Lemma sync_servo (s : servo A) mn mx M a t w T (tf time : spec_float) dts :
  inside32 L s mn mx M -> (M <= 3)%R -> v32 (s_cur s) a -> v32 tf t -> (mn <= t <= mx)%R -> v32 (s_maxvel s) w -> (1 / 1000 <= w)%R ->
  v32 time T -> (0 < T <= 1000000000000)%R ->
  (forall q, v32 (SFdiv 24 128 (SFabs (SFsub 24 128 tf (s_cur s))) (s_maxvel s)) q -> (q <= T)%R) ->
  Forall (fun d => 0 <= d) dts -> total dts < 4294967296 ->
  exists s2 p, sop_run A (servo_set_target A (servo_set_vel A s (SFdiv 24 128 (SFabs (SFsub 24 128 tf (s_cur s))) time)) tf) (ticks A dts) = Ok s2 /\
    v32 (s_cur s2) p /\ s_target s2 = tf /\
    (Rabs (p - (a + (t - a) * Rmin 1 (IZR (total dts) / 1000 / T))) <= Rabs (t - a) / 100000 + 2 / 1000000)%R /\
    (T * (1 + 1 / 100000) <= IZR (total dts) / 1000 -> servo_at_target A s2 = true)%R.
Proof.
  intros I HM Va Vt Bt Vw Bw VT HT TW N TT. pose proof tiny_36 as T1. pose proof tiny_pos as T0.
  set (v0 := SFdiv 24 128 (SFabs (SFsub 24 128 tf (s_cur s))) time).
  pose proof (v32_r _ _ Va) as Ea. pose proof (v32_r _ _ Vt) as Et.
  pose proof I as (C & _ & (w' & Vw' & Bw') & _ & (c & Vc & Bc) & _).
  pose proof (fv_inj 24 128 _ _ _ Vw Vw') as EW. subst w'. pose proof (fv_inj 24 128 _ _ _ Va Vc) as EC. subst c.
  pose proof (M_bounds L s mn mx M C) as HM2. pose proof (slack_bounds M HM2) as HS.
  assert (HX : (- M <= mn /\ mx <= M)%R) by (destruct C as (_ & _ & _ & X & Y & _); split; assumption). destruct HX as [HX HY].
  assert (SL : (slack M <= 75 / 100000000)%R) by (unfold slack; lra).
  assert (VD : v32 (SFabs (SFsub 24 128 tf (s_cur s))) (Rabs (r32 (t - a)))) by (apply fv_abs, v_sub; auto; apply Rabs_le; lra).
  assert (NV : number v0) by (apply (div_number _ _ _ _ VD VT); lra).
  destruct (op_inside L s mn mx M (SVel (A := A) v0) I (number_32 _ NV)) as (s1 & E1 & I1 & _). cbn in E1. injection E1 as <-.
  pose proof I1 as (_ & (v & Vv & Bv) & _).
  set (s1 := servo_set_vel A s v0) in *.
  assert (KC : s_cur s1 = s_cur s /\ s_min s1 = s_min s /\ s_max s1 = s_max s).
  { unfold s1, servo_set_vel. destruct (flt A _ _); [|destruct (fle A _ _)]; auto. }
  destruct KC as (KC & _). assert (Va1 : v32 (s_cur s1) a) by (rewrite KC; exact Va).
  assert (I0 : inside32 L (servo_set_target A s1 tf) mn mx M).
  { destruct I1 as (C1 & V & W & X1 & X2 & _). split; [exact C1|]. split; [exact V|]. split; [exact W|]. split; [exact X2|]. split; [exact X2|]. exists t. auto. }
  pose proof (total_nonneg _ N) as TP.
  destruct (run_ticks L a t v mn mx M tf dts Vt Bt Bc Ea N 0 (servo_set_target A s1 tf)) as (s2 & R1 & I2 & Vv2 & EL & G & C2 & S2); auto; try lia.
  { rewrite rdelta_0, rstep_0 by exact Ea. exact Va1. }
  rewrite Z.add_0_l in *. set (tau := total dts) in *.
  destruct (rdelta_chain v tau Bv ltac:(lia)) as (_ & _ & _ & _ & _ & P & _).
  exists s2, (rstep a t (rdelta v tau)). split; [exact R1|]. split; [exact C2|]. split; [exact G|].
  assert (VG : v32 (s_target s2) t) by (rewrite G; exact Vt).
  set (d := Rabs (t - a)).
  assert (DD : (d - (d / 16777216 + tiny) <= Rabs (r32 (t - a)) <= d + (d / 16777216 + tiny))%R).
  { unfold d. pose proof (r32_error (t - a)) as E. pose proof (Rabs_triang_inv (r32 (t - a)) (t - a)) as J1.
    pose proof (Rabs_triang_inv (t - a) (r32 (t - a))) as J2. rewrite (Rabs_minus_sym (t - a)) in J2. lra. }
  assert (D7 : (0 <= d <= 7)%R) by (unfold d; split; [apply Rabs_pos|apply Rabs_le; lra]).
  set (m := Rmin 1 (IZR tau / 1000 / T)). assert (M01 : (0 <= m <= 1)%R).
  { unfold m. split; [|apply Rmin_l]. apply Rmin_glb; [lra|]. unfold Rdiv. assert (0 <= IZR tau)%R by (apply IZR_le; lia). assert (0 < / T)%R by (apply Rinv_0_lt_compat; lra). apply Rmult_le_pos; lra. }
  destruct (Rle_dec (5 / 10000000) d) as [Dd|Dd].
  - assert (IW : (0 < / w <= 1000)%R). { split; [apply Rinv_0_lt_compat; lra|]. replace 1000%R with (/ (1 / 1000))%R by field. apply Rinv_le_contravar; lra. }
    assert (TWQ : (r32 (Rabs (r32 (t - a)) / w) <= T)%R).
    { apply TW. apply v_div; auto; [lra|]. unfold Rdiv. rewrite Rabs_mult, Rabs_Rabsolu, (Rabs_pos_eq (/ w)) by lra.
      apply Rle_trans with (8 * 1000)%R; [|lra]. apply Rmult_le_compat; try lra. }
    assert (VB : (d / T * (1 - 1 / 1000000) <= v <= d / T * (1 + 1 / 1000000))%R).
    { destruct (speed_bounds d (Rabs (r32 (t - a))) T w (r32 (Rabs (r32 (t - a)) / T)) (if Rlt_dec w (r32 (Rabs (r32 (t - a)) / T)) then w else r32 (Rabs (r32 (t - a)) / T))) as (B1 & B2 & B3); auto; try lra.
      - destruct (Rlt_dec w _) as [H|H]; [right|left]; split; auto. lra.
      - assert (Vv0 : v32 v0 (r32 (Rabs (r32 (t - a)) / T))) by (apply v_div; auto; lra).
        assert (EV : v = if Rlt_dec w (r32 (Rabs (r32 (t - a)) / T)) then w else r32 (Rabs (r32 (t - a)) / T)); [|rewrite EV; exact B1].
        revert Vv. unfold s1, servo_set_vel. cbn [flt fle IEEE]. rewrite (fv_lt 24 128 _ _ _ _ Vw Vv0). unfold rltb.
        destruct (Rlt_dec w _) as [H|H]; [intros X; exact (fv_inj 24 128 _ _ _ X Vw)|].
        change (fofz A 0) with (SpecFloat.binary_normalize 24 128 0 0 false). rewrite (fv_le 24 128 _ _ _ _ Vv0 (v_int 0 ltac:(lia))). unfold rleb.
        destruct (Rle_dec _ 0) as [H2|H2]; [lra|]. intros X. exact (fv_inj 24 128 _ _ _ X Vv0). }
    destruct (sync_bounds a t v T tau Dd ltac:(lra) ltac:(lra) Ea HT Bv ltac:(lia) VB) as [S1 S3]. split; [exact S1|].
    intros F. rewrite (S3 F) in C2. apply (at_target_32 s2 t t); auto; try lra. rewrite Rminus_diag_eq, Rabs_R0 by reflexivity. lra.
  - apply Rnot_le_lt in Dd.
    assert (PB : ((a <= t /\ a <= rstep a t (rdelta v tau) <= t + slack M) \/ (t <= a /\ t - slack M <= rstep a t (rdelta v tau) <= a))%R).
    { destruct (Rle_dec a t) as [O|O]; [left|right]; (split; [lra|]).
      - apply (rstep_up a t (rdelta v tau) M P HM2 Ea Et); lra.
      - apply (rstep_down a t (rdelta v tau) M P HM2 Ea Et); lra. }
    set (p := rstep a t (rdelta v tau)) in *.
    assert (DS : (- (5 / 10000000) < t - a < 5 / 10000000)%R).
    { unfold d in Dd. unfold Rabs in Dd. destruct (Rcase_abs (t - a)); lra. }
    split.
    + assert (MM : (- (5 / 10000000) <= (t - a) * m <= 5 / 10000000)%R).
      { destruct (Rle_dec 0 (t - a)) as [O|O].
        - assert (0 <= (t - a) * m)%R by (apply Rmult_le_pos; lra). assert ((t - a) * m <= (t - a) * 1)%R by (apply Rmult_le_compat_l; lra). lra.
        - assert (0 <= (a - t) * m)%R by (apply Rmult_le_pos; lra). assert ((a - t) * m <= (a - t) * 1)%R by (apply Rmult_le_compat_l; lra). lra. }
      apply Rabs_le. lra.
    + intros _. apply (at_target_32 s2 p t); auto; try lra. apply Rabs_le. lra.
Qed.
End Sync.

Section Lift.
Context (L : libm).
Notation A := (IEEE L).
Context (fwd : V6 (F A) -> V6 (F A)) (inv : V6 (F A) -> option (V6 (F A))) (l2p p2l : V6 (F A) -> V6 (F A)) (limits : V6 (F A * F A)).
Context (mn mx M : Z -> R).
Context (L2P : forall a, six (fin 1000000) a -> six (fin 10000000) (l2p a)).
Context (P2L : forall a, six (fin 1100) a -> six (fin 1000000) (p2l a)).
Context (M3 : forall i, (M i <= 3)%R).
Notation run := (r_run A fwd inv l2p p2l limits).

Lemma ticks_lift dts : forall (r : robot A) s0 s1 s2 s3 s4 s5,
  sop_run A (v0 (r_servos r)) (ticks A dts) = Ok s0 -> sop_run A (v1 (r_servos r)) (ticks A dts) = Ok s1 -> sop_run A (v2 (r_servos r)) (ticks A dts) = Ok s2 ->
  sop_run A (v3 (r_servos r)) (ticks A dts) = Ok s3 -> sop_run A (v4 (r_servos r)) (ticks A dts) = Ok s4 -> sop_run A (v5 (r_servos r)) (ticks A dts) = Ok s5 ->
  run r (map OTick dts) = Ok (with_servos A r (mk6 s0 s1 s2 s3 s4 s5), []).
Proof.
  induction dts as [|d dts IH]; intros r s0 s1 s2 s3 s4 s5; unfold ticks in *; cbn [map sop_run].
  - intros E0 E1 E2 E3 E4 E5. injection E0 as <-. injection E1 as <-. injection E2 as <-. injection E3 as <-. injection E4 as <-. injection E5 as <-.
    cbn [r_run]. destruct r as [[]]. reflexivity.
  - cbn [sop_step]. intros E0 E1 E2 E3 E4 E5. cbn [r_run r_step]. unfold r_tick.
    destruct (servo_process A (v0 (r_servos r)) d) as [[x0 ?]|]; cbn [bind] in *; [|discriminate].
    destruct (servo_process A (v1 (r_servos r)) d) as [[x1 ?]|]; cbn [bind] in *; [|discriminate].
    destruct (servo_process A (v2 (r_servos r)) d) as [[x2 ?]|]; cbn [bind] in *; [|discriminate].
    destruct (servo_process A (v3 (r_servos r)) d) as [[x3 ?]|]; cbn [bind] in *; [|discriminate].
    destruct (servo_process A (v4 (r_servos r)) d) as [[x4 ?]|]; cbn [bind] in *; [|discriminate].
    destruct (servo_process A (v5 (r_servos r)) d) as [[x5 ?]|]; cbn [bind] in *; [|discriminate].
    rewrite (IH (with_servos A r (mk6 x0 x1 x2 x3 x4 x5)) s0 s1 s2 s3 s4 s5); auto.
Qed.

End Lift.

Lemma fold_in (l : list spec_float) : forall m, In (fold_left (fun m x => if SFltb m x then x else m) l m) (m :: l).
Proof.
  induction l as [|x l IH]; intros m; cbn [fold_left]; [left; reflexivity|].
  destruct (IH (if SFltb m x then x else m)) as [E|E]; [|right; right; exact E]. rewrite <- E. destruct (SFltb m x); cbn; auto.
Qed.

(** the value of a binary32 number *)
Definition val (x : spec_float) : R := SF2R radix2 x.
Lemma val_v x r : v32 x r -> val x = r.
Proof. intros (b & <- & _ & <-). unfold val. apply SF2R_B2SF. Qed.
Lemma v_val x r : v32 x r -> v32 x (val x).
Proof. intros V. now rewrite (val_v _ _ V). Qed.

(** the largest of six numbers *)
Definition max6 (D : Z -> R) : R := Rmax (D 0) (Rmax (D 1) (Rmax (D 2) (Rmax (D 3) (Rmax (D 4) (D 5))))).
Lemma max6_le D c : axes (fun i => D i <= c)%R -> (max6 D <= c)%R.
Proof. intros (H0 & H1 & H2 & H3 & H4 & H5). unfold max6. repeat apply Rmax_lub; assumption. Qed.
Lemma max6_ge D : axes (fun i => D i <= max6 D)%R.
Proof.
  unfold axes, max6.
  set (m4 := Rmax (D 4) (D 5)). set (m3 := Rmax (D 3) m4). set (m2 := Rmax (D 2) m3). set (m1 := Rmax (D 1) m2).
  pose proof (Rmax_l (D 4) (D 5)). pose proof (Rmax_r (D 4) (D 5)). pose proof (Rmax_l (D 3) m4). pose proof (Rmax_r (D 3) m4).
  pose proof (Rmax_l (D 2) m3). pose proof (Rmax_r (D 2) m3). pose proof (Rmax_l (D 1) m2). pose proof (Rmax_r (D 1) m2).
  pose proof (Rmax_l (D 0) m1). pose proof (Rmax_r (D 0) m1). fold m4 in H, H0. fold m3 in H1, H2. fold m2 in H3, H4. fold m1 in H5, H6.
  splits; lra.
Qed.

Section Time.
Context (L : libm).
Notation A := (IEEE L).
Definition dist6 (a b : V6 spec_float) (i : Z) : R := Rabs (val (at6 a i) - val (at6 b i)).

Lemma fin_v B x : fin B x -> v32 x (val x) /\ (- B <= val x <= B)%R.
Proof. intros (r & V & K). rewrite (val_v _ _ V). apply Rabs_bounds in K. auto. Qed.
Lemma sub_abs x y : fin 1000000 x -> fin 1000000 y -> exists c, v32 (SFabs (SFsub 24 128 x y)) c /\ (0 <= c <= 2000001)%R /\
  (Rabs (val x - val y) * (1 - 1 / 10000000) - tiny <= c <= Rabs (val x - val y) * (1 + 1 / 10000000) + tiny)%R.
Proof.
  intros Hx Hy. apply fin_v in Hx as [Vx Bx], Hy as [Vy By]. pose proof tiny_small as T1. pose proof tiny_pos as T0.
  set (z := (val x - val y)%R). exists (Rabs (r32 z)).
  split; [apply fv_abs, v_sub; auto; apply Rabs_le; lra|].
  pose proof (r32_error z) as E. pose proof (Rabs_triang_inv (r32 z) z) as J1. pose proof (Rabs_triang_inv z (r32 z)) as J2. rewrite (Rabs_minus_sym z) in J2.
  assert (Z : (0 <= Rabs z <= 2000000)%R) by (split; [apply Rabs_pos|apply Rabs_le; unfold z; lra]).
  split; [split; [apply Rabs_pos|lra]|]. split; lra.
Qed.

Lemma change_val a b : six (fin 1000000) a -> six (fin 1000000) b -> exists c, v32 (max_change A a b) c /\ (0 <= c <= 2000001)%R /\
  (max6 (dist6 a b) * (1 - 2 / 10000000) - 2 * tiny <= c <= max6 (dist6 a b) * (1 + 2 / 10000000) + 2 * tiny)%R.
Proof.
  intros (A0 & A1 & A2 & A3 & A4 & A5) (B0 & B1 & B2 & B3 & B4 & B5). pose proof tiny_small as T1. pose proof tiny_pos as T0.
  destruct (sub_abs _ _ A0 B0) as (c0 & V0 & P0 & K0). destruct (sub_abs _ _ A1 B1) as (c1 & V1 & P1 & K1). destruct (sub_abs _ _ A2 B2) as (c2 & V2 & P2 & K2).
  destruct (sub_abs _ _ A3 B3) as (c3 & V3 & P3 & K3). destruct (sub_abs _ _ A4 B4) as (c4 & V4 & P4 & K4). destruct (sub_abs _ _ A5 B5) as (c5 & V5 & P5 & K5).
  unfold max_change. cbn [flt IEEE]. unfold list6. cbn [zip6 map6 v0 v1 v2 v3 v4 v5 fsub fabsf IEEE].
  match goal with |- context [fold_left _ ?l ?m] => set (l0 := l); set (m0 := m) end.
  assert (VM : v32 m0 0%R) by (apply (v_int 0); lia).
  destruct (fold_ge 2000001 l0) with (m := m0) as (c & V & P & G0 & G).
  { unfold l0. apply Forall_cons; [exists c0; auto|]. apply Forall_cons; [exists c1; auto|]. apply Forall_cons; [exists c2; auto|].
    apply Forall_cons; [exists c3; auto|]. apply Forall_cons; [exists c4; auto|]. apply Forall_cons; [exists c5; auto|]. apply Forall_nil. }
  { exists 0%R. split; [exact VM|lra]. }
  exists c. split; [exact V|]. split; [exact P|].
  pose proof (fold_in l0 m0) as IN. unfold l0 in G, IN.
  apply Forall_cons_iff in G as [G1 G]. specialize (G1 _ V0). apply Forall_cons_iff in G as [G2 G]. specialize (G2 _ V1). apply Forall_cons_iff in G as [G3 G]. specialize (G3 _ V2).
  apply Forall_cons_iff in G as [G4 G]. specialize (G4 _ V3). apply Forall_cons_iff in G as [G5 G]. specialize (G5 _ V4). apply Forall_cons_iff in G as [G6 _]. specialize (G6 _ V5).
  destruct (max6_ge (dist6 a b)) as (M0 & M1 & M2 & M3 & M4 & M5).
  assert (X : axes (fun i => dist6 a b i <= (c + tiny) * / (1 - 1 / 10000000))%R).
  { unfold axes, dist6. cbn [at6]. splits; lra. }
  apply max6_le in X.
  unfold dist6 in M0, M1, M2, M3, M4, M5. cbn [at6] in M0, M1, M2, M3, M4, M5. fold (dist6 a b) in M0, M1, M2, M3, M4, M5.
  set (m := max6 (dist6 a b)) in *.
  pose proof (Rabs_pos (val (v0 a) - val (v0 b))) as Z0.
  split; [lra|]. fold l0 in IN. cbn [In] in IN.
  destruct IN as [E|[E|[E|[E|[E|[E|[E|[]]]]]]]]; rewrite <- E in V.
  - pose proof (fv_inj 24 128 _ _ _ V VM). lra.
  - pose proof (fv_inj 24 128 _ _ _ V V0). lra.
  - pose proof (fv_inj 24 128 _ _ _ V V1). lra.
  - pose proof (fv_inj 24 128 _ _ _ V V2). lra.
  - pose proof (fv_inj 24 128 _ _ _ V V3). lra.
  - pose proof (fv_inj 24 128 _ _ _ V V4). lra.
  - pose proof (fv_inj 24 128 _ _ _ V V5). lra.
Qed.

(** 180/pi, as the code writes it *)
Definition degrees : R := (5729577951 / 100000000)%R.
Lemma rad_to_deg_near : exists k, v64 (RAD_TO_DEG A) k /\ (degrees * (1 - 1 / 100000000) <= k <= degrees * (1 + 1 / 100000000))%R.
Proof.
  exists (SF2R radix2 (RAD_TO_DEG A)). split.
  - let y := eval vm_compute in (RAD_TO_DEG A) in change (RAD_TO_DEG A) with y. apply fv_valid; reflexivity.
  - unfold degrees. lits. lra.
Qed.

Lemma time_val ch mv c v : v32 ch c -> (0 <= c <= 2000001)%R -> v32 mv v -> (1 / 1000 <= v <= 100000)%R ->
  exists t, v32 (d2f A (dmul A (f2d A (fdiv A ch mv)) (RAD_TO_DEG A))) t /\ (0 <= t <= 1000000000000)%R /\
    (c * degrees / v * (1 - 1 / 1000000) - 1000 * tiny <= t <= c * degrees / v * (1 + 1 / 1000000) + 1000 * tiny)%R.
Proof.
  intros Vc Bc V B. pose proof tiny_small as T1. pose proof tiny_pos as T0.
  assert (I : (0 < / v <= 1000)%R). { split; [apply Rinv_0_lt_compat; lra|]. replace 1000%R with (/ (1 / 1000))%R by field. apply Rinv_le_contravar; lra. }
  assert (Q : (0 <= c / v <= 2000001000)%R). { unfold Rdiv. split; [apply Rmult_le_pos; lra|]. replace 2000001000%R with (2000001 * 1000)%R by ring. apply Rmult_le_compat; lra. }
  pose proof (r32_pos (c / v) ltac:(lra)) as P1. destruct (r32_near (c / v) (c / v)) as [J1 K1]; [rewrite Rabs_pos_eq; lra|].
  replace (c * degrees / v)%R with (c / v * degrees)%R by (unfold Rdiv; ring). set (q := (c / v)%R) in *.
  set (x1 := r32 q) in *. pose proof (r64_pos x1 P1) as P2. destruct (r64_near x1 x1) as [J2 K2]; [rewrite Rabs_pos_eq; lra|].
  set (x2 := r64 x1) in *. destruct rad_to_deg_near as (k & Vk & Bk).
  assert (KK : (57 <= k <= 58)%R) by (unfold degrees in Bk; lra).
  assert (X2 : (q * (1 - 2 / 10000000) - 3 * tiny <= x2 <= q * (1 + 2 / 10000000) + 3 * tiny)%R) by lra.
  assert (Q3 : (0 <= x2 * k <= 2000003000 * 58)%R) by (split; [apply Rmult_le_pos; lra|apply Rmult_le_compat; lra]).
  assert (DG : (0 < degrees)%R) by (unfold degrees; lra).
  assert (X3 : (q * degrees * (1 - 3 / 10000000) - 3 * tiny * 58 <= x2 * k <= q * degrees * (1 + 3 / 10000000) + 3 * tiny * 58)%R).
  { assert (QP : (0 <= q * degrees)%R) by (apply Rmult_le_pos; lra).
    assert (E1 : ((q * (1 - 2 / 10000000)) * (degrees * (1 - 1 / 100000000)) <= (x2 + 3 * tiny) * k)%R).
    { apply Rmult_le_compat; try lra. }
    assert (E2 : (x2 * k <= (q * (1 + 2 / 10000000) + 3 * tiny) * k)%R) by (apply Rmult_le_compat_r; lra).
    assert (E3 : (q * k <= q * (degrees * (1 + 1 / 100000000)))%R) by (apply Rmult_le_compat_l; lra).
    assert (E4 : (tiny * k <= tiny * 58)%R) by (apply Rmult_le_compat_l; lra).
    clear - E1 E2 E3 E4 QP T0 I Bk Q.
    replace ((q * (1 - 2 / 10000000)) * (degrees * (1 - 1 / 100000000)))%R with (q * degrees * ((1 - 2 / 10000000) * (1 - 1 / 100000000)))%R in E1 by ring.
    replace (q * (degrees * (1 + 1 / 100000000)))%R with (q * degrees * (1 + 1 / 100000000))%R in E3 by ring.
    rewrite Rmult_plus_distr_r in E1, E2. replace (3 * tiny * k)%R with (3 * (tiny * k))%R in * by ring.
    replace (q * (1 + 2 / 10000000) * k)%R with (q * k * (1 + 2 / 10000000))%R in E2 by ring.
    set (z := (q * degrees)%R) in *. set (tk := (tiny * k)%R) in *. set (qk := (q * k)%R) in *. set (xk := (x2 * k)%R) in *. split; lra. }
  set (y := (x2 * k)%R) in *. set (z := (q * degrees)%R) in *.
  pose proof (r64_pos y ltac:(lra)) as P3. destruct (r64_near y y) as [J3 K3]; [rewrite Rabs_pos_eq; lra|].
  set (x3 := r64 y) in *. pose proof (r32_pos x3 P3) as P4. destruct (r32_near x3 x3) as [J4 K4]; [rewrite Rabs_pos_eq; lra|].
  assert (Z0 : (0 <= z)%R) by (unfold z; apply Rmult_le_pos; lra).
  exists (r32 x3). split; [|split; lra]. cbn [d2f dmul f2d fdiv IEEE].
  apply (fv_conv 53 1024 24 128); [|apply r32_bound; rewrite Rabs_pos_eq; lra].
  apply (fv_mul 53 1024 _ _ x2 k); [|exact Vk|fold y; apply r64_bound; rewrite Rabs_pos_eq; lra].
  apply (fv_conv 24 128 53 1024); [|apply r64_bound; rewrite Rabs_pos_eq; lra].
  apply v_div; auto; [lra|fold q; rewrite Rabs_pos_eq; lra].
Qed.
End Time.

Section Robot.
Context (L : libm).
Notation A := (IEEE L).
Context (fwd : V6 (F A) -> V6 (F A)) (inv : V6 (F A) -> option (V6 (F A))) (l2p p2l : V6 (F A) -> V6 (F A)) (limits : V6 (F A * F A)).
Context (mn mx M : Z -> R).
Context (L2P : forall a, six (fin 1000000) a -> six (fin 10000000) (l2p a)).
Context (P2L : forall a, six (fin 1100) a -> six (fin 1000000) (p2l a)).
Context (M3 : forall i, (M i <= 3)%R).
Notation run := (r_run A fwd inv l2p p2l limits).

(** what a servo of the arm gives *)
Lemma servo_facts (s : servo A) m n K tf w : inside32 L s m n K -> (K <= 3)%R -> v32 (s_maxvel s) w -> (1 / 1000 <= w)%R -> fin 10000000 tf -> not_outside A tf (s_min s) (s_max s) ->
  (m <= val tf <= n)%R /\ v32 tf (val tf) /\ v32 (s_cur s) (val (s_cur s)) /\ v32 (s_maxvel s) (val (s_maxvel s)) /\ (1 / 1000 <= val (s_maxvel s) <= 10000)%R /\
  exists q, v32 (SFdiv 24 128 (SFabs (SFsub 24 128 tf (s_cur s))) (s_maxvel s)) q /\ (0 <= q <= 10000)%R /\
    let D := (Rabs (val tf - val (s_cur s)) / val (s_maxvel s))%R in (D * (1 - 2 / 10000000) - 1 / 1000000000000 <= q <= D * (1 + 2 / 10000000) + 1 / 1000000000000)%R.
Proof.
  intros I HK Vw Bw Ft O. pose proof tiny_36 as T1. pose proof tiny_pos as T0.
  pose proof I as ((Vl & Vh & _) & _). pose proof (fin_number _ _ Ft) as Nt.
  destruct (in_limits L tf _ _ m n Nt Vl Vh O) as (t & Vt & Bt). rewrite (val_v _ _ Vt).
  pose proof I as (C & _ & (w' & Vw' & Bw') & _ & (c & Vc & Bc) & _).
  pose proof (fv_inj 24 128 _ _ _ Vw Vw') as EW. subst w'. rewrite (val_v _ _ Vw), (val_v _ _ Vc).
  pose proof (M_bounds L s m n K C) as HM2. pose proof (slack_bounds K HM2) as HS.
  assert (HX : (- K <= m /\ n <= K)%R) by (destruct C as (_ & _ & _ & X & Y & _); split; assumption). destruct HX as [HX HY].
  split; [exact Bt|]. split; [exact Vt|]. split; [exact Vc|]. split; [exact Vw|]. split; [lra|].
  assert (VD : v32 (SFabs (SFsub 24 128 tf (s_cur s))) (Rabs (r32 (t - c)))) by (apply fv_abs, v_sub; auto; apply Rabs_le; lra).
  set (d := Rabs (t - c)). set (d' := Rabs (r32 (t - c))) in *.
  assert (DD : (d - (d / 16777216 + tiny) <= d' <= d + (d / 16777216 + tiny))%R).
  { unfold d, d'. pose proof (r32_error (t - c)) as E. pose proof (Rabs_triang_inv (r32 (t - c)) (t - c)) as J1.
    pose proof (Rabs_triang_inv (t - c) (r32 (t - c))) as J2. rewrite (Rabs_minus_sym (t - c)) in J2. lra. }
  assert (D7 : (0 <= d <= 7)%R) by (unfold d; split; [apply Rabs_pos|apply Rabs_le; lra]). assert (D0 : (0 <= d')%R) by apply Rabs_pos.
  assert (IW : (0 < / w <= 1000)%R). { split; [apply Rinv_0_lt_compat; lra|]. replace 1000%R with (/ (1 / 1000))%R by field. apply Rinv_le_contravar; lra. }
  assert (Q0 : (0 <= d' / w <= 8000)%R). { unfold Rdiv. split; [apply Rmult_le_pos; lra|]. replace 8000%R with (8 * 1000)%R by ring. apply Rmult_le_compat; lra. }
  assert (Q1 : (d / w * (1 - 1 / 10000000) - tiny * 1000 <= d' / w <= d / w * (1 + 1 / 10000000) + tiny * 1000)%R).
  { assert (TW : (0 <= tiny * / w <= tiny * 1000)%R) by (split; [apply Rmult_le_pos; lra|apply Rmult_le_compat_l; lra]).
    assert (LO : ((d * (1 - 1 / 10000000) - tiny) * / w <= d' * / w)%R) by (apply Rmult_le_compat_r; lra).
    assert (HI : (d' * / w <= (d * (1 + 1 / 10000000) + tiny) * / w)%R) by (apply Rmult_le_compat_r; lra).
    rewrite Rmult_minus_distr_r in LO. rewrite Rmult_plus_distr_r in HI.
    replace (d * (1 - 1 / 10000000) * / w)%R with (d * / w * (1 - 1 / 10000000))%R in LO by ring.
    replace (d * (1 + 1 / 10000000) * / w)%R with (d * / w * (1 + 1 / 10000000))%R in HI by ring.
    change (d / w)%R with (d * / w)%R. change (d' / w)%R with (d' * / w)%R. set (x := (d * / w)%R) in *. set (y := (d' * / w)%R) in *. split; lra. }
  destruct (r32_near (d' / w) (d' / w)) as [K1 K2]; [rewrite Rabs_pos_eq; lra|].
  exists (r32 (d' / w)). split; [apply v_div; auto; [lra|rewrite Rabs_pos_eq; lra]|].
  split; [split; [apply r32_pos; lra|lra]|]. cbv zeta. set (x := (d / w)%R) in *. set (y := (d' / w)%R) in *. split; lra.
Qed.

(** the ideal duration of a joint move, in seconds: the largest change of a joint (radians, as degrees) at the programmed speed
    (degrees per second), but not faster than the slowest servo can go *)
Definition ideal_time (r : robot A) (target : V6 spec_float) : R :=
  Rmax (max6 (dist6 (current_logical A p2l r) target) * degrees / val (r_maxvel r))
       (max6 (fun i => Rabs (val (at6 (l2p target) i) - val (s_cur (at6 (r_servos r) i))) / val (s_maxvel (at6 (r_servos r) i))))%R.

Lemma at_zero x : v32 x 0%R -> feq A x (fofz A 0) = true.
Proof. intros V. cbn [feq fofz IEEE]. rewrite (fv_eq 24 128 _ _ _ _ V (v_int 0 ltac:(lia))). unfold reqb. destruct (Req_EM_T 0 0); congruence. Qed.

Lemma time_bounds (r rs : robot A) target time : ready L mn mx M r -> six (fin 1000000) target ->
  r_servos rs = r_servos r ->
  axes (fun i => not_outside A (at6 (l2p target) i) (s_min (at6 (r_servos r) i)) (s_max (at6 (r_servos r) i))) ->
  time = d2f A (dmul A (f2d A (fdiv A (max_change A (current_logical A p2l r) target) (r_maxvel r))) (RAD_TO_DEG A)) ->
  exists T, v32 (min_time A rs (l2p target) time) T /\ (0 <= T <= 1000000000000)%R /\
    axes (fun i => forall q, v32 (SFdiv 24 128 (SFabs (SFsub 24 128 (at6 (l2p target) i) (s_cur (at6 (r_servos r) i)))) (s_maxvel (at6 (r_servos r) i))) q -> q <= T)%R /\
    (Rabs (T - ideal_time r target) <= ideal_time r target / 100000 + 1 / 1000000000)%R.
Proof.
  intros RD FT SS O ->. pose proof tiny_36 as T1. pose proof tiny_pos as T0.
  pose proof RD as (IA & W & _ & _ & (v & Vv & Bv) & _).
  destruct (change_val L _ _ (logical_fin L p2l mn mx M P2L r IA) FT) as (c & Vc & Bc & Nc).
  destruct (time_val L _ _ c v Vc Bc Vv Bv) as (tm & Vtm & Btm & Ntm).
  set (time := d2f A _) in *.
  pose proof (L2P _ FT) as FP. destruct FP as (F0 & F1 & F2 & F3 & F4 & F5).
  destruct W as ((w0 & V0 & B0) & (w1 & V1 & B1) & (w2 & V2 & B2) & (w3 & V3 & B3) & (w4 & V4 & B4) & (w5 & V5 & B5)).
  destruct IA as (I0 & I1 & I2 & I3 & I4 & I5). destruct O as (O0 & O1 & O2 & O3 & O4 & O5).
  destruct (servo_facts _ _ _ _ _ _ I0 (M3 0) V0 B0 F0 O0) as (_ & _ & _ & _ & _ & q0 & Q0 & P0 & N0).
  destruct (servo_facts _ _ _ _ _ _ I1 (M3 1) V1 B1 F1 O1) as (_ & _ & _ & _ & _ & q1 & Q1 & P1 & N1).
  destruct (servo_facts _ _ _ _ _ _ I2 (M3 2) V2 B2 F2 O2) as (_ & _ & _ & _ & _ & q2 & Q2 & P2 & N2).
  destruct (servo_facts _ _ _ _ _ _ I3 (M3 3) V3 B3 F3 O3) as (_ & _ & _ & _ & _ & q3 & Q3 & P3 & N3).
  destruct (servo_facts _ _ _ _ _ _ I4 (M3 4) V4 B4 F4 O4) as (_ & _ & _ & _ & _ & q4 & Q4 & P4 & N4).
  destruct (servo_facts _ _ _ _ _ _ I5 (M3 5) V5 B5 F5 O5) as (_ & _ & _ & _ & _ & q5 & Q5 & P5 & N5).
  clear I0 I1 I2 I3 I4 I5 O0 O1 O2 O3 O4 O5 RD.
  cbn [at6] in *. cbv zeta in *.
  unfold min_time, travel, servo_angles. rewrite SS. cbn [flt IEEE]. unfold list6. cbn [zip6 map6 v0 v1 v2 v3 v4 v5 fsub fdiv fabsf IEEE].
  match goal with |- context [fold_left _ ?l time] => set (l0 := l) end.
  destruct (fold_ge 1000000000000 l0) with (m := time) as (T & V & P & G0 & G).
  { unfold l0. apply Forall_cons; [exists q0; split; [exact Q0|lra]|]. apply Forall_cons; [exists q1; split; [exact Q1|lra]|]. apply Forall_cons; [exists q2; split; [exact Q2|lra]|].
    apply Forall_cons; [exists q3; split; [exact Q3|lra]|]. apply Forall_cons; [exists q4; split; [exact Q4|lra]|]. apply Forall_cons; [exists q5; split; [exact Q5|lra]|]. apply Forall_nil. }
  { exists tm. split; [exact Vtm|lra]. }
  exists T. split; [exact V|]. split; [exact P|].
  pose proof (fold_in l0 time) as IN. unfold l0 in G. specialize (G0 _ Vtm).
  apply Forall_cons_iff in G as [G1 G]. apply Forall_cons_iff in G as [G2 G]. apply Forall_cons_iff in G as [G3 G].
  apply Forall_cons_iff in G as [G4 G]. apply Forall_cons_iff in G as [G5 G]. apply Forall_cons_iff in G as [G6 _].
  split; [unfold axes; cbn [at6]; splits; assumption|].
  specialize (G1 _ Q0). specialize (G2 _ Q1). specialize (G3 _ Q2). specialize (G4 _ Q3). specialize (G5 _ Q4). specialize (G6 _ Q5).
  unfold ideal_time. rewrite (val_v _ _ Vv).
  set (m := max6 (dist6 (current_logical A p2l r) target)) in *.
  match goal with |- context [max6 ?D] => set (H := D); set (h := max6 D) end.
  destruct (max6_ge H) as (H0 & H1 & H2 & H3 & H4 & H5). fold h in H0, H1, H2, H3, H4, H5.
  assert (HL : (h <= (T + 1 / 1000000000000) * / (1 - 2 / 10000000))%R).
  { assert (UP : forall D q, (D * (1 - 2 / 10000000) - 1 / 1000000000000 <= q -> q <= T -> D <= (T + 1 / 1000000000000) * / (1 - 2 / 10000000))%R) by (intros; lra).
    apply max6_le. unfold axes, H. cbn [at6]. split; [|split; [|split; [|split; [|split]]]]; eapply UP; [apply N0|exact G1|apply N1|exact G2|apply N2|exact G3|apply N3|exact G4|apply N4|exact G5|apply N5|exact G6]. }
  unfold H in H0, H1, H2, H3, H4, H5. cbn [at6] in H0, H1, H2, H3, H4, H5.
  assert (HP : (0 <= h)%R).
  { apply Rle_trans with (2 := H0). unfold Rdiv. apply Rmult_le_pos; [apply Rabs_pos|]. rewrite (val_v _ _ V0). apply Rlt_le, Rinv_0_lt_compat. lra. }
  (* the programmed time *)
  assert (M0 : (0 <= m)%R) by (destruct (max6_ge (dist6 (current_logical A p2l r) target)) as (X & _); fold m in X; apply Rle_trans with (2 := X); apply Rabs_pos).
  assert (IV : (0 < / v <= 1000)%R). { split; [apply Rinv_0_lt_compat; lra|]. replace 1000%R with (/ (1 / 1000))%R by field. apply Rinv_le_contravar; lra. }
  assert (DV : (0 < degrees * / v <= 58000)%R).
  { unfold degrees. split; [apply Rmult_lt_0_compat; lra|]. apply Rle_trans with (58 * 1000)%R; [apply Rmult_le_compat; lra|lra]. }
  replace (c * degrees / v)%R with (c * (degrees * / v))%R in Ntm by (unfold Rdiv; ring).
  replace (m * degrees / v)%R with (m * (degrees * / v))%R by (unfold Rdiv; ring).
  set (k := (degrees * / v)%R) in *. set (g := (m * k)%R).
  assert (NG : (g * (1 - 2 / 10000000) - tiny * 200000 <= c * k <= g * (1 + 2 / 10000000) + tiny * 200000)%R).
  { assert (TK : (0 <= 2 * tiny * k <= 2 * tiny * 58000)%R) by (split; [apply Rmult_le_pos; lra|apply Rmult_le_compat_l; lra]).
    assert (LO : ((m * (1 - 2 / 10000000) - 2 * tiny) * k <= c * k)%R) by (apply Rmult_le_compat_r; lra).
    assert (HI : (c * k <= (m * (1 + 2 / 10000000) + 2 * tiny) * k)%R) by (apply Rmult_le_compat_r; lra).
    rewrite Rmult_minus_distr_r in LO. rewrite Rmult_plus_distr_r in HI.
    replace (m * (1 - 2 / 10000000) * k)%R with (m * k * (1 - 2 / 10000000))%R in LO by ring.
    replace (m * (1 + 2 / 10000000) * k)%R with (m * k * (1 + 2 / 10000000))%R in HI by ring. fold g in LO, HI.
    set (ck := (c * k)%R) in *. set (tk := (2 * tiny * k)%R) in *. split; lra. }
  set (ck := (c * k)%R) in *.
  assert (G0' : (0 <= g)%R) by (unfold g; apply Rmult_le_pos; lra).
  assert (TG : (g * (1 - 2 / 1000000) - 1 / 10000000000 <= tm <= g * (1 + 2 / 1000000) + 1 / 10000000000)%R) by (split; lra).
  pose proof (Rmax_l g h) as X1. pose proof (Rmax_r g h) as X2.
  assert (X3 : (Rmax g h * (1 - 3 / 1000000) - 1 / 1000000000 <= T)%R) by (unfold Rmax; destruct (Rle_dec g h); lra).
  assert (X4 : (T <= Rmax g h * (1 + 3 / 1000000) + 1 / 1000000000)%R).
  { fold l0 in IN. cbn [In] in IN.
    assert (UP : forall D q, (q <= D * (1 + 2 / 10000000) + 1 / 1000000000000 -> D <= h -> T = q -> T <= Rmax g h * (1 + 3 / 1000000) + 1 / 1000000000)%R) by (intros; lra).
    destruct IN as [E|[E|[E|[E|[E|[E|[E|[]]]]]]]]; rewrite <- E in V.
    - pose proof (fv_inj 24 128 _ _ _ V Vtm). lra.
    - pose proof (fv_inj 24 128 _ _ _ V Q0). eapply UP; [apply N0|exact H0|assumption].
    - pose proof (fv_inj 24 128 _ _ _ V Q1). eapply UP; [apply N1|exact H1|assumption].
    - pose proof (fv_inj 24 128 _ _ _ V Q2). eapply UP; [apply N2|exact H2|assumption].
    - pose proof (fv_inj 24 128 _ _ _ V Q3). eapply UP; [apply N3|exact H3|assumption].
    - pose proof (fv_inj 24 128 _ _ _ V Q4). eapply UP; [apply N4|exact H4|assumption].
    - pose proof (fv_inj 24 128 _ _ _ V Q5). eapply UP; [apply N5|exact H5|assumption]. }
  change (max6 H) with h. set (z := Rmax g h) in *. clear - X1 X3 X4 G0'. apply Rabs_le. split; lra.
Qed.

Lemma one_servo (s : servo A) m n K tf w (time : spec_float) T dts : inside32 L s m n K -> (K <= 3)%R -> v32 (s_maxvel s) w -> (1 / 1000 <= w)%R -> fin 10000000 tf -> not_outside A tf (s_min s) (s_max s) ->
  v32 time T -> (0 < T <= 1000000000000)%R ->
  (forall q, v32 (SFdiv 24 128 (SFabs (SFsub 24 128 tf (s_cur s))) (s_maxvel s)) q -> (q <= T)%R) ->
  Forall (fun d => 0 <= d) dts -> total dts < 4294967296 ->
  exists s2, sop_run A (servo_set_target A (servo_set_vel A s (SFdiv 24 128 (SFabs (SFsub 24 128 tf (s_cur s))) time)) tf) (ticks A dts) = Ok s2 /\
    (Rabs (val (s_cur s2) - (val (s_cur s) + (val tf - val (s_cur s)) * Rmin 1 (IZR (total dts) / 1000 / T))) <= Rabs (val tf - val (s_cur s)) / 100000 + 2 / 1000000)%R /\
    (T * (1 + 1 / 100000) <= IZR (total dts) / 1000 -> servo_at_target A s2 = true)%R.
Proof.
  intros I HK Vw Bw Ft O VT HT TW N TT. destruct (servo_facts s m n K tf w I HK Vw Bw Ft O) as (Bt & Vt & Vc & _).
  destruct (sync_servo L s m n K (val (s_cur s)) (val tf) w T tf time dts I HK Vc Vt Bt Vw Bw VT HT TW N TT) as (s2 & p & E & Vp & _ & X & Y).
  exists s2. rewrite (val_v _ _ Vp). split; [exact E|]. split; [exact X|exact Y].
Qed.

(** ** C35 in IEEE arithmetic *)
Theorem C35_synchronised_ieee (r r1 : robot A) evs target :
  ready L mn mx M r -> r_trans r = false -> six (fin 1000000) target ->
  run r [OSetAngles (A := A) target; OProcess] = Ok (r1, evs) -> servo_cmds evs <> [] ->
  exists T : R, (0 < T)%R /\ (Rabs (T - ideal_time r target) <= ideal_time r target / 100000 + 1 / 1000000000)%R /\
    forall dts, Forall (fun d => 0 <= d) dts -> total dts < 4294967296 ->
    exists r2, run r1 (map OTick dts) = Ok (r2, []) /\
      axes (fun i => let a := val (s_cur (at6 (r_servos r) i)) in let t := val (at6 (l2p target) i) in
                     Rabs (val (s_cur (at6 (r_servos r2) i)) - (a + (t - a) * Rmin 1 (IZR (total dts) / 1000 / T))) <= Rabs (t - a) / 100000 + 2 / 1000000)%R /\
      (T * (1 + 1 / 100000) <= IZR (total dts) / 1000 -> exists r3, run r2 [OProcess] = Ok (r3, []) /\ r_state r3 = IDLE)%R.
Proof.
  intros RD TR FT E N. cbn [r_run r_step bind] in E.
  destruct (r_process A fwd inv l2p p2l limits (set_angles6 A r target)) as [[rx ex]|] eqn:Ep; [|discriminate].
  cbn [bind] in E. rewrite app_nil_r in E. injection E as -> ->.
  unfold r_process, set_angles6 in Ep. cbn [r_state with_state] in Ep.
  pose proof RD as (IA & W & _ & _ & _ & MP & PC).
  apply prepare_cases in Ep as [(_ & _ & ->) | [(_ & _ & X & _) | (_ & _ & [(_ & _ & ->) | (_ & n & En & K)])]];
    try (now destruct N); [cbn in X; congruence|].
  assert (n = 1) as ->. { cbn [r_method with_state with_flags with_targets] in En. rewrite MP in En. congruence. }
  match type of K with r_start_move _ _ _ _ _ _ ?x = _ => set (rs := x) in * end.
  assert (Ss : r_servos rs = r_servos r) by reflexivity.
  apply start_move_cases in K as (p & es & P & K). set (rs1 := with_steps A rs (u32 (r_cur rs + 1)) (r_total rs)) in *.
  pose proof (plan_events _ _ _ _ _ P) as [PE _].
  destruct K as [[_ ->]|(tl & time & -> & _ & O & [(_ & _ & ->)|(Q & -> & ->)])]; [now destruct N|now destruct N|].
  assert (ME : r_method rs1 = P2P) by exact MP.
  pose proof (plan_p2p _ _ _ _ _ _ P ME) as E1. pose proof (plan_p2p_time _ _ _ _ _ _ P ME) as E2.
  assert (tl = target) as -> by exact E1. clear E1 P N PE es.
  rewrite Ss in O. apply (outside_false A fwd inv l2p p2l) in O.
  assert (E3 : time = d2f A (dmul A (f2d A (fdiv A (max_change A (current_logical A p2l r) target) (r_maxvel r))) (RAD_TO_DEG A))) by exact E2.
  destruct (time_bounds r rs1 target time RD FT Ss O E3) as (T & VT & BT & TW & ID).
  assert (T0 : (0 < T)%R).
  { destruct (Req_dec T 0) as [->|NZ]; [|lra]. rewrite (at_zero _ VT) in Q. discriminate. }
  set (mt := min_time A rs1 (l2p target) time) in *. clearbody mt. clear E2 E3 Q.
  exists T. split; [exact T0|]. split; [exact ID|]. clear ID. intros dts ND TT.
  assert (BT' : (0 < T <= 1000000000000)%R) by lra.
  destruct (L2P _ FT) as (F0 & F1 & F2 & F3 & F4 & F5).
  destruct W as ((w0 & V0 & B0) & (w1 & V1 & B1) & (w2 & V2 & B2) & (w3 & V3 & B3) & (w4 & V4 & B4) & (w5 & V5 & B5)).
  destruct IA as (I0 & I1 & I2 & I3 & I4 & I5). destruct O as (O0 & O1 & O2 & O3 & O4 & O5). destruct TW as (W0 & W1 & W2 & W3 & W4 & W5).
  destruct (one_servo _ _ _ _ _ _ mt T dts I0 (M3 0) V0 B0 F0 O0 VT BT' W0 ND TT) as (s0 & R0 & X0 & Y0).
  destruct (one_servo _ _ _ _ _ _ mt T dts I1 (M3 1) V1 B1 F1 O1 VT BT' W1 ND TT) as (s1 & R1 & X1 & Y1).
  destruct (one_servo _ _ _ _ _ _ mt T dts I2 (M3 2) V2 B2 F2 O2 VT BT' W2 ND TT) as (s2 & R2 & X2 & Y2).
  destruct (one_servo _ _ _ _ _ _ mt T dts I3 (M3 3) V3 B3 F3 O3 VT BT' W3 ND TT) as (s3 & R3 & X3 & Y3).
  destruct (one_servo _ _ _ _ _ _ mt T dts I4 (M3 4) V4 B4 F4 O4 VT BT' W4 ND TT) as (s4 & R4 & X4 & Y4).
  destruct (one_servo _ _ _ _ _ _ mt T dts I5 (M3 5) V5 B5 F5 O5 VT BT' W5 ND TT) as (s5 & R5 & X5 & Y5).
  clear I0 I1 I2 I3 I4 I5 W0 W1 W2 W3 W4 W5.
  pose proof (ticks_lift L fwd inv l2p p2l limits dts (with_state A (fst (command_servos A rs1 (l2p target) mt)) MOVING) s0 s1 s2 s3 s4 s5 R0 R1 R2 R3 R4 R5) as TL.
  eexists. split; [exact TL|]. split.
  - unfold axes. cbv zeta. split; [exact X0|]. split; [exact X1|]. split; [exact X2|]. split; [exact X3|]. split; [exact X4|exact X5].
  - intros F. specialize (Y0 F). specialize (Y1 F). specialize (Y2 F). specialize (Y3 F). specialize (Y4 F). specialize (Y5 F).
    cbn [r_run r_step bind]. unfold r_process. cbn [r_state with_state with_servos].
    match goal with |- context [all_at_target A ?x] => replace (all_at_target A x) with true end.
    + eexists. split; reflexivity.
    + symmetry. unfold all_at_target, list6. cbn [r_servos with_state with_servos v0 v1 v2 v3 v4 v5 forallb]. rewrite Y0, Y1, Y2, Y3, Y4, Y5. reflexivity.
Qed.
End Robot.

(** ** the kit, after any history of joint moves *)
Section Kit.
Context (L : libm).
Notation A := (IEEE L).
Theorem C35_kit_ieee fwd inv limits (os : list (RobotModel.rop A)) r e r1 evs target :
  let run := r_run A fwd inv (kit_l2p A) (kit_p2l A) limits in
  Forall (joint_op L) os -> run (robot_new A fwd (kit_p2l A) (kit_servos A)) os = Ok (r, e) -> r_trans r = false -> six (fin 1000000) target ->
  run r [OSetAngles (A := A) target; OProcess] = Ok (r1, evs) -> servo_cmds evs <> [] ->
  exists T : R, (0 < T)%R /\
    (let best := ideal_time L (kit_l2p A) (kit_p2l A) r target in Rabs (T - best) <= best / 100000 + 1 / 1000000000)%R /\
    forall dts, Forall (fun d => 0 <= d) dts -> total dts < 4294967296 ->
    exists r2, run r1 (map OTick dts) = Ok (r2, []) /\
      axes (fun i => let a := val (s_cur (at6 (r_servos r) i)) in let t := val (at6 (kit_l2p A target) i) in
                     Rabs (val (s_cur (at6 (r_servos r2) i)) - (a + (t - a) * Rmin 1 (IZR (total dts) / 1000 / T))) <= Rabs (t - a) / 100000 + 2 / 1000000)%R /\
      (T * (1 + 1 / 100000) <= IZR (total dts) / 1000 -> exists r3, run r2 [OProcess] = Ok (r3, []) /\ r_state r3 = IDLE)%R.
Proof.
  intros run J E TR FT E1 N. apply (C35_synchronised_ieee L fwd inv (kit_l2p A) (kit_p2l A) limits (kit_mn L) (kit_mx L) (fun _ => 3%R) (kit_l2p_fin L) (kit_p2l_fin L) (fun _ => Rle_refl 3) r r1 evs target); auto.
  apply (run_ready L fwd inv (kit_l2p A) (kit_p2l A) limits (kit_mn L) (kit_mx L) (fun _ => 3%R) (kit_l2p_fin L) (kit_p2l_fin L) os (robot_new A fwd (kit_p2l A) (kit_servos A)) r e); auto.
  apply kit_ready.
Qed.
End Kit.

(** a move of the kit at 30 degrees per second, to 20, -10 and 15 degrees: under way after 400 ms, over after 700 ms *)
Example C35_kit_reachable :
  let run := r_run IF (fun x => x) demo_inv (kit_l2p IF) (kit_p2l IF) (kit_limits IF) in
  let target := mk6 (deg IF 20) (deg IF (-10)) (deg IF 15) (fi 0) (fi 0) (fi 0) in
  match run (robot_new IF (fun x => x) (kit_p2l IF) (kit_servos IF)) [OVel (fi 30)] with
  | Ok (r, _) =>
      match run r [OSetAngles target; OProcess] with
      | Ok (r1, evs) => r_trans r = false /\ length (servo_cmds evs) = 6%nat /\
          (match run r1 (map OTick [20; 380] ++ [OProcess]) with Ok (r2, _) => r_state r2 = MOVING | Ub _ => False end) /\
          (match run r1 (map OTick [20; 380; 300] ++ [OProcess]) with Ok (r2, _) => r_state r2 = IDLE | Ub _ => False end)
      | Ub _ => False
      end
  | Ub _ => False
  end.
Proof. vm_compute. splits; reflexivity. Qed.
Print Assumptions C35_kit_ieee.
