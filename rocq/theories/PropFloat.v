(** * The servo driver in the arithmetic of the device: binary32 and binary64 numbers, rounded
    to nearest even.  C28, C30, C31 and C32 are proved exactly for exact arithmetic in PropServo
    and PropRobot; here the same claims hold up to a stated rounding error. *)
From Coq Require Import Reals Lra ZArith Lia Floats.SpecFloat.
From Flocq Require Import Core BinarySingleNaN.
From Verif Require Import Base Arith FloatBridge ServoModel ServoSpec ServoProofs ServoFloat.
From Verif Require Import RobotModel RobotSpec RobotProofs McpModel DeviceModel SystemModel SystemSpec SystemMore ConfigModel PropRobot PropProgress.
Open Scope Z_scope.

Section Ieee.
Context (L : libm).
Notation A := (IEEE L).

(** ** the motion of one move *)
Lemma M_bounds (s : servo A) mn mx M : calibrated32 L s mn mx M -> (1 / 2000 <= M <= 1000)%R.
Proof. intros (_ & _ & HD & H1 & H2 & HM & _). lra. Qed.
Lemma slack_bounds M : (1 / 2000 <= M <= 1000)%R -> (0 <= slack M <= 1)%R.
Proof. unfold slack. lra. Qed.

Lemma rdelta_0 v : rdelta v 0 = 0%R.
Proof.
  unfold rdelta. rewrite r32_0, Rmult_0_r, r32_0.
  assert (Z : r64 0 = 0%R) by exact (rnd_0 53 1024). rewrite Z. unfold Rdiv. now rewrite Rmult_0_l, Z, r32_0.
Qed.
Lemma rstep_0 a t : r32 a = a -> rstep a t 0 = a.
Proof.
  intros E. unfold rstep, rltb. rewrite Rabs_R0. destruct (Rlt_dec (Rabs (r32 (t - a))) 0) as [H|H].
  - pose proof (Rabs_pos (r32 (t - a))). lra.
  - rewrite Rplus_0_r, Rminus_0_r, E. destruct (Rlt_dec a t); reflexivity.
Qed.
Lemma rstep_eq t dl : (0 <= dl)%R -> r32 t = t -> rstep t t dl = t.
Proof.
  intros D E. unfold rstep, rltb. rewrite Rminus_diag_eq, r32_0, Rabs_R0, (Rabs_pos_eq dl D) by reflexivity.
  destruct (Rlt_dec 0 dl); [reflexivity|]. destruct (Rlt_dec t t); [lra|]. replace dl with 0%R by lra. now rewrite Rminus_0_r.
Qed.
Lemma rstep_arrived a t dl : (Rabs (r32 (t - a)) < dl)%R -> rstep a t dl = t.
Proof.
  intros H. unfold rstep, rltb. pose proof (Rabs_pos (r32 (t - a))). rewrite (Rabs_pos_eq dl) by lra.
  destruct (Rlt_dec (Rabs (r32 (t - a))) dl); [reflexivity|contradiction].
Qed.

(** the calibration and the limits never change by calls and ticks *)
Lemma calibrated_advance (s : servo A) mn mx M dt : calibrated32 L s mn mx M -> calibrated32 L (servo_advance A s dt) mn mx M.
Proof.
  unfold calibrated32, servo_advance. intros H.
  destruct (flt A _ _); [|destruct (flt A _ _)]; exact H.
Qed.

Lemma rstep_range a t dl mn mx M : (0 <= dl)%R -> (1 / 2000 <= M <= 1000)%R -> r32 a = a -> r32 t = t ->
  (- M <= mn)%R -> (mx <= M)%R -> (mn - slack M <= a <= mx + slack M)%R -> (mn <= t <= mx)%R ->
  (mn - slack M <= rstep a t dl <= mx + slack M)%R.
Proof.
  intros D HM Ea Et H1 H2 Ba Bt. pose proof (slack_bounds M HM).
  destruct (Rle_dec a t) as [K|K].
  - destruct (rstep_up a t dl M D HM Ea Et ltac:(lra) ltac:(lra) K) as [B _]. lra.
  - destruct (rstep_down a t dl M D HM Ea Et ltac:(lra) ltac:(lra) ltac:(lra)) as [B _]. lra.
Qed.

(** a servo inside its range *)
Definition inside32 (s : servo A) (mn mx M : R) : Prop :=
  calibrated32 L s mn mx M /\
  (exists v, v32 (s_vel s) v /\ (0 <= v <= 10000)%R) /\
  (exists v, v32 (s_maxvel s) v /\ (0 <= v <= 10000)%R) /\
  (exists a, v32 (s_start s) a /\ (mn - slack M <= a <= mx + slack M)%R) /\
  (exists c, v32 (s_cur s) c /\ (mn - slack M <= c <= mx + slack M)%R) /\
  (exists t, v32 (s_target s) t /\ (mn <= t <= mx)%R).

Lemma tick_inside (s : servo A) mn mx M dt : inside32 s mn mx M -> exists s' p, servo_process A s dt = Ok (s', p) /\ inside32 s' mn mx M /\
  Z.min (s_minF s) (s_maxF s) - 1 <= p <= Z.max (s_minF s) (s_maxF s) /\ s_minF s' = s_minF s /\ s_maxF s' = s_maxF s.
Proof.
  intros (C & (v & Vv & Bv) & W & (a & Va & Ba) & _ & (t & Vt & Bt)).
  pose proof (M_bounds _ _ _ _ C) as HM. pose proof (slack_bounds M HM) as HS.
  assert (H1 : (- M <= mn /\ mx <= M)%R) by (destruct C as (_ & _ & _ & X & Y & _); split; assumption). destruct H1 as [H1 H2].
  destruct (advance_v32 L s a t v dt Va Vt Vv ltac:(lra) ltac:(lra) Bv) as (HT & E1 & E2 & E3 & VC & A1 & A2).
  set (T := u32 (s_elapsed s + dt)) in *.
  destruct (rdelta_chain v T Bv HT) as (_ & _ & _ & _ & _ & P & _).
  pose proof (rstep_range a t (rdelta v T) mn mx M P HM (v32_r _ _ Va) (v32_r _ _ Vt) H1 H2 Ba Bt) as RR.
  pose proof (calibrated_advance s mn mx M dt C) as C'.
  destruct (move_v32 L (servo_advance A s dt) mn mx M _ C' VC RR) as (p & E & _ & B & _).
  assert (KF : s_minF (servo_advance A s dt) = s_minF s /\ s_maxF (servo_advance A s dt) = s_maxF s /\ s_maxvel (servo_advance A s dt) = s_maxvel s).
  { unfold servo_advance. destruct (flt A _ _); [|destruct (flt A _ _)]; auto. }
  destruct KF as (KF1 & KF2 & KF3). rewrite KF1, KF2 in B.
  exists (servo_advance A s dt), p. unfold servo_process. rewrite E. cbn [bind]. split; [reflexivity|]. split; [|auto].
  split; [exact C'|]. split; [exists v; rewrite E2; auto|]. split; [rewrite KF3; exact W|].
  split; [|split; [exists (rstep a t (rdelta v T)); auto|exists t; rewrite E3; auto]].
  destruct (Rlt_dec (Rabs (r32 (t - a))) (rdelta v T)) as [Q|Q].
  - destruct (A1 Q) as [_ ->]. exists t. split; [exact Vt|lra].
  - rewrite (A2 Q). exists a. auto.
Qed.

(** a number: not NaN *)
Definition number32 (x : spec_float) : Prop := (exists b, x = S754_infinity b) \/ exists r, v32 x r.
Definition op_ok (mn mx : R) (o : sop A) : Prop :=
  match o with
  | ServoModel.STick _ => True
  | SVel v => number32 v
  | SStmt1 => True | SStmt2 => True
  | SStmt3 a => exists r, v32 a r /\ (mn <= r <= mx)%R
  end.

Lemma tenth32 : exists r, v32 (d2f A (ddec A false 1 (-1))) r /\ (0 <= r <= 1)%R.
Proof.
  exists (SF2R radix2 (S754_finite false 13421773 (-27))). split.
  - replace (d2f A (ddec A false 1 (-1))) with (S754_finite false 13421773 (-27)) by (vm_compute; reflexivity).
    apply fv_valid; reflexivity.
  - unfold SF2R, F2R. cbn [Fnum Fexp cond_Zopp]. change (-27) with (- (27)). rewrite (bpow_opp radix2 27). rewrite <- IZR_Zpower by lia.
    cbn. lra.
Qed.
Lemma set_vel_32 (s : servo A) v : number32 v -> (exists w, v32 (s_maxvel s) w /\ (0 <= w <= 10000)%R) ->
  exists u, v32 (s_vel (servo_set_vel A s v)) u /\ (0 <= u <= 10000)%R.
Proof.
  intros N W. pose proof W as (w & Vw & Bw). unfold servo_set_vel. cbn [flt fle IEEE].
  destruct (SFltb (s_maxvel s) v) eqn:E1; [exact W|].
  destruct (SFleb v (fofz A 0)) eqn:E2.
  - destruct tenth32 as (u & Vu & Bu). exists u. split; [exact Vu|lra].
  - destruct N as [[b ->]|[r Vr]].
    + exfalso. destruct b; [discriminate E2|]. destruct Vw as (x & Ex & Fx & _). rewrite <- Ex in E1. destruct x; discriminate.
    + exists r. split; [exact Vr|]. rewrite (fv_lt 24 128 _ _ _ _ Vw Vr) in E1.
      change (fofz A 0) with (SpecFloat.binary_normalize 24 128 0 0 false) in E2. rewrite (fv_le 24 128 _ _ _ _ Vr (v_int 0 ltac:(lia))) in E2. unfold rltb in E1. unfold rleb in E2.
      destruct (Rlt_dec w r); [discriminate|]. destruct (Rle_dec r 0); [discriminate|]. lra.
Qed.

Lemma op_inside (s : servo A) mn mx M o : inside32 s mn mx M -> op_ok mn mx o ->
  exists s', sop_step A s o = Ok s' /\ inside32 s' mn mx M /\ s_minF s' = s_minF s /\ s_maxF s' = s_maxF s.
Proof.
  intros I OK. destruct o as [dt|v| | |x]; cbn [sop_step op_ok] in *.
  - destruct (tick_inside s mn mx M dt I) as (s' & p & E & I' & _ & K1 & K2). exists s'. rewrite E. cbn. auto.
  - exists (servo_set_vel A s v). split; [reflexivity|].
    assert (K : s_min (servo_set_vel A s v) = s_min s /\ s_max (servo_set_vel A s v) = s_max s /\ s_minF (servo_set_vel A s v) = s_minF s /\
      s_maxF (servo_set_vel A s v) = s_maxF s /\ s_maxvel (servo_set_vel A s v) = s_maxvel s /\ s_start (servo_set_vel A s v) = s_start s /\
      s_cur (servo_set_vel A s v) = s_cur s /\ s_target (servo_set_vel A s v) = s_target s).
    { unfold servo_set_vel. destruct (flt A _ _); [|destruct (fle A _ _)]; splits; reflexivity. }
    destruct K as (K1 & K2 & K3 & K4 & K5 & K6 & K7 & K8). destruct I as (C & V & W & I2). pose proof (set_vel_32 s v OK W) as V'.
    split; [|auto]. unfold inside32, calibrated32 in *. rewrite K1, K2, K3, K4, K5, K6, K7, K8. auto.
  - eexists. split; [reflexivity|]. split; [|auto]. destruct I as (C & V & W & _ & I). split; [exact C|]. split; [exact V|]. split; [exact W|].
    split; [|exact I]. exact (proj1 I).
  - eexists. split; [reflexivity|]. split; [|auto]. exact I.
  - eexists. split; [reflexivity|]. split; [|auto]. destruct I as (C & V & W & I1 & I2 & _). split; [exact C|]. split; [exact V|]. split; [exact W|].
    split; [exact I1|]. split; [exact I2|exact OK].
Qed.

(** ** C32 for one servo: whatever calls and timer ticks, in whatever order, also a tick between the statements of a
    call, the computed angle stays within M/4000000 of the limits (M bounds the limits) and the pulse within 1 us of the calibration *)
Theorem C32_servo_stays_inside_ieee (s : servo A) (mn mx M : R) (ops : list (sop A)) :
  inside32 s mn mx M -> Forall (op_ok mn mx) ops ->
  exists s', sop_run A s ops = Ok s' /\
    (exists c, v32 (s_cur s') c /\ (mn - M / 4000000 <= c <= mx + M / 4000000)%R) /\
    forall dt, exists s2 p, servo_process A s' dt = Ok (s2, p) /\
      Z.min (s_minF s) (s_maxF s) - 1 <= p <= Z.max (s_minF s) (s_maxF s).
Proof.
  intros I O. assert (H : exists s', sop_run A s ops = Ok s' /\ inside32 s' mn mx M /\ s_minF s' = s_minF s /\ s_maxF s' = s_maxF s).
  { revert s I. induction O as [|o ops H O IH]; intros s I; [exists s; cbn; auto|].
    destruct (op_inside s mn mx M o I H) as (s1 & E & I1 & K1 & K2). destruct (IH s1 I1) as (s2 & E2 & I2 & K3 & K4).
    exists s2. cbn [sop_run]. rewrite E. cbn [bind]. split; [exact E2|]. split; [exact I2|]. split; congruence. }
  destruct H as (s' & E & I' & K1 & K2). exists s'. split; [exact E|]. split.
  - destruct I' as (_ & _ & _ & _ & X & _). exact X.
  - intros dt. destruct (tick_inside s' mn mx M dt I') as (s2 & p & E2 & _ & B & _). exists s2, p. rewrite <- K1, <- K2. auto.
Qed.

(** ** C30: the pulse is defined, inside the calibration (one microsecond off at most), and follows the angle *)
Theorem C30_pulse_ieee (s : servo A) (mn mx M x : R) :
  calibrated32 L s mn mx M -> v32 (s_cur s) x -> (mn <= x <= mx)%R ->
  exists p, servo_move A s = Ok p /\
    Z.min (s_minF s) (s_maxF s) - 1 <= p <= Z.max (s_minF s) (s_maxF s) /\
    (s_minF s <= s_maxF s -> s_minF s <= p) /\ (s_maxF s <= s_minF s -> p <= s_minF s) /\
    (x = mn -> p = s_minF s).
Proof.
  intros C V B. pose proof (M_bounds _ _ _ _ C) as HM. pose proof (slack_bounds M HM) as HS.
  destruct (move_v32 L s mn mx M x C V ltac:(lra)) as (p & E & EP & R & C1 & C2).
  exists p. split; [exact E|]. split; [exact R|]. split; [apply C1; lra|]. split; [apply C2; lra|].
  intros ->. rewrite EP. destruct C as (_ & _ & _ & _ & _ & _ & F1 & _). unfold pulse_real.
  rewrite Rminus_diag_eq, r32_0, Rmult_0_l, r32_0 by reflexivity. unfold Rdiv. rewrite Rmult_0_l, r32_0, Rplus_0_l, r32_IZR by lia. apply rtrunc_IZR.
Qed.
Theorem C30_pulse_monotone_ieee (s s' : servo A) (mn mx M x y : R) (p q : Z) :
  calibrated32 L s mn mx M -> v32 (s_cur s) x -> (mn <= x)%R -> (x <= y)%R -> (y <= mx)%R ->
  s_min s' = s_min s -> s_max s' = s_max s -> s_minF s' = s_minF s -> s_maxF s' = s_maxF s -> v32 (s_cur s') y ->
  servo_move A s = Ok p -> servo_move A s' = Ok q ->
  (s_minF s <= s_maxF s -> p <= q) /\ (s_maxF s <= s_minF s -> q <= p).
Proof.
  intros C V B1 B2 B3 K1 K2 K3 K4 V' E E'. pose proof (M_bounds _ _ _ _ C) as HM. pose proof (slack_bounds M HM) as HS.
  assert (C' : calibrated32 L s' mn mx M) by (unfold calibrated32 in *; rewrite K1, K2, K3, K4; exact C).
  destruct (move_v32 L s mn mx M x C V ltac:(lra)) as (p' & E1 & EP & _).
  destruct (move_v32 L s' mn mx M y C' V' ltac:(lra)) as (q' & E2 & EQ & _).
  rewrite E in E1. injection E1 as <-. rewrite E' in E2. injection E2 as <-.
  assert (DP : (0 < r32 (mx - mn))%R).
  { destruct C as (_ & _ & HD & H1 & H2 & _). pose proof tiny_small. pose proof tiny_pos. destruct (r32_near (mx - mn) (mx - mn)) as [K _]; [rewrite Rabs_pos_eq; lra|]. lra. }
  rewrite K3, K4 in EQ. destruct (pulse_mono mn mx (s_minF s) (s_maxF s) x y DP B2) as [M1 M2].
  split; intros O; subst p q; apply rtrunc_mono; auto.
Qed.

(** ** C28 and C31 *)
Definition arrived_time (v : R) (T : Z) (a t : R) : Prop := (Rabs (t - a) * (1 + 1 / 1000000) + 1 / 1000000000 <= v * IZR T / 1000)%R.

Lemma run_ticks a t v mn mx M (tf : spec_float) dts : v32 tf t -> (mn <= t <= mx)%R -> (mn - slack M <= a <= mx + slack M)%R -> r32 a = a ->
  Forall (fun d => 0 <= d) dts -> forall T0 (s : servo A), 0 <= T0 -> T0 + total dts < 4294967296 -> inside32 s mn mx M ->
  v32 (s_vel s) v -> s_elapsed s = T0 -> s_target s = tf ->
  v32 (s_cur s) (rstep a t (rdelta v T0)) ->
  ((Rabs (r32 (t - a)) < rdelta v T0)%R /\ s_start s = tf \/ v32 (s_start s) a) ->
  exists s', sop_run A s (ticks A dts) = Ok s' /\ inside32 s' mn mx M /\ v32 (s_vel s') v /\ s_elapsed s' = T0 + total dts /\ s_target s' = tf /\
    v32 (s_cur s') (rstep a t (rdelta v (T0 + total dts))) /\ ((Rabs (r32 (t - a)) < rdelta v (T0 + total dts))%R /\ s_start s' = tf \/ v32 (s_start s') a).
Proof.
  intros Vt Bt Ba Ea N. induction N as [|d dts D N IH]; intros T0 s H0 H1 I Vv Et Eg Vc St.
  - exists s. cbn [ticks map sop_run total]. change (total []) with 0 in *. rewrite Z.add_0_r. auto 10.
  - change (total (d :: dts)) with (d + total dts) in *. pose proof (total_nonneg _ N) as TP.
    destruct (tick_inside s mn mx M d I) as (s1 & p & E & I1 & _).
    assert (E1 : s1 = servo_advance A s d) by (unfold servo_process in E; destruct (servo_move A (servo_advance A s d)); [injection E as <- _; reflexivity|discriminate]).
    destruct I as (C & (v' & Vv' & Bv') & _). pose proof (fv_inj 24 128 _ _ _ Vv Vv') as EV. subst v'.
    pose proof (M_bounds _ _ _ _ C) as HM. pose proof (slack_bounds M HM) as HS.
    assert (HX : (- M <= mn /\ mx <= M)%R) by (destruct C as (_ & _ & _ & X & Y & _); split; assumption). destruct HX as [HX HY].
    assert (UT : u32 (s_elapsed s + d) = T0 + d) by (rewrite Et; apply u32_small; lia).
    assert (HT : 0 <= T0 + d < 4294967296) by lia.
    destruct (rdelta_chain v (T0 + d) Bv' HT) as (_ & _ & _ & _ & _ & P & _).
    pose proof (rdelta_mono v T0 (T0 + d) ltac:(lra) ltac:(lia)) as MO.
    destruct (IH (T0 + d) s1) as (s' & R & rest); try lia; auto.
    + subst s1. destruct St as [[Q S]|S].
      * rewrite <- S in Vt. destruct (advance_v32 L s t t v d Vt ltac:(rewrite Eg; rewrite S in Vt; exact Vt) Vv) as (_ & _ & X & _); try lra. now rewrite X.
      * destruct (advance_v32 L s a t v d S ltac:(rewrite Eg; exact Vt) Vv) as (_ & _ & X & _); try lra. now rewrite X.
    + subst s1. rewrite <- UT. destruct St as [[Q S]|S].
      * rewrite <- S in Vt. destruct (advance_v32 L s t t v d Vt ltac:(rewrite Eg; rewrite S in Vt; exact Vt) Vv) as (_ & X & _); try lra. exact X.
      * destruct (advance_v32 L s a t v d S ltac:(rewrite Eg; exact Vt) Vv) as (_ & X & _); try lra. exact X.
    + subst s1 tf. unfold servo_advance. destruct (flt A _ _); [|destruct (flt A _ _)]; reflexivity.
    + subst s1. destruct St as [[Q S]|S].
      * assert (V2 : v32 (s_start s) t) by (rewrite S; exact Vt). destruct (advance_v32 L s t t v d V2 ltac:(rewrite Eg; exact Vt) Vv) as (_ & _ & _ & _ & X & _); try lra.
        rewrite UT in X. rewrite rstep_eq in X; auto; [|eapply v32_r; eauto]. rewrite rstep_arrived by lra. exact X.
      * destruct (advance_v32 L s a t v d S ltac:(rewrite Eg; exact Vt) Vv) as (_ & _ & _ & _ & X & _); try lra. rewrite UT in X. exact X.
    + subst s1. destruct St as [[Q S]|S].
      * left. split; [lra|]. unfold servo_advance. destruct (flt A _ _); [|destruct (flt A _ _)]; cbn [s_start with_start with_cur with_elapsed s_target]; congruence.
      * destruct (advance_v32 L s a t v d S ltac:(rewrite Eg; exact Vt) Vv) as (_ & _ & _ & _ & _ & X & Y); try lra. rewrite UT in X, Y.
        destruct (Rlt_dec (Rabs (r32 (t - a))) (rdelta v (T0 + d))) as [Q|Q]; [left; split; [exact Q|]; destruct (X Q) as [_ Z]; rewrite Z; exact Eg|right; rewrite (Y Q); exact S].
    + replace (T0 + (d + total dts)) with (T0 + d + total dts) by lia. exists s'. split; [|exact rest].
      unfold ticks in *. cbn [map sop_run sop_step]. rewrite E. cbn [bind]. exact R.
Qed.

(** A move from angle a to angle t at speed v (rad/s): after T ms the computed angle is between a and t, up to
    M/4000000; it has not gone further than v*T, up to one millionth and M/4000000; it does not go back by more than
    M/4000000; the pulses are inside the calibration (1 us off at most); and it arrives, exactly, at latest one millionth of the
    duration (and 10^-9 rad) late. *)
Theorem C28_motion_ieee (s : servo A) (mn mx M a t v : R) (tf : spec_float) (dts1 dts2 : list Z) :
  inside32 s mn mx M -> v32 (s_cur s) a -> v32 tf t -> (mn <= t <= mx)%R -> v32 (s_vel s) v ->
  Forall (fun d => 0 <= d) (dts1 ++ dts2) -> total (dts1 ++ dts2) < 4294967296 ->
  exists s1 s2 p1 p2, sop_run A s (STarget A tf ++ ticks A dts1) = Ok s1 /\ sop_run A s1 (ticks A dts2) = Ok s2 /\
    v32 (s_cur s1) p1 /\ v32 (s_cur s2) p2 /\
    (a <= t -> a <= p1 <= t + M / 4000000 /\ p1 <= p2 + M / 4000000)%R /\
    (t <= a -> t - M / 4000000 <= p1 <= a /\ p2 - M / 4000000 <= p1)%R /\
    (Rabs (p1 - a) <= v * IZR (total dts1) / 1000 * (1 + 1 / 1000000) + M / 4000000)%R /\
    (Rabs (t - a) * (1 + 1 / 1000000) + 1 / 1000000000 <= v * IZR (total dts1) / 1000 -> p1 = t /\ p2 = t)%R.
Proof.
  intros I Va Vt Bt Vv N TT. apply Forall_app in N as [N1 N2]. rewrite total_app in TT.
  pose proof (total_nonneg _ N1) as T1. pose proof (total_nonneg _ N2) as T2.
  assert (Ba : (mn - slack M <= a <= mx + slack M)%R).
  { destruct I as (_ & _ & _ & _ & (c & Vc & Bc) & _). pose proof (fv_inj 24 128 _ _ _ Va Vc). subst c. exact Bc. }
  pose proof (v32_r _ _ Va) as Ea. pose proof (v32_r _ _ Vt) as Et.
  assert (I0 : inside32 (servo_set_target A s tf) mn mx M).
  { destruct I as (C & V & W & I1 & I2 & _). split; [exact C|]. split; [exact V|]. split; [exact W|]. split; [exact I2|]. split; [exact I2|]. exists t. auto. }
  destruct (run_ticks a t v mn mx M tf dts1 Vt Bt Ba Ea N1 0 (servo_set_target A s tf)) as (s1 & R1 & I1 & Vv1 & E1 & G1 & C1 & S1); auto; try lia.
  { rewrite rdelta_0, rstep_0 by exact Ea. exact Va. }
  rewrite Z.add_0_l in *.
  destruct (run_ticks a t v mn mx M tf dts2 Vt Bt Ba Ea N2 (total dts1) s1) as (s2 & R2 & I2 & _ & E2 & G2 & C2 & S2); auto; try lia.
  exists s1, s2, (rstep a t (rdelta v (total dts1))), (rstep a t (rdelta v (total dts1 + total dts2))).
  split; [rewrite sop_run_app, sop_run_target; exact R1|]. split; [exact R2|]. split; [exact C1|]. split; [exact C2|].
  destruct I as (C & (v' & Vv' & Bv') & _). pose proof (fv_inj 24 128 _ _ _ Vv Vv') as EV. subst v'.
  pose proof (M_bounds _ _ _ _ C) as HM. pose proof (slack_bounds M HM) as HS.
  assert (HX : (- M <= mn /\ mx <= M)%R) by (destruct C as (_ & _ & _ & X & Y & _); split; assumption). destruct HX as [HX HY].
  destruct (rdelta_chain v (total dts1) Bv' ltac:(lia)) as (_ & _ & _ & _ & _ & P1 & L1 & U1).
  destruct (rdelta_chain v (total dts1 + total dts2) Bv' ltac:(lia)) as (_ & _ & _ & _ & _ & P2 & _).
  pose proof (rdelta_mono v (total dts1) (total dts1 + total dts2) ltac:(lra) ltac:(lia)) as MO.
  set (d1 := rdelta v (total dts1)) in *. set (d2 := rdelta v (total dts1 + total dts2)) in *.
  pose proof tiny_small as Y1. pose proof tiny_pos as Y0.
  assert (TV : (0 <= v * IZR (total dts1))%R) by (apply Rmult_le_pos; [lra|apply IZR_le; lia]).
  set (w := (v * IZR (total dts1))%R) in *.
  split; [|split; [|split]].
  - intros O. destruct (rstep_up a t d1 M P1 HM Ea Et ltac:(lra) ltac:(lra) O) as [B1 K1].
    destruct (rstep_up a t d2 M P2 HM Ea Et ltac:(lra) ltac:(lra) O) as [B2 K2]. unfold slack in *. split; [lra|].
    unfold rstep in *. rewrite (Rabs_pos_eq d1 P1), (Rabs_pos_eq d2 P2) in *. rewrite (Rabs_pos_eq (r32 (t - a))) in * by (apply r32_pos; lra). unfold rltb in *.
    destruct (Rlt_dec (r32 (t - a)) d2) as [Q2|Q2]; [lra|]. destruct (Rlt_dec (r32 (t - a)) d1) as [Q1|Q1]; [lra|].
    destruct (Rlt_dec a t) as [X|X].
    + assert (r32 (a + d1) <= r32 (a + d2))%R by (apply r32_le; lra). lra.
    + assert (a = t) by lra. subst t. lra.
  - intros O. destruct (rstep_down a t d1 M P1 HM Ea Et ltac:(lra) ltac:(lra) O) as [B1 K1].
    destruct (rstep_down a t d2 M P2 HM Ea Et ltac:(lra) ltac:(lra) O) as [B2 K2]. unfold slack in *. split; [lra|].
    unfold rstep in *. rewrite (Rabs_pos_eq d1 P1), (Rabs_pos_eq d2 P2) in *. unfold rltb in *.
    destruct (Rlt_dec (Rabs (r32 (t - a))) d2) as [Q2|Q2]; [lra|]. destruct (Rlt_dec (Rabs (r32 (t - a))) d1) as [Q1|Q1]; [lra|].
    destruct (Rlt_dec a t) as [X|X]; [lra|].
    assert (r32 (a - d2) <= r32 (a - d1))%R by (apply r32_le; lra). lra.
  - assert (NA : forall z b, (Rabs (z - a) <= b)%R <-> (- b <= z - a <= b)%R) by (intros; split; [apply Rabs_bounds|apply Rabs_le]).
    apply NA. assert (W1 : (d1 <= w / 1000 * (1 + 1 / 1000000) + 10000 * tiny)%R) by lra.
    destruct (Rle_dec a t) as [O|O].
    + destruct (rstep_up a t d1 M P1 HM Ea Et ltac:(lra) ltac:(lra) O) as [B1 K1]. unfold slack in *. split; [lra|].
      destruct K1 as [K1|[K1 K2]].
      * destruct (r32_near (a + d1) (2 * M + d1)) as [_ Z]; [apply Rabs_le; lra|]. lra.
      * destruct (r32_near (t - a) (2 * M + M / 4000000)) as [Z _]; [apply Rabs_le; lra|]. lra.
    + destruct (rstep_down a t d1 M P1 HM Ea Et ltac:(lra) ltac:(lra) ltac:(lra)) as [B1 K1]. unfold slack in *. split; [|lra].
      destruct K1 as [K1|[K1 K2]].
      * destruct (r32_near (a - d1) (2 * M + d1)) as [Z _]; [apply Rabs_le; lra|]. lra.
      * destruct (r32_near (a - t) (2 * M + M / 4000000)) as [Z _]; [apply Rabs_le; lra|]. lra.
  - intros AR. assert (Q : (Rabs (r32 (t - a)) < d1)%R).
    { pose proof (r32_error (t - a)) as E. pose proof (Rabs_triang (r32 (t - a) - (t - a)) (t - a)) as TR.
      replace (r32 (t - a) - (t - a) + (t - a))%R with (r32 (t - a)) in TR by ring. pose proof (Rabs_pos (t - a)). lra. }
    split; apply rstep_arrived; lra.
Qed.

(** once arrived it stays for ever, whatever the clock does *)
Theorem C28_stays_ieee (s s2 : servo A) (mn mx M t : R) (dts : list Z) :
  inside32 s mn mx M -> v32 (s_target s) t -> v32 (s_start s) t -> v32 (s_cur s) t ->
  sop_run A s (ticks A dts) = Ok s2 -> v32 (s_cur s2) t.
Proof.
  revert s. induction dts as [|d dts IH]; intros s I Vt Vs Vc E; [injection E as <-; exact Vc|].
  unfold ticks in E. cbn [map sop_run sop_step] in E.
  destruct (tick_inside s mn mx M d I) as (s1 & p & E1 & I1 & _). rewrite E1 in E. cbn [bind] in E.
  assert (X : s1 = servo_advance A s d) by (unfold servo_process in E1; destruct (servo_move A (servo_advance A s d)); [injection E1 as <- _; reflexivity|discriminate]).
  destruct I as (C & (v & Vv & Bv) & _ & _ & _ & (t' & Vt' & Bt)). pose proof (fv_inj 24 128 _ _ _ Vt Vt') as ET. subst t'.
  pose proof (M_bounds _ _ _ _ C) as HM.
  assert (HX : (- M <= mn /\ mx <= M)%R) by (destruct C as (_ & _ & _ & Y & Z & _); split; assumption). destruct HX as [HX HY].
  destruct (advance_v32 L s t t v d Vs Vt Vv ltac:(lra) ltac:(lra) Bv) as (HT & _ & _ & G & VC & A1 & A2).
  destruct (rdelta_chain v (u32 (s_elapsed s + d)) Bv HT) as (_ & _ & _ & _ & _ & P & _).
  rewrite rstep_eq in VC; [|exact P|eapply v32_r; eauto]. subst s1. apply (IH (servo_advance A s d)); auto; [rewrite G; exact Vt|].
  destruct (Rlt_dec (Rabs (r32 (t - t))) (rdelta v (u32 (s_elapsed s + d)))) as [Q|Q]; [destruct (A1 Q) as [_ ->]; exact Vt|rewrite (A2 Q); exact Vs].
Qed.

(** ** C32 for the motion controller: over every history of calls and ticks, as long as no NaN is among the commanded
    speeds and angles *)
Definition number (x : spec_float) : Prop := valid_binary 24 128 x = true /\ x <> S754_nan.
Lemma number_32 x : number x -> number32 x.
Proof. intros [V N]. destruct x; [right|left; eauto|contradiction|right]; eexists; apply fv_valid; auto. Qed.
Lemma in_limits (x lo hi : spec_float) mn mx : number x -> v32 lo mn -> v32 hi mx -> not_outside A x lo hi -> exists r, v32 x r /\ (mn <= r <= mx)%R.
Proof.
  intros N Vl Vh [O1 O2]. cbn [flt IEEE] in *. apply number_32 in N as [[b ->]|[r V]].
  - exfalso. destruct Vl as (x & <- & Fx & _), Vh as (y & <- & Fy & _). destruct b; destruct x, y; discriminate.
  - exists r. split; [exact V|]. rewrite (fv_lt 24 128 _ _ _ _ V Vl) in O1. rewrite (fv_lt 24 128 _ _ _ _ Vh V) in O2. unfold rltb in *.
    destruct (Rlt_dec r mn); [discriminate|]. destruct (Rlt_dec mx r); [discriminate|]. lra.
Qed.
Lemma command_inside (s : servo A) mn mx M v a : inside32 s mn mx M -> number v -> number a ->
  not_outside A a (s_min s) (s_max s) -> inside32 (servo_set_target A (servo_set_vel A s v) a) mn mx M.
Proof.
  intros I Nv Na O. pose proof I as ((Vl & Vh & _) & _).
  destruct (op_inside s mn mx M (SVel (A := A) v) I (number_32 _ Nv)) as (s1 & E1 & I1 & _). cbn in E1. injection E1 as <-.
  destruct (op_inside _ mn mx M (SStmt1 (A := A)) I1 Logic.I) as (s2 & E2 & I2 & _). cbn in E2. injection E2 as <-.
  destruct (op_inside _ mn mx M (SStmt2 (A := A)) I2 Logic.I) as (s3 & E3 & I3 & _). cbn in E3. injection E3 as <-.
  destruct (op_inside _ mn mx M (SStmt3 (A := A) a) I3) as (s4 & E4 & I4 & _); [exact (in_limits a _ _ mn mx Na Vl Vh O)|].
  cbn in E4. injection E4 as <-. exact I4.
Qed.

Section Robot.
Context (fwd : V6 (F A) -> V6 (F A)) (inv : V6 (F A) -> option (V6 (F A))) (l2p p2l : V6 (F A) -> V6 (F A)) (limits : V6 (F A * F A)).
Context (mn mx M : Z -> R).
Definition arm_inside (r : robot A) : Prop := axes (fun i => inside32 (at6 (r_servos r) i) (mn i) (mx i) (M i)).
Definition numbers (cmds : list (Z * spec_float * spec_float)) : Prop := Forall (fun '(i, v, a) => number v /\ number a) cmds.

Lemma arm_tick (r : robot A) d : arm_inside r -> exists r', r_tick A r d = Ok r' /\ arm_inside r'.
Proof.
  intros (H0 & H1 & H2 & H3 & H4 & H5). cbn [at6] in *. unfold r_tick.
  destruct (tick_inside _ _ _ _ d H0) as (s0 & p0 & -> & K0 & _).
  destruct (tick_inside _ _ _ _ d H1) as (s1 & p1 & -> & K1 & _).
  destruct (tick_inside _ _ _ _ d H2) as (s2 & p2 & -> & K2 & _).
  destruct (tick_inside _ _ _ _ d H3) as (s3 & p3 & -> & K3 & _).
  destruct (tick_inside _ _ _ _ d H4) as (s4 & p4 & -> & K4 & _).
  destruct (tick_inside _ _ _ _ d H5) as (s5 & p5 & -> & K5 & _).
  cbn [bind]. eexists; split; [reflexivity|]. unfold arm_inside, axes. cbn [r_servos with_servos at6 v0 v1 v2 v3 v4 v5].
  split; [exact K0|]. split; [exact K1|]. split; [exact K2|]. split; [exact K3|]. split; [exact K4|exact K5].
Qed.

Lemma arm_start (r r' : robot A) e : arm_inside r -> r_start_move A fwd inv l2p p2l limits r = Ok (r', e) -> numbers (servo_cmds e) -> arm_inside r'.
Proof.
  intros H E NN. apply start_move_commands in E as [[_ Y]|(tl & vels & _ & W & EC & Y)].
  - unfold arm_inside. rewrite Y. exact H.
  - unfold arm_inside. rewrite Y. rewrite EC in NN. unfold arm_inside, axes in H. clear - H W NN.
        unfold axes in *. cbn [at6 zip6 v0 v1 v2 v3 v4 v5 fst snd] in *. unfold numbers, all_six in NN.
        destruct H as (H0 & H1 & H2 & H3 & H4 & H5). destruct W as (L0 & L1 & L2 & L3 & L4 & L5).
        assert (K : forall i v a, In (i, v, a) (all_six (A := A) vels (l2p tl)) -> number v /\ number a) by (intros ? ? ? IN; exact (proj1 (Forall_forall _ _) NN _ IN)).
        split; [|split; [|split; [|split; [|split]]]]; apply command_inside; auto;
          [apply (K 0 _ (v0 (l2p tl)))|apply (K 0 (v0 vels))|apply (K 1 _ (v1 (l2p tl)))|apply (K 1 (v1 vels))|apply (K 2 _ (v2 (l2p tl)))|apply (K 2 (v2 vels))
          |apply (K 3 _ (v3 (l2p tl)))|apply (K 3 (v3 vels))|apply (K 4 _ (v4 (l2p tl)))|apply (K 4 (v4 vels))|apply (K 5 _ (v5 (l2p tl)))|apply (K 5 (v5 vels))];
          unfold all_six; cbn [In]; auto 10.
Qed.
Lemma arm_step (r r' : robot A) o e : arm_inside r -> r_step A fwd inv l2p p2l limits r o = Ok (r', e) -> numbers (servo_cmds e) -> arm_inside r'.
Proof.
  intros H E NN. destruct o.
  1-2,4-5,6-9: cbn in E; inversion E; subst; exact H.
  - cbn in E. unfold set_angle in E. destruct ((0 <=? i) && (i <? 6)); [|discriminate].
    cbn in E; inversion E; subst; exact H.
  - cbn [r_step] in E. apply process_cases in E as [[_ X]|(rs & E & X & _)].
    + unfold arm_inside. rewrite X. exact H.
    + apply (arm_start rs r' e); auto. unfold arm_inside. rewrite X. exact H.
  - apply step_tick in E as [E ->]. destruct (arm_tick r dt H) as (x & Ex & Hx).
    assert (r' = x) by congruence. now subst.
Qed.
Lemma arm_run os : forall (r r' : robot A) e, arm_inside r -> r_run A fwd inv l2p p2l limits r os = Ok (r', e) -> numbers (servo_cmds e) -> arm_inside r'.
Proof.
  induction os as [|o os IH]; intros r r' e C H N; cbn [r_run] in H.
  - inversion H; subst; auto.
  - destruct (r_step A fwd inv l2p p2l limits r o) as [[r1 e1]|] eqn:E1; [|discriminate]. cbn [bind] in H.
    destruct (r_run A fwd inv l2p p2l limits r1 os) as [[r2 e2]|] eqn:E2; [|discriminate]. cbn [bind] in H. injection H as <- <-.
    unfold numbers in N. rewrite servo_cmds_app in N. apply Forall_app in N as [N1 N2]. apply (IH r1 r2 e2); auto. apply (arm_step r r1 o e1); auto.
Qed.

(** whatever arrives on the serial port, on every schedule: unless a NaN is commanded, every joint servo is at all times
    within M/4000000 of its limits, its target is inside them, and no timer interrupt faults *)
Theorem C32_system_servos_inside_ieee pinMap print sgn (servos : V6 (servo A)) axs junk mem s0 stims s tr :
  axes (fun i => inside32 (at6 servos i) (mn i) (mx i) (M i)) ->
  sys_boot A fwd p2l servos axs junk mem = Ok s0 ->
  sys_run A fwd inv l2p p2l limits pinMap print sgn s0 stims = Ok (s, tr) ->
  numbers (commanded tr) ->
  axes (fun i => let x := at6 (r_servos (d_robot (y_dev s))) i in
    exists c t, v32 (s_cur x) c /\ v32 (s_target x) t /\
      (mn i - M i / 4000000 <= c <= mx i + M i / 4000000)%R /\ (mn i <= t <= mx i)%R) /\
  forall dt, exists r, r_tick A (d_robot (y_dev s)) dt = Ok r.
Proof.
  intros H B R NN.
  destruct (robot_projection A fwd inv l2p p2l limits pinMap print sgn _ _ _ _ R) as (os & evs & RR & SC & _).
  unfold sys_boot in B. destruct (c_boot junk mem); cbn [bind] in B; [|discriminate]. injection B as <-.
  assert (I : arm_inside (d_robot (y_dev s))).
  { apply (arm_run (OMethod LINEAR :: OVel (fofz A 10) :: os) (robot_new A fwd p2l servos) (d_robot (y_dev s)) evs).
    - unfold arm_inside. exact H.
    - cbn [r_run r_step bind]. cbn [y_dev dev_boot d_robot] in RR. rewrite RR. reflexivity.
    - rewrite SC. exact NN. }
  split.
  - unfold arm_inside, axes in I. unfold axes. cbv zeta.
    assert (K : forall x i, inside32 x (mn i) (mx i) (M i) -> exists c t, v32 (s_cur x) c /\ v32 (s_target x) t /\
      (mn i - M i / 4000000 <= c <= mx i + M i / 4000000)%R /\ (mn i <= t <= mx i)%R).
    { intros x i (_ & _ & _ & _ & (c & Vc & Bc) & (t & Vt & Bt)). exists c, t. unfold slack in Bc. auto. }
    destruct I as (I0 & I1 & I2 & I3 & I4 & I5).
    split; [|split; [|split; [|split; [|split]]]]; apply K; assumption.
  - intros dt. destruct (arm_tick (d_robot (y_dev s)) dt I) as (r & E & _). eauto.
Qed.
End Robot.

(** ** The shipped configuration mp-robot-kit *)
Definition kit_mn (i : Z) : R := SF2R radix2 (s_min (at6 (kit_servos A) i)).
Definition kit_mx (i : Z) : R := SF2R radix2 (s_max (at6 (kit_servos A) i)).
Lemma inside_made (s : servo A) M : 
  v32 (s_min s) (SF2R radix2 (s_min s)) -> v32 (s_max s) (SF2R radix2 (s_max s)) -> v32 (s_vel s) (SF2R radix2 (s_vel s)) -> s_maxvel s = s_vel s ->
  v32 (s_cur s) 0 -> s_start s = s_cur s -> s_target s = s_cur s -> 0 <= s_minF s <= 32767 -> 0 <= s_maxF s <= 32767 ->
  (1 / 1000 <= SF2R radix2 (s_max s) - SF2R radix2 (s_min s) /\ - M <= SF2R radix2 (s_min s) /\ SF2R radix2 (s_max s) <= M /\ 0 <= M <= 1000)%R ->
  (M * Rabs (IZR (s_maxF s - s_minF s)) <= 1000000 * (SF2R radix2 (s_max s) - SF2R radix2 (s_min s)))%R ->
  (SF2R radix2 (s_min s) <= 0 <= SF2R radix2 (s_max s))%R -> (0 <= SF2R radix2 (s_vel s) <= 10000)%R ->
  inside32 s (SF2R radix2 (s_min s)) (SF2R radix2 (s_max s)) M.
Proof.
  intros H1 H2 H3 E1 H4 E2 E3 F1 F2 (B1 & B2 & B3 & B4) B5 B6 B7. unfold inside32, calibrated32. rewrite E1, E2, E3.
  split; [tauto|]. unfold slack. split; [eexists; split; [exact H3|exact B7]|]. split; [eexists; split; [exact H3|exact B7]|].
  split; [exists 0%R; split; [exact H4|lra]|]. split; [exists 0%R; split; [exact H4|lra]|]. exists 0%R. split; [exact H4|lra].
Qed.
Ltac made := apply inside_made; [lit|lit|lit|reflexivity|apply (fv_zero 24 128 false)|reflexivity|reflexivity|cbn; lia|cbn; lia|lits; lra
  |match goal with |- context [Rabs (IZR ?x)] => let y := eval vm_compute in x in change x with y end; rewrite <- abs_IZR; lits; match goal with |- context [Z.abs ?x] => let y := eval vm_compute in (Z.abs x) in change (Z.abs x) with y end; lra
  |lits; lra|lits; lra].

(** the six joint servos and the two additional axes are calibrated, and inside their limits after power-up *)
Theorem C30_kit_calibrated_ieee :
  axes (fun i => inside32 (at6 (kit_servos A) i) (kit_mn i) (kit_mx i) 3) /\
  Forall (fun s => inside32 s (SF2R radix2 (s_min s)) (SF2R radix2 (s_max s)) 3) (kit_axis_servos A).
Proof.
  split.
  - unfold axes, kit_mn, kit_mx. cbn [at6 kit_servos v0 v1 v2 v3 v4 v5]. split; [|split; [|split; [|split; [|split]]]]; made.
  - apply Forall_cons; [made|]. apply Forall_cons; [made|]. apply Forall_nil.
Qed.

(** whatever is sent to the controller of the kit: unless a NaN is commanded, no joint is ever more than 10^-6 rad outside its limits *)
Theorem C32_kit_ieee fwd inv l2p p2l limits pinMap print sgn axs junk mem s0 stims s tr :
  sys_boot A fwd p2l (kit_servos A) axs junk mem = Ok s0 ->
  sys_run A fwd inv l2p p2l limits pinMap print sgn s0 stims = Ok (s, tr) ->
  Forall (fun '(i, v, a) => number v /\ number a) (commanded tr) ->
  axes (fun i => exists c, v32 (s_cur (at6 (r_servos (d_robot (y_dev s))) i)) c /\
    (kit_mn i - 1 / 1000000 <= c <= kit_mx i + 1 / 1000000)%R) /\
  forall dt, exists r, r_tick A (d_robot (y_dev s)) dt = Ok r.
Proof.
  intros B R N. destruct (C32_system_servos_inside_ieee fwd inv l2p p2l limits kit_mn kit_mx (fun _ => 3%R) pinMap print sgn
    (kit_servos A) axs junk mem s0 stims s tr (proj1 C30_kit_calibrated_ieee) B R N) as [H T]. split; [|exact T].
  unfold axes in *. cbv zeta in H.
  assert (K : forall i, (exists c t, v32 (s_cur (at6 (r_servos (d_robot (y_dev s))) i)) c /\ v32 (s_target (at6 (r_servos (d_robot (y_dev s))) i)) t /\
    (kit_mn i - 3 / 4000000 <= c <= kit_mx i + 3 / 4000000)%R /\ (kit_mn i <= t <= kit_mx i)%R) -> exists c, v32 (s_cur (at6 (r_servos (d_robot (y_dev s))) i)) c /\
    (kit_mn i - 1 / 1000000 <= c <= kit_mx i + 1 / 1000000)%R).
  { intros i (c & t & V & _ & Bc & _). exists c. split; [exact V|lra]. }
  destruct H as (H0 & H1 & H2 & H3 & H4 & H5). split; [|split; [|split; [|split; [|split]]]]; apply K; assumption.
Qed.
End Ieee.

(** ** Concrete cases *)
(** the kit servo of joint 2 (falling calibration, 2290 us at -45 degrees, 650 at 135) going to 1 rad at 300 deg/s: after 100 ms
    it is under way, after 300 ms it is there *)
Example C28_ieee_reachable :
  let s := v2 (kit_servos IF) in
  match sop_run IF s (STarget IF (fi 1) ++ ticks IF [100]), sop_run IF s (STarget IF (fi 1) ++ ticks IF [100; 100]) with
  | Ok s1, Ok s2 => s_cur s1 = S754_finite false 8784529 (-24) /\ servo_move IF s1 = Ok 1606 /\ s_cur s2 = fi 1 /\ servo_move IF s2 = Ok 1357
  | _, _ => False
  end.
Proof. vm_compute. splits; reflexivity. Qed.
Definition number_b (x : spec_float) : bool := valid_binary 24 128 x && match x with S754_nan => false | _ => true end.
(** the kit with the instruction of PropProgress: joint 1 to 15 degrees; every commanded value is a number, and it gets there *)
Definition kit_system (stims : list stim) : res (sys IF * list (sys_ev IF)) :=
  do s0 <- sys_boot IF (fun a => a) (kit_p2l IF) (kit_servos IF) (kit_axis_servos IF) (repeat 0 300) (repeat 0 2048);
  sys_run IF (fun a => a) demo_inv (kit_l2p IF) (kit_p2l IF) (kit_limits IF) [20; 21; 22; 23; 24; 25; 26; 27; 28; 29] (fun _ => [48]) true s0 stims.
Example C32_ieee_reachable :
  match kit_system demo_moving with
  | Ok (s, tr) => map (fun c => fst (fst c)) (commanded tr) = [0; 1; 2; 3; 4; 5] /\ forallb (fun c => number_b (snd (fst c)) && number_b (snd c)) (commanded tr) = true /\
      s_cur (v1 (r_servos (d_robot (y_dev s)))) = deg IF 15 /\ s_cur (v2 (r_servos (d_robot (y_dev s)))) = deg IF 15
  | Ub _ => False
  end.
Proof. vm_compute. splits; reflexivity. Qed.

Print Assumptions C28_motion_ieee.
Print Assumptions C32_kit_ieee.
