(** * PropCalibMove: where the calibration program drives the servos (C74, C76-C79),
    in exact arithmetic and with the floats of the device. *)
From Coq Require Import Reals Lra.
From Flocq Require Import Core BinarySingleNaN.
From Verif Require Import Base Arith FloatBridge ServoModel ServoSpec ServoProofs ServoFloat RobotModel ConfigModel CalibModel CalibProofs PropCalib CalibMoves.
Open Scope Z_scope.

(** ** exact arithmetic: a number is its value *)
Definition exactly (x v : R) : Prop := x = v.
Section Exact.
Notation A := RA.
Lemma x_int n : Z.abs n <= 16777216 -> exactly (fofz A n) (IZR n).
Proof. reflexivity. Qed.
Lemma x_add x y m n : exactly x (IZR m) -> exactly y (IZR n) -> Z.abs (m + n) <= 16777216 -> exactly (fadd A x y) (IZR (m + n)).
Proof. intros -> -> _. unfold exactly. now rewrite plus_IZR. Qed.
Lemma x_sub x y m n : exactly x (IZR m) -> exactly y (IZR n) -> Z.abs (m - n) <= 16777216 -> exactly (fsub A x y) (IZR (m - n)).
Proof. intros -> -> _. unfold exactly. now rewrite minus_IZR. Qed.
Lemma x_trunc x n : exactly x (IZR n) -> ftoz A x = Some n.
Proof. intros ->. cbn. now rewrite rtrunc_IZR. Qed.
Lemma x_there (s : servo A) t x y : s_vel s = fofz A 100 -> exactly (s_cur s) x -> exactly t y -> (-10 <= x <= 10)%R -> (-10 <= y <= 10)%R ->
  s_cur (servo_advance A (servo_set_target A s t) 10000) = t /\ s_vel (servo_advance A (servo_set_target A s t) 10000) = s_vel s.
Proof.
  intros V C T B B'. assert (BB : (Rabs (y - x) <= 20)%R) by (apply Rabs_le; lra). rewrite advance_eq. cbn [s_target s_start s_vel s_elapsed servo_set_target set_target_1 set_target_2 set_target_3 with_start with_elapsed with_target].
  unfold exactly in *. rewrite C, T, V. change (u32 (0 + 10000)) with 10000. cbn [fofz RA].
  replace (100 * 10000 / 1000)%R with 1000%R by lra. rewrite (Rabs_pos_eq 1000) by lra. cbv zeta.
  destruct (Rlt_dec (Rabs (y - x)) 1000); [|lra]. split; [cbn; auto|cbn; now rewrite V].
Qed.
Lemma x_move (s : servo A) a0 a1 x : exactly (s_min s) a0 -> exactly (s_max s) a1 -> exactly (s_cur s) x ->
  (-10 <= a0)%R -> (a1 <= 10)%R -> (4 / 10 <= a1 - a0)%R -> (a0 <= x <= a1)%R ->
  0 <= s_minF s <= 32767 -> 0 <= s_maxF s <= 32767 ->
  exists p, servo_move A s = Ok p /\ Z.min (s_minF s) (s_maxF s) - 1 <= p <= Z.max (s_minF s) (s_maxF s).
Proof.
  intros E0 E1 E2 B0 B1 BD X F0 F1. unfold exactly in *.
  destruct (move_in_range s) as (p & M & _ & B).
  - unfold ServoProofs.sane. rewrite E0, E1. splits; try lia. lra.
  - unfold in_range. now rewrite E0, E1, E2.
  - exists p. split; [exact M|lia].
Qed.
End Exact.

(** ** IEEE arithmetic: a finite binary32 number of that value *)
Section Ieee.
Context (L : libm).
Notation A := (IEEE L).
Lemma i_int n : Z.abs n <= 16777216 -> v32 (fofz A n) (IZR n).
Proof. apply v_int. Qed.
Lemma i_add (x y : F A) m n : v32 x (IZR m) -> v32 y (IZR n) -> Z.abs (m + n) <= 16777216 -> v32 (fadd A x y) (IZR (m + n)).
Proof.
  intros X Y B. rewrite <- (r32_IZR (m + n)) by lia. rewrite plus_IZR. apply v_add; auto.
  rewrite <- plus_IZR, <- abs_IZR. apply (IZR_le _ 1000000000000000). lia.
Qed.
Lemma i_sub (x y : F A) m n : v32 x (IZR m) -> v32 y (IZR n) -> Z.abs (m - n) <= 16777216 -> v32 (fsub A x y) (IZR (m - n)).
Proof.
  intros X Y B. rewrite <- (r32_IZR (m - n)) by lia. rewrite minus_IZR. apply v_sub; auto.
  rewrite <- minus_IZR, <- abs_IZR. apply (IZR_le _ 1000000000000000). lia.
Qed.
Lemma i_trunc (x : F A) n : v32 x (IZR n) -> ftoz A x = Some n.
Proof. intros H. cbn [ftoz IEEE]. rewrite (fv_trunc 24 128 _ _ H). now rewrite rtrunc_IZR. Qed.
Lemma i_there (s : servo A) (t : F A) x y : s_vel s = fofz A 100 -> v32 (s_cur s) x -> v32 t y -> (-10 <= x <= 10)%R -> (-10 <= y <= 10)%R ->
  s_cur (servo_advance A (servo_set_target A s t) 10000) = t /\ s_vel (servo_advance A (servo_set_target A s t) 10000) = s_vel s.
Proof.
  intros V C T B B'. pose proof tiny_small as T1. pose proof tiny_pos as T0.
  destruct (advance_v32 L (servo_set_target A s t) x y 100 10000) as (_ & _ & E1 & _ & _ & E2 & _).
  - exact C.
  - exact T.
  - cbn. rewrite V. apply (v_int 100). lia.
  - lra.
  - lra.
  - lra.
  - split; [|exact E1]. destruct E2 as [E2 _]; [|exact E2].
    cbn [servo_set_target set_target_1 set_target_2 set_target_3 with_start with_elapsed with_target s_elapsed]. change (u32 (0 + 10000)) with 10000.
    destruct (rdelta_chain 100 10000) as (_ & _ & _ & _ & _ & _ & D); [lra|lia|].
    destruct (r32_near (y - x) 20) as [K1 K2]; [apply Rabs_le; lra|].
    apply Rle_lt_trans with 30%R; [apply Rabs_le; lra|]. lra.
Qed.
Lemma i_move (s : servo A) a0 a1 x : v32 (s_min s) a0 -> v32 (s_max s) a1 -> v32 (s_cur s) x ->
  (-10 <= a0)%R -> (a1 <= 10)%R -> (4 / 10 <= a1 - a0)%R -> (a0 <= x <= a1)%R ->
  0 <= s_minF s <= 32767 -> 0 <= s_maxF s <= 32767 ->
  exists p, servo_move A s = Ok p /\ Z.min (s_minF s) (s_maxF s) - 1 <= p <= Z.max (s_minF s) (s_maxF s).
Proof.
  intros E0 E1 E2 B0 B1 BD X F0 F1.
  assert (W : (Rabs (IZR (s_maxF s - s_minF s)) <= 32767)%R) by (rewrite <- abs_IZR; apply IZR_le; lia).
  destruct (move_v32 L s a0 a1 10 x) as (p & M & _ & B & _); [|exact E2|unfold slack; lra|exists p; auto].
  unfold calibrated32. splits; auto; try lra; try lia.
Qed.

(** the pulse computed is within a tenth of a microsecond of the line *)
Lemma pulse_acc mn mx f g x : (-10 <= mn)%R -> (mx <= 10)%R -> (4 / 10 <= mx - mn)%R -> (mn <= x <= mx)%R ->
  0 <= f <= 32767 -> 0 <= g <= 32767 ->
  (Rabs (pulse_real mn mx f g x - calibrated mn mx (IZR f) (IZR g) x) <= 1 / 10)%R.
Proof.
  intros B0 B1 HD X F G. unfold pulse_real, calibrated. pose proof tiny_small as T1. pose proof tiny_pos as T0.
  set (D := (mx - mn)%R) in *. set (d := (x - mn)%R) in *. assert (Bd : (0 <= d <= D)%R) by (unfold D, d; lra).
  assert (BD : (D <= 20)%R) by (unfold D; lra). clearbody D d.
  rewrite <- minus_IZR. set (W := IZR (g - f)) in *. assert (BW : (-32767 <= W <= 32767)%R) by (split; apply IZR_le; lia).
  assert (BF : (0 <= IZR f <= 32767)%R) by (split; apply IZR_le; lia). set (c := IZR f) in *. clearbody W c.
  assert (MUL : forall u v U V, (-U <= u <= U)%R -> (-V <= v <= V)%R -> (-(U * V) <= u * v <= U * V)%R).
  { intros u v U V Hu Hv. apply Rabs_bounds. rewrite Rabs_mult. apply Rmult_le_compat; try apply Rabs_pos; now apply Rabs_le. }
  set (q := (d / D * W)%R). assert (Eq : (q * D = d * W)%R) by (unfold q; field; lra).
  assert (Bq : (-32767 <= q <= 32767)%R).
  { assert (0 <= d / D <= 1)%R. { split; [apply Rmult_le_pos; [lra|left; apply Rinv_0_lt_compat; lra]|]. apply Rmult_le_reg_r with D; [lra|]. unfold Rdiv. rewrite Rmult_assoc, Rinv_l by lra. lra. }
    unfold q. destruct (MUL (d / D)%R W 1%R 32767%R); lra. }
  clearbody q.
  destruct (r32_near d D) as [A1 A2]; [apply Rabs_le_of; lra|]. set (t1 := r32 d) in *. clearbody t1.
  assert (P1 : (-(D * 4 / 1000) <= (t1 - d) * W <= D * 4 / 1000)%R).
  { destruct (MUL (t1 - d)%R W (D / 10000000)%R 32767%R); lra. }
  assert (E1 : (t1 * W = d * W + (t1 - d) * W)%R) by ring.
  assert (P2 : (-(D * 32767) <= d * W <= D * 32767)%R) by (destruct (MUL d W D 32767%R); lra).
  destruct (r32_near (t1 * W) (D * 33000)) as [A3 A4]; [apply Rabs_le_of; lra|]. set (t2 := r32 (t1 * W)) in *. clearbody t2.
  set (z1 := ((t1 - d) * W)%R) in *. clearbody z1.
  destruct (r32_near D D) as [A5 A6]; [apply Rabs_le_of; lra|]. set (D1 := r32 D) in *. clearbody D1.
  assert (P3 : (-(D * 4 / 1000) <= q * (D - D1) <= D * 4 / 1000)%R).
  { destruct (MUL q (D - D1)%R 32767%R (D / 10000000)%R); lra. }
  assert (HD1 : (D * (99 / 100) <= D1)%R) by lra.
  set (q1 := (t2 / D1)%R). assert (Eq1 : (q1 * D1 = t2)%R) by (unfold q1; field; lra). clearbody q1.
  assert (EE : ((q1 - q) * D1 = (t2 - d * W) + q * (D - D1))%R) by (rewrite <- Eq; replace ((q1 - q) * D1)%R with (q1 * D1 - q * D1)%R by ring; rewrite Eq1; ring).
  set (z2 := (q * (D - D1))%R) in *. clearbody z2. set (dw := (d * W)%R) in *. clearbody dw.
  assert (Q : (- (2 / 100) <= q1 - q <= 2 / 100)%R) by (split; apply Rmult_le_reg_r with D1; lra).
  destruct (r32_near q1 32768) as [A7 A8]; [apply Rabs_le_of; lra|]. set (q2 := r32 q1) in *. clearbody q2.
  destruct (r32_near (q2 + c) 65536) as [A9 A10]; [apply Rabs_le_of; lra|]. apply Rabs_le_of. lra.
Qed.
End Ieee.

(** ** C74: while the row of the selected servo is plausible (whole pulses of 1..32000 us,
    home between the angles, at least 0.4 rad apart, within 10 rad), every key is defined *)
Theorem C74_defined_partial : forall g c0 ev0 ks, length g = 6%nat -> calib_setup RA g = Ok (c0, ev0) ->
  stays_plausible RA exactly 1 32000 c0 ks -> exists c ev, calib_run RA c0 ks = Ok (c, ev).
Proof.
  intros g c0 ev0 ks Lg S P.
  destruct (always_ok RA exactly x_int x_add x_sub x_trunc x_there x_move 1 32000 g c0 ev0 ks ltac:(lia) ltac:(lia) Lg S P) as (c & ev & R & _). eauto.
Qed.
Print Assumptions C74_defined_partial.
Theorem C74_defined_ieee_partial : forall (L : libm) g c0 ev0 ks, length g = 6%nat -> calib_setup (IEEE L) g = Ok (c0, ev0) ->
  stays_plausible (IEEE L) v32 1 32000 c0 ks -> exists c ev, calib_run (IEEE L) c0 ks = Ok (c, ev).
Proof.
  intros L g c0 ev0 ks Lg S P.
  destruct (always_ok (IEEE L) v32 (i_int L) (i_add L) (i_sub L) (i_trunc L) (i_there L) (i_move L) 1 32000 g c0 ev0 ks ltac:(lia) ltac:(lia) Lg S P) as (c & ev & R & _). eauto.
Qed.
Print Assumptions C74_defined_ieee_partial.

(** ** C77: the pulses.  The program declares 200..2800 us (lines 19-20), but the limits
    are applied to a variable that is not used: w drives the first servo as far as one likes *)
Theorem C77_no_limit_refuted : forall g c0 ev0 n s, length g = 6%nat -> calib_setup RA g = Ok (c0, ev0) ->
  zget (c_servos c0) 0 = Ok s -> s_virtual s = false -> 1500 + 10 * Z.of_nat n <= 16777216 ->
  exists c ev, calib_run RA c0 (repeat key_w n) = Ok (c, ev) /\
    pulses RA ev = map (fun i => (0, 1500 + 10 * Z.of_nat i)) (seq 1 n).
Proof. intros g c0 ev0 n s. apply (no_limit RA exactly x_int x_add x_trunc). Qed.
Print Assumptions C77_no_limit_refuted.
Theorem C77_no_limit_ieee_refuted : forall (L : libm) g c0 ev0 n s, length g = 6%nat -> calib_setup (IEEE L) g = Ok (c0, ev0) ->
  zget (c_servos c0) 0 = Ok s -> s_virtual s = false -> 1500 + 10 * Z.of_nat n <= 16777216 ->
  exists c ev, calib_run (IEEE L) c0 (repeat key_w n) = Ok (c, ev) /\
    pulses (IEEE L) ev = map (fun i => (0, 1500 + 10 * Z.of_nat i)) (seq 1 n).
Proof. intros L g c0 ev0 n s. apply (no_limit (IEEE L) v32 (i_int L) (i_add L) (i_trunc L)). Qed.
Print Assumptions C77_no_limit_ieee_refuted.

(** as long as the numbers of the selected row stay between 210 and 2790 us, every pulse
    sent is between 200 and 2800 us, whatever is pressed *)
Theorem C77_within_partial : forall g c0 ev0 ks, length g = 6%nat -> calib_setup RA g = Ok (c0, ev0) ->
  stays_plausible RA exactly 210 2790 c0 ks ->
  exists c ev, calib_run RA c0 ks = Ok (c, ev) /\ forall i us, In (CPulse i us) ev -> 200 <= us <= 2800.
Proof.
  intros g c0 ev0 ks Lg S P.
  exact (always_ok RA exactly x_int x_add x_sub x_trunc x_there x_move 210 2790 g c0 ev0 ks ltac:(lia) ltac:(lia) Lg S P).
Qed.
Print Assumptions C77_within_partial.
Theorem C77_within_ieee_partial : forall (L : libm) g c0 ev0 ks, length g = 6%nat -> calib_setup (IEEE L) g = Ok (c0, ev0) ->
  stays_plausible (IEEE L) v32 210 2790 c0 ks ->
  exists c ev, calib_run (IEEE L) c0 ks = Ok (c, ev) /\ forall i us, In (CPulse i us) ev -> 200 <= us <= 2800.
Proof.
  intros L g c0 ev0 ks Lg S P.
  exact (always_ok (IEEE L) v32 (i_int L) (i_add L) (i_sub L) (i_trunc L) (i_there L) (i_move L) 210 2790 g c0 ev0 ks ltac:(lia) ltac:(lia) Lg S P).
Qed.
Print Assumptions C77_within_ieee_partial.

(** ** C78: a, d and q go where they should, after every plausible history.  [line] is the
    straight line through the two calibrated points. *)
Definition line (a0 a1 : R) (m k : Z) (x : R) : R := (IZR m + (x - a0) / (a1 - a0) * (IZR k - IZR m))%R.
Definition key_q := 113. Definition key_a := 97. Definition key_d := 100.

Theorem C78_moves_exact : forall g c0 ev0 ks c ev r n m k a0 a1, length g = 6%nat -> calib_setup RA g = Ok (c0, ev0) ->
  stays_plausible RA exactly 1 32000 c0 ks -> calib_run RA c0 ks = Ok (c, ev) ->
  zget (c_tab c) (c_sel c) = Ok r -> plausible_at RA exactly 1 32000 r n m k a0 a1 ->
  exists s, zget (c_servos c) (c_sel c) = Ok s /\
    forall key p, (key = key_a /\ p = m) \/ (key = key_d /\ p = k) \/ (key = key_q /\ p = rtrunc (line a0 a1 m k 0)) ->
    exists c' ev', calib_step RA c key = Ok (c', ev') /\ pulses RA ev' = (if s_virtual s then [] else [(c_sel c, p)]).
Proof.
  intros g c0 ev0 ks c ev r n m k a0 a1 Lg S P R Hr Q.
  pose proof (moves_ok RA exactly x_int x_add x_sub x_trunc x_there x_move 1 32000 g c0 ev0 ks c ev r n m k a0 a1 ltac:(lia) ltac:(lia) Lg S P R Hr Q) as M.
  pose proof Q as (Vn & Vm & Vk & V0 & V1 & Bn & Bm & Bk & B0 & B1 & BD).
  destruct (M key_q (fofz RA 0) 0%R) as (s & _ & _ & _ & _ & Hs & _); [left; auto|]. exists s. split; [exact Hs|].
  assert (VAL : forall key t y, (key = 113 /\ t = fofz RA 0 /\ y = 0%R) \/ (key = 97 /\ t = r_a0 r /\ y = a0) \/ (key = 100 /\ t = r_a1 r /\ y = a1) ->
    (a0 <= y <= a1)%R -> forall p, rtrunc (line a0 a1 m k y) = p ->
    exists c' ev', calib_step RA c key = Ok (c', ev') /\ pulses RA ev' = (if s_virtual s then [] else [(c_sel c, p)])).
  { intros key t y K Y p EP. destruct (M key t y K) as (s1 & s' & c' & ev' & p' & Hs1 & E & PE & MP & C1 & VT & E1 & E2 & E3 & E4 & _).
    rewrite Hs in Hs1. injection Hs1 as <-. exists c', ev'. split; [exact E|]. rewrite PE. replace p' with p; [reflexivity|].
    unfold exactly in V0, V1, VT.
    destruct (move_in_range s') as (p2 & MP2 & -> & _).
    - unfold ServoProofs.sane. rewrite E1, E2, E3, E4, V0, V1. splits; try lia. lra.
    - unfold in_range. rewrite E3, E4, V0, V1, C1, VT. exact Y.
    - rewrite MP in MP2. injection MP2 as ->. rewrite <- EP, E1, E2, E3, E4, V0, V1, C1, VT. reflexivity. }
  intros key p [[-> ->]|[[-> ->]|[-> ->]]].
  - apply (VAL key_a (r_a0 r) a0); [auto|lra|]. unfold line. replace (IZR m + (a0 - a0) / (a1 - a0) * (IZR k - IZR m))%R with (IZR m) by (field; lra). apply rtrunc_IZR.
  - apply (VAL key_d (r_a1 r) a1); [auto|lra|]. unfold line. replace (IZR m + (a1 - a0) / (a1 - a0) * (IZR k - IZR m))%R with (IZR k) by (field; lra). apply rtrunc_IZR.
  - apply (VAL key_q (fofz RA 0) 0%R); [auto|lra|reflexivity].
Qed.
Print Assumptions C78_moves_exact.

(** with the floats of the device: a exactly, d up to one microsecond, q up to 1.1 *)
Theorem C78_moves_ieee_partial : forall (L : libm) g c0 ev0 ks c ev r n m k a0 a1, length g = 6%nat -> calib_setup (IEEE L) g = Ok (c0, ev0) ->
  stays_plausible (IEEE L) v32 1 32000 c0 ks -> calib_run (IEEE L) c0 ks = Ok (c, ev) ->
  zget (c_tab c) (c_sel c) = Ok r -> plausible_at (IEEE L) v32 1 32000 r n m k a0 a1 ->
  exists s, zget (c_servos c) (c_sel c) = Ok s /\
    forall key y, (key = key_a /\ y = a0) \/ (key = key_d /\ y = a1) \/ (key = key_q /\ y = 0%R) ->
    exists c' ev' p, calib_step (IEEE L) c key = Ok (c', ev') /\ pulses (IEEE L) ev' = (if s_virtual s then [] else [(c_sel c, p)]) /\
      (line a0 a1 m k y - 11 / 10 <= IZR p <= line a0 a1 m k y + 1 / 10)%R /\
      (key = key_a -> p = m) /\ (key = key_d -> k - 1 <= p <= k).
Proof.
  intros L g c0 ev0 ks c ev r n m k a0 a1 Lg S P R Hr Q.
  pose proof (moves_ok (IEEE L) v32 (i_int L) (i_add L) (i_sub L) (i_trunc L) (i_there L) (i_move L) 1 32000 g c0 ev0 ks c ev r n m k a0 a1 ltac:(lia) ltac:(lia) Lg S P R Hr Q) as M.
  pose proof Q as (Vn & Vm & Vk & V0 & V1 & Bn & Bm & Bk & B0 & B1 & BD).
  destruct (M key_q (fofz (IEEE L) 0) 0%R) as (s & _ & _ & _ & _ & Hs & _); [left; auto|]. exists s. split; [exact Hs|].
  assert (W : (Rabs (IZR (k - m)) <= 32767)%R) by (rewrite <- abs_IZR; apply IZR_le; lia).
  assert (VAL : forall key t y, (key = 113 /\ t = fofz (IEEE L) 0 /\ y = 0%R) \/ (key = 97 /\ t = r_a0 r /\ y = a0) \/ (key = 100 /\ t = r_a1 r /\ y = a1) ->
    (a0 <= y <= a1)%R ->
    exists c' ev' p, calib_step (IEEE L) c key = Ok (c', ev') /\ pulses (IEEE L) ev' = (if s_virtual s then [] else [(c_sel c, p)]) /\
      p = rtrunc (pulse_real a0 a1 m k y) /\ (line a0 a1 m k y - 11 / 10 <= IZR p <= line a0 a1 m k y + 1 / 10)%R).
  { intros key t y K Y. destruct (M key t y K) as (s1 & s' & c' & ev' & p' & Hs1 & E & PE & MP & C1 & VT & E1 & E2 & E3 & E4 & _).
    rewrite Hs in Hs1. injection Hs1 as <-. exists c', ev', p'. split; [exact E|]. split; [exact PE|].
    destruct (move_v32 L s' a0 a1 10 y) as (p2 & MP2 & EP & BP & _).
    { unfold calibrated32. rewrite E1, E2, E3, E4. splits; auto; try lra; try lia. }
    { now rewrite C1. } { unfold slack. lra. }
    rewrite MP in MP2. injection MP2 as <-. rewrite E1, E2 in EP. split; [exact EP|].
    pose proof (pulse_acc a0 a1 m k y ltac:(lra) ltac:(lra) BD Y ltac:(lia) ltac:(lia)) as AC. apply Rabs_bounds in AC.
    change (calibrated a0 a1 (IZR m) (IZR k) y) with (line a0 a1 m k y) in AC.
    assert (LP : (1 <= line a0 a1 m k y)%R).
    { pose proof (calibrated_range a0 a1 (IZR m) (IZR k) y ltac:(lra) Y) as [X _]. change (calibrated a0 a1 (IZR m) (IZR k) y) with (line a0 a1 m k y) in X.
      apply Rle_trans with (2 := X). unfold Rmin. destruct Rle_dec; apply (IZR_le 1); lia. }
    destruct (rtrunc_pos (pulse_real a0 a1 m k y)) as [T _]; [lra|]. rewrite EP. lra. }
  assert (L0 : line a0 a1 m k a0 = IZR m) by (unfold line; field; lra). assert (L1 : line a0 a1 m k a1 = IZR k) by (unfold line; field; lra).
  intros key y [[-> ->]|[[-> ->]|[-> ->]]].
  - destruct (VAL key_a (r_a0 r) a0) as (c' & ev' & p & E & PE & EP & B); [auto|lra|]. exists c', ev', p.
    split; [exact E|]. split; [exact PE|]. split; [exact B|]. split; intro K; try discriminate K; clear K.
    rewrite EP. unfold pulse_real. rewrite Rminus_diag_eq, r32_0, Rmult_0_l, r32_0 by reflexivity. unfold Rdiv.
    rewrite Rmult_0_l, r32_0, Rplus_0_l, r32_IZR by lia. apply rtrunc_IZR.
  - destruct (VAL key_d (r_a1 r) a1) as (c' & ev' & p & E & PE & EP & B); [auto|lra|]. exists c', ev', p.
    split; [exact E|]. split; [exact PE|]. split; [exact B|]. split; intro K; try discriminate K; clear K.
    rewrite L1 in B. destruct B as [X1 X2]. split.
    + assert (X : (IZR (k - 2) < IZR p)%R) by (rewrite minus_IZR; lra). apply lt_IZR in X. lia.
    + assert (X : (IZR p < IZR (k + 1))%R) by (rewrite plus_IZR; lra). apply lt_IZR in X. lia.
  - destruct (VAL key_q (fofz (IEEE L) 0) 0%R) as (c' & ev' & p & E & PE & EP & B); [auto|lra|]. exists c', ev', p.
    split; [exact E|]. split; [exact PE|]. split; [exact B|]. split; intro K; discriminate K.
Qed.
Print Assumptions C78_moves_ieee_partial.
