(** * VarSpeedServo in IEEE arithmetic: error bounds, by FloatBridge *)
From Coq Require Import Reals Lra ZArith Lia Floats.SpecFloat.
From Flocq Require Import Core BinarySingleNaN.
From Verif Require Import Base Arith FloatBridge ServoModel.
Open Scope Z_scope.

Global Instance prec32 : Prec_gt_0 24 := eq_refl.
Global Instance prec64 : Prec_gt_0 53 := eq_refl.
Global Instance emax32 : Prec_lt_emax 24 128 := eq_refl.
Global Instance emax64 : Prec_lt_emax 53 1024 := eq_refl.

(** finite binary32 (binary64) number of value r *)
Definition v32 : spec_float -> R -> Prop := fv 24 128.
Definition v64 : spec_float -> R -> Prop := fv 53 1024.
Definition r32 : R -> R := rnd 24 128.
Definition r64 : R -> R := rnd 53 1024.

(** a bound for the smallest positive numbers of the formats *)
Definition tiny : R := (/ IZR (10 ^ 40))%R.
Lemma tiny_pos : (0 < tiny)%R.
Proof. apply Rinv_0_lt_compat, IZR_lt. reflexivity. Qed.
Lemma tiny_small : (tiny <= / 1000000000000000000000000)%R.
Proof. apply Rinv_le_contravar; [lra|]. apply (IZR_le 1000000000000000000000000). vm_compute. discriminate. Qed.
Lemma bpow_tiny k : 149 <= k -> (bpow radix2 (- k) <= tiny)%R.
Proof.
  intros K. rewrite bpow_opp. apply Rinv_le_contravar; [apply IZR_lt; reflexivity|].
  apply Rle_trans with (bpow radix2 149); [|apply bpow_le; lia].
  rewrite <- IZR_Zpower by lia. apply IZR_le. vm_compute. discriminate.
Qed.

Lemma r32_error x : (Rabs (r32 x - x) <= Rabs x / 16777216 + tiny)%R.
Proof.
  pose proof (rnd_error 24 128 x) as E. fold (r32 x) in E. unfold half_ulp_rel, eta in E.
  pose proof (bpow_tiny 149 ltac:(lia)) as T. replace (3 - 128 - 24) with (- (149)) in E by lia.
  replace (bpow radix2 (- (24) + 1)) with (/ 8388608)%R in E; [lra|].
  change (- (24) + 1) with (- (23)). rewrite bpow_opp. rewrite <- IZR_Zpower by lia. f_equal.
Qed.
Lemma r64_error x : (Rabs (r64 x - x) <= Rabs x / 16777216 + tiny)%R.
Proof.
  pose proof (rnd_error 53 1024 x) as E. fold (r64 x) in E. unfold half_ulp_rel, eta in E.
  pose proof (bpow_tiny 1074 ltac:(lia)) as T. replace (3 - 1024 - 53) with (- (1074)) in E by lia.
  assert (B : (bpow radix2 (- (53) + 1) <= / 8388608)%R).
  { change (- (53) + 1) with (- (52)). rewrite bpow_opp. apply Rinv_le_contravar; [lra|]. rewrite <- IZR_Zpower by lia. apply IZR_le. vm_compute. discriminate. }
  pose proof (Rabs_pos x). assert (/ 2 * bpow radix2 (- (53) + 1) * Rabs x <= / 16777216 * Rabs x)%R by (apply Rmult_le_compat_r; lra). lra.
Qed.
Lemma r32_le a b : (a <= b)%R -> (r32 a <= r32 b)%R.
Proof. exact (rnd_le 24 128 a b). Qed.
Lemma r32_0 : r32 0 = 0%R.
Proof. exact (rnd_0 24 128). Qed.
Lemma r32_pos a : (0 <= a)%R -> (0 <= r32 a)%R.
Proof. exact (rnd_pos 24 128 a). Qed.
Lemma r32_neg a : (a <= 0)%R -> (r32 a <= 0)%R.
Proof. intros H. rewrite <- r32_0. now apply r32_le. Qed.
Lemma r32_opp a : r32 (- a) = (- r32 a)%R.
Proof. exact (rnd_opp 24 128 a). Qed.
Lemma r32_IZR z : Z.abs z <= 16777216 -> r32 (IZR z) = IZR z.
Proof. intros H. apply (rnd_IZR 24 128); [exact H|lia]. Qed.
Lemma r32_bound a : (Rabs a <= 1000000000000000)%R -> (Rabs (r32 a) < bpow radix2 128)%R.
Proof.
  intros H. apply (rnd_small 24 128 a 100); [|lia]. apply Rle_trans with (1 := H). rewrite <- IZR_Zpower by lia. apply IZR_le. vm_compute. discriminate.
Qed.
Lemma r64_bound a : (Rabs a <= 1000000000000000)%R -> (Rabs (r64 a) < bpow radix2 1024)%R.
Proof.
  intros H. apply (rnd_small 53 1024 a 100); [|lia]. apply Rle_trans with (1 := H). rewrite <- IZR_Zpower by lia. apply IZR_le. vm_compute. discriminate.
Qed.
Lemma v32_r x r : v32 x r -> r32 r = r.
Proof. exact (fv_rnd 24 128 x r). Qed.

Lemma v_add x y a b : v32 x a -> v32 y b -> (Rabs (a + b) <= 1000000000000000)%R -> v32 (SFadd 24 128 x y) (r32 (a + b)).
Proof. intros. apply (fv_add 24 128); auto. now apply r32_bound. Qed.
Lemma v_sub x y a b : v32 x a -> v32 y b -> (Rabs (a - b) <= 1000000000000000)%R -> v32 (SFsub 24 128 x y) (r32 (a - b)).
Proof. intros. apply (fv_sub 24 128); auto. now apply r32_bound. Qed.
Lemma v_mul x y a b : v32 x a -> v32 y b -> (Rabs (a * b) <= 1000000000000000)%R -> v32 (SFmul 24 128 x y) (r32 (a * b)).
Proof. intros. apply (fv_mul 24 128); auto. now apply r32_bound. Qed.
Lemma v_div x y a b : v32 x a -> v32 y b -> b <> 0%R -> (Rabs (a / b) <= 1000000000000000)%R -> v32 (SFdiv 24 128 x y) (r32 (a / b)).
Proof. intros. apply (fv_div 24 128); auto. now apply r32_bound. Qed.
Lemma v_ofz z : Z.abs z <= 1000000000000 -> v32 (SpecFloat.binary_normalize 24 128 z 0 false) (r32 (IZR z)).
Proof.
  intros H. pose proof (fv_normalize 24 128 z 0 false) as N. cbn [bpow] in N. rewrite Rmult_1_r in N. apply N.
  apply r32_bound. rewrite <- abs_IZR. apply (IZR_le _ 1000000000000000). lia.
Qed.
Lemma v_int z : Z.abs z <= 16777216 -> v32 (SpecFloat.binary_normalize 24 128 z 0 false) (IZR z).
Proof. intros H. rewrite <- (r32_IZR z H). apply v_ofz. lia. Qed.

(** sums of two floats bounded by 10^6 *)
Lemma Rabs_le_of x m : (- m <= x <= m)%R -> (Rabs x <= m)%R.
Proof. apply Rabs_le. Qed.
Lemma Rabs_bounds x m : (Rabs x <= m)%R -> (- m <= x <= m)%R.
Proof. intros H. unfold Rabs in H. destruct (Rcase_abs x); lra. Qed.

(** a rounding changes x by at most |x|/2^24 (and a tiny number) *)
Lemma r32_near x m : (Rabs x <= m)%R -> (x - (m / 16777216 + tiny) <= r32 x <= x + (m / 16777216 + tiny))%R.
Proof. intros H. pose proof (r32_error x) as E. apply Rabs_bounds in E. lra. Qed.

(** ** the pulse width *)
(** a calibrated servo: angle limits mn < mx of at most 1000 rad, pulse widths of at most 32767 us, at least
    one microsecond per M/10^6 rad *)
(** ** the pulse width *)
Lemma quot_up Dl e W d1 D : (1 / 1000 <= Dl <= 2000)%R -> (0 <= e <= 1)%R -> (0 <= W <= 32767)%R -> (e * W <= Dl / 4)%R ->
  (d1 <= Dl + e + ((Dl + e) / 16777216 + tiny))%R -> (Dl - (Dl / 16777216 + tiny) <= D)%R ->
  (r32 (r32 (d1 * W) / D) <= W + 27 / 100)%R.
Proof.
  intros HD He HW EW H1 H2. pose proof tiny_pos as T0. pose proof tiny_small as T1.
  assert (DW : (Dl * W <= Dl * 32767)%R) by (apply Rmult_le_compat_l; lra).
  assert (DW0 : (0 <= Dl * W)%R) by (apply Rmult_le_pos; lra).
  assert (TW : (tiny * W <= tiny * 32767)%R) by (apply Rmult_le_compat_l; lra).
  assert (P1 : (d1 * W <= Dl * (W + 2521 / 10000))%R).
  { apply Rle_trans with ((Dl + e + ((Dl + e) / 16777216 + tiny)) * W)%R; [apply Rmult_le_compat_r; lra|]. lra. }
  assert (P2 : (r32 (d1 * W) <= Dl * (W + 2541 / 10000))%R).
  { apply Rle_trans with (1 := r32_le _ _ P1). set (z := (Dl * (W + 2521 / 10000))%R) in *.
    assert (Z0 : (0 <= z)%R) by (unfold z; lra). destruct (r32_near z z) as [_ K]; [rewrite Rabs_pos_eq; lra|]. unfold z in *. lra. }
  assert (D0 : (0 < D)%R) by lra.
  assert (P3 : (r32 (d1 * W) / D <= W + 26 / 100)%R).
  { apply Rmult_le_reg_r with D; [lra|]. unfold Rdiv. rewrite Rmult_assoc, Rinv_l, Rmult_1_r by lra.
    apply Rle_trans with (1 := P2). apply Rle_trans with ((W + 26 / 100) * (Dl - (Dl / 16777216 + tiny)))%R; [|apply Rmult_le_compat_l; lra]. lra. }
  apply Rle_trans with (1 := r32_le _ _ P3). destruct (r32_near (W + 26 / 100) (W + 26 / 100)) as [_ K]; [rewrite Rabs_pos_eq; lra|]. lra.
Qed.
Lemma quot_low Dl e W d1 D : (1 / 1000 <= Dl <= 2000)%R -> (0 <= e <= 1)%R -> (0 <= W <= 32767)%R -> (e * W <= Dl / 4)%R ->
  (- (e + (e / 16777216 + tiny)) <= d1)%R -> (Dl - (Dl / 16777216 + tiny) <= D)%R ->
  (- (26 / 100) <= r32 (r32 (d1 * W) / D))%R.
Proof.
  intros HD He HW EW H1 H2. pose proof tiny_pos as T0. pose proof tiny_small as T1.
  assert (TW : (tiny * W <= tiny * 32767)%R) by (apply Rmult_le_compat_l; lra).
  assert (EW0 : (0 <= e * W)%R) by (apply Rmult_le_pos; lra).
  assert (P1 : (- (Dl * (2501 / 10000)) <= d1 * W)%R).
  { apply Rle_trans with (- (e + (e / 16777216 + tiny)) * W)%R; [|apply Rmult_le_compat_r; lra]. lra. }
  assert (P2 : (- (Dl * (2502 / 10000)) <= r32 (d1 * W))%R).
  { apply Rle_trans with (2 := r32_le _ _ P1). set (z := (- (Dl * (2501 / 10000)))%R) in *.
    destruct (r32_near z (- z)) as [K _]; [rewrite Rabs_left1; unfold z; lra|]. unfold z in *. lra. }
  assert (D0 : (0 < D)%R) by lra.
  assert (P3 : (- (2503 / 10000) <= r32 (d1 * W) / D)%R).
  { apply Rmult_le_reg_r with D; [lra|]. unfold Rdiv. rewrite (Rmult_assoc (r32 _)), Rinv_l, Rmult_1_r by lra.
    apply Rle_trans with (2 := P2). lra. }
  apply Rle_trans with (2 := r32_le _ _ P3). destruct (r32_near (- (2503 / 10000)) (2503 / 10000)) as [K _]; [rewrite Rabs_left1; lra|]. lra.
Qed.
Lemma quot_pos W d1 D : (0 <= W)%R -> (0 <= d1)%R -> (0 < D)%R -> (0 <= r32 (r32 (d1 * W) / D))%R.
Proof.
  intros. apply r32_pos. apply Rmult_le_pos; [|left; now apply Rinv_0_lt_compat]. apply r32_pos. now apply Rmult_le_pos.
Qed.

Section Pulse.
Context (L : libm).
Notation A := (IEEE L).

(** a calibrated servo: angle limits mn < mx within M <= 1000 rad, pulse widths of at most 32767 us, and not more than
    10^6/M microseconds per radian *)
Definition calibrated32 (s : servo A) (mn mx M : R) : Prop :=
  v32 (s_min s) mn /\ v32 (s_max s) mx /\ (1 / 1000 <= mx - mn)%R /\ (- M <= mn)%R /\ (mx <= M)%R /\ (M <= 1000)%R /\
  0 <= s_minF s <= 32767 /\ 0 <= s_maxF s <= 32767 /\
  (M * Rabs (IZR (s_maxF s - s_minF s)) <= 1000000 * (mx - mn))%R.
(** slack: the overshoot of a move by rounding *)
Definition slack (M : R) : R := (M / 4000000)%R.

(** the computed pulse, as a real number before truncation *)
Definition pulse_real (mn mx : R) (f g : Z) (x : R) : R :=
  r32 (r32 (r32 (r32 (x - mn) * IZR (g - f)) / r32 (mx - mn)) + IZR f).

Lemma pulse_range mn mx M f g x : (1 / 1000 <= mx - mn)%R -> (- M <= mn)%R -> (mx <= M)%R -> (M <= 1000)%R ->
  0 <= f <= 32767 -> 0 <= g <= 32767 -> (M * Rabs (IZR (g - f)) <= 1000000 * (mx - mn))%R ->
  (mn - slack M <= x <= mx + slack M)%R ->
  (IZR (Z.min f g) - 3 / 10 <= pulse_real mn mx f g x <= IZR (Z.max f g) + 3 / 10)%R /\
  ((mn <= x)%R -> f <= g -> (IZR f <= pulse_real mn mx f g x)%R) /\
  ((mn <= x)%R -> g <= f -> (pulse_real mn mx f g x <= IZR f)%R) /\
  (0 <= Rabs (r32 (r32 (r32 (x - mn) * IZR (g - f)) / r32 (mx - mn))) <= 40000)%R /\
  (Rabs (r32 (r32 (x - mn) * IZR (g - f)) / r32 (mx - mn)) <= 10 ^ 12)%R /\
  (Rabs (r32 (x - mn) * IZR (g - f)) <= 10 ^ 9)%R.
Proof.
  intros HD H1 H2 HM F G CAL X. unfold slack in X. pose proof tiny_pos as T0. pose proof tiny_small as T1.
  set (Dl := (mx - mn)%R) in *. set (e := (M / 4000000)%R) in *. set (W := Rabs (IZR (g - f))) in *.
  assert (M0 : (0 < M)%R) by (unfold Dl in HD; lra).
  assert (WB : (0 <= W <= 32767)%R).
  { unfold W. split; [apply Rabs_pos|]. rewrite <- abs_IZR. apply IZR_le. lia. }
  assert (EB : (0 <= e <= 1)%R) by (unfold e; lra).
  assert (EW : (e * W <= Dl / 4)%R) by (unfold e; lra).
  assert (DB : (1 / 1000 <= Dl <= 2000)%R) by (unfold Dl in *; lra).
  assert (XU : (x - mn <= Dl + e)%R) by (unfold Dl; lra). assert (XL : (- e <= x - mn)%R) by lra.
  set (d1 := r32 (x - mn)). set (D := r32 Dl).
  assert (D1U : (d1 <= Dl + e + ((Dl + e) / 16777216 + tiny))%R).
  { apply Rle_trans with (1 := r32_le _ _ XU). apply r32_near. rewrite Rabs_pos_eq; lra. }
  assert (D1L : (- (e + (e / 16777216 + tiny)) <= d1)%R).
  { apply Rle_trans with (2 := r32_le _ _ XL). destruct (r32_near (- e) e) as [K _]; [rewrite Rabs_left1; lra|]. lra. }
  assert (DD : (Dl - (Dl / 16777216 + tiny) <= D <= Dl + (Dl / 16777216 + tiny))%R) by (apply r32_near; rewrite Rabs_pos_eq; lra).
  set (q := r32 (r32 (d1 * W) / D)).
  assert (QU : (q <= W + 27 / 100)%R) by (apply (quot_up Dl e); auto; lra).
  assert (QL : (- (26 / 100) <= q)%R) by (apply (quot_low Dl e); auto; lra).
  assert (SG : (IZR (g - f) = W /\ f <= g) \/ (IZR (g - f) = (- W)%R /\ g <= f)).
  { destruct (Z_le_dec f g) as [K|K]; [left|right]; (split; [|lia]); unfold W.
    - rewrite Rabs_pos_eq; [reflexivity|]. apply IZR_le. lia.
    - rewrite Rabs_left1; [lra|]. apply (IZR_le _ 0). lia. }
  set (Q := r32 (r32 (d1 * IZR (g - f)) / D)).
  assert (QS : (IZR (g - f) = W /\ Q = q /\ f <= g) \/ (IZR (g - f) = (- W)%R /\ Q = (- q)%R /\ g <= f)).
  { destruct SG as [[E O]|[E O]]; [left|right]; (split; [exact E|]); (split; [|exact O]); unfold Q, q; rewrite E; [reflexivity|].
    replace (d1 * - W)%R with (- (d1 * W))%R by ring. rewrite r32_opp. unfold Rdiv. rewrite Ropp_mult_distr_l_reverse. apply r32_opp. }
  assert (QP : (mn <= x)%R -> (0 <= q)%R).
  { intros K. apply quot_pos; [lra| |lra]. apply r32_pos. lra. }
  assert (GW : (IZR g = IZR f + IZR (g - f))%R) by (rewrite <- plus_IZR; f_equal; lia).
  assert (F0 : (0 <= IZR f <= 32767)%R) by (split; apply IZR_le; lia).
  assert (G0 : (0 <= IZR g <= 32767)%R) by (split; apply IZR_le; lia).
  unfold pulse_real. fold Dl D d1 Q.
  assert (NE : forall y, (- 1 <= y <= 40000)%R -> (y - 25 / 10000 <= r32 y <= y + 25 / 10000)%R).
  { intros y Y. destruct (r32_near y 40000) as [K1 K2]; [apply Rabs_le; lra|]. lra. }
  split; [|split; [|split; [|split; [split|split]]]].
  - destruct QS as [(E & -> & O)|(E & -> & O)].
    + rewrite Z.min_l, Z.max_r by exact O. destruct (NE (q + IZR f)%R ltac:(lra)) as [K1 K2]. lra.
    + rewrite Z.min_r, Z.max_l by exact O. destruct (NE (- q + IZR f)%R ltac:(lra)) as [K1 K2]. lra.
  - intros K O. specialize (QP K). destruct QS as [(E & -> & _)|(E & -> & O')].
    + rewrite <- (r32_IZR f) at 1 by lia. apply r32_le. lra.
    + assert (f = g) by lia. subst g. replace (f - f) with 0 in E by lia. assert (W = 0%R) by lra.
      assert (q = 0%R) as ->; [|rewrite Ropp_0, Rplus_0_l, r32_IZR by lia; lra]. unfold q. rewrite H, Rmult_0_r, r32_0. unfold Rdiv. rewrite Rmult_0_l. apply r32_0.
  - intros K O. specialize (QP K). destruct QS as [(E & -> & O')|(E & -> & _)].
    + assert (f = g) by lia. subst g. replace (f - f) with 0 in E by lia. assert (W = 0%R) by lra.
      assert (q = 0%R) as ->; [|rewrite Rplus_0_l, r32_IZR by lia; lra]. unfold q. rewrite H, Rmult_0_r, r32_0. unfold Rdiv. rewrite Rmult_0_l. apply r32_0.
    + rewrite <- (r32_IZR f) at 2 by lia. apply r32_le. lra.
  - apply Rabs_pos.
  - destruct QS as [(_ & -> & _)|(_ & -> & _)]; [|rewrite Rabs_Ropp]; apply Rabs_le; lra.
  - assert (B : (Rabs (d1 * IZR (g - f)) <= 4000 * 32767)%R).
    { rewrite Rabs_mult. apply Rmult_le_compat; try apply Rabs_pos; [apply Rabs_le; lra|]. fold W. lra. }
    assert (B2 : (Rabs (r32 (d1 * IZR (g - f))) <= 140000000)%R).
    { apply Rabs_bounds in B. destruct (r32_near (d1 * IZR (g - f)) (4000 * 32767)) as [K1 K2]; [apply Rabs_le; lra|]. apply Rabs_le. lra. }
    unfold Rdiv. rewrite Rabs_mult. rewrite (Rabs_pos_eq (/ D)) by (left; apply Rinv_0_lt_compat; lra).
    assert (I : (/ D <= 2000)%R). { replace 2000%R with (/ (1 / 2000))%R by field. apply Rinv_le_contravar; lra. }
    apply Rle_trans with (140000000 * 2000)%R; [|lra]. apply Rmult_le_compat; auto; [apply Rabs_pos|left; apply Rinv_0_lt_compat; lra].
  - rewrite Rabs_mult. apply Rle_trans with (4000 * 32767)%R; [|lra]. apply Rmult_le_compat; try apply Rabs_pos; [apply Rabs_le; lra|]. fold W. lra.
Qed.

Lemma map_float_v32 mn mx M f g (smn smx sx : spec_float) x : v32 smn mn -> v32 smx mx -> v32 sx x ->
  (1 / 1000 <= mx - mn)%R -> (- M <= mn)%R -> (mx <= M)%R -> (M <= 1000)%R ->
  0 <= f <= 32767 -> 0 <= g <= 32767 -> (M * Rabs (IZR (g - f)) <= 1000000 * (mx - mn))%R ->
  (mn - slack M <= x <= mx + slack M)%R ->
  v32 (map_float A sx smn smx (fofz A f) (fofz A g)) (pulse_real mn mx f g x).
Proof.
  intros Vn Vx V HD H1 H2 HM F G CAL X.
  destruct (pulse_range mn mx M f g x HD H1 H2 HM F G CAL X) as (_ & _ & _ & B1 & B2 & B3).
  pose proof tiny_pos as T0. pose proof tiny_small as T1.
  unfold map_float, pulse_real. cbn [fadd fdiv fmul fsub fofz IEEE].
  assert (MB : (0 < M)%R) by lra. unfold slack in X.
  assert (VW : v32 (SFsub 24 128 (SpecFloat.binary_normalize 24 128 g 0 false) (SpecFloat.binary_normalize 24 128 f 0 false)) (IZR (g - f))).
  { rewrite <- (r32_IZR (g - f)) by lia. rewrite minus_IZR. apply v_sub; try (apply v_int; lia).
    rewrite <- minus_IZR, <- abs_IZR. apply (IZR_le _ 1000000000000000). lia. }
  assert (VD : v32 (SFsub 24 128 smx smn) (r32 (mx - mn))) by (apply v_sub; auto; apply Rabs_le; lra).
  assert (V1 : v32 (SFsub 24 128 sx smn) (r32 (x - mn))) by (apply v_sub; auto; apply Rabs_le; lra).
  assert (DP : (0 < r32 (mx - mn))%R).
  { destruct (r32_near (mx - mn) 2000) as [K _]; [apply Rabs_le; lra|].
    destruct (r32_near (mx - mn) (mx - mn)) as [K2 _]; [rewrite Rabs_pos_eq; lra|]. lra. }
  apply v_add; [|apply v_int; lia|].
  - apply v_div; auto; [|lra|lra]. apply v_mul; auto. lra.
  - assert (0 <= IZR f <= 32767)%R by (split; apply IZR_le; lia).
    apply Rle_trans with (40000 + 32767)%R; [|lra]. apply Rle_trans with (1 := Rabs_triang _ _). rewrite (Rabs_pos_eq (IZR f)) by lra. lra.
Qed.

(** the pulse exists; inside the limits it is inside the calibration interval, except for one microsecond at the end of
    a falling calibration *)
Lemma move_v32 (s : servo A) mn mx M x : calibrated32 s mn mx M -> v32 (s_cur s) x -> (mn - slack M <= x <= mx + slack M)%R ->
  exists p, servo_move A s = Ok p /\ p = rtrunc (pulse_real mn mx (s_minF s) (s_maxF s) x) /\
    Z.min (s_minF s) (s_maxF s) - 1 <= p <= Z.max (s_minF s) (s_maxF s) /\
    ((mn <= x)%R -> s_minF s <= s_maxF s -> s_minF s <= p) /\ ((mn <= x)%R -> s_maxF s <= s_minF s -> p <= s_minF s).
Proof.
  intros (Vn & Vx & HD & H1 & H2 & HM & F & G & CAL) V X.
  pose proof (map_float_v32 mn mx M (s_minF s) (s_maxF s) _ _ _ x Vn Vx V HD H1 H2 HM F G CAL X) as VP.
  destruct (pulse_range mn mx M (s_minF s) (s_maxF s) x HD H1 H2 HM F G CAL X) as ([B1 B2] & C1 & C2 & _).
  set (v := pulse_real mn mx (s_minF s) (s_maxF s) x) in *. set (lo := Z.min (s_minF s) (s_maxF s)) in *. set (hi := Z.max (s_minF s) (s_maxF s)) in *.
  assert (LO : 0 <= lo <= 32767) by lia. assert (HI : 0 <= hi <= 32767) by lia.
  assert (TB : 0 <= rtrunc v /\ lo - 1 <= rtrunc v <= hi).
  { destruct (Rle_dec 0 v) as [P|P].
    - destruct (rtrunc_pos v P) as [[K1 K2] K3]. split; [exact K3|]. split.
      + assert (IZR (lo - 1) < IZR (rtrunc v + 1))%R as K by (rewrite plus_IZR, minus_IZR; lra). apply lt_IZR in K. lia.
      + assert (IZR (rtrunc v) < IZR (hi + 1))%R as K by (rewrite plus_IZR; lra). apply lt_IZR in K. lia.
    - destruct (rtrunc_neg v) as [[K1 K2] K3]; [lra|].
      assert (0 <= IZR lo)%R by (apply IZR_le; lia).
      assert (IZR (-1) < IZR (rtrunc v))%R as K by (cbn; lra). apply lt_IZR in K.
      assert (IZR lo < IZR 1)%R as K' by lra. apply lt_IZR in K'. lia. }
  destruct TB as [T0 TB].
  exists (rtrunc v). unfold servo_move, to_int. cbn [ftoz IEEE]. rewrite (fv_trunc 24 128 _ v VP).
  replace ((-2147483648 <=? rtrunc v) && (rtrunc v <=? 2147483647)) with true by (symmetry; apply andb_true_iff; split; apply Z.leb_le; lia).
  cbn [bind]. rewrite u32_small by lia. splits; auto; try lia.
  - intros K O. specialize (C1 K O). pose proof (rtrunc_mono _ _ C1) as R. rewrite rtrunc_IZR in R. exact R.
Qed.
(** and it is monotone *)
Lemma pulse_mono mn mx f g x y : (0 < r32 (mx - mn))%R -> (x <= y)%R ->
  (f <= g -> (pulse_real mn mx f g x <= pulse_real mn mx f g y)%R) /\ (g <= f -> (pulse_real mn mx f g y <= pulse_real mn mx f g x)%R).
Proof.
  intros DP XY. assert (I : (0 < / r32 (mx - mn))%R) by now apply Rinv_0_lt_compat.
  assert (K : (r32 (x - mn) <= r32 (y - mn))%R) by (apply r32_le; lra).
  unfold pulse_real. split; intros O; apply r32_le, Rplus_le_compat_r, r32_le; unfold Rdiv; apply Rmult_le_compat_r; try lra; apply r32_le.
  - apply Rmult_le_compat_r; auto. apply IZR_le. lia.
  - assert (IZR (g - f) <= 0)%R by (apply (IZR_le _ 0); lia). 
    replace (r32 (y - mn) * IZR (g - f))%R with (- (r32 (y - mn) * - IZR (g - f)))%R by ring.
    replace (r32 (x - mn) * IZR (g - f))%R with (- (r32 (x - mn) * - IZR (g - f)))%R by ring.
    apply Ropp_le_contravar, Rmult_le_compat_r; lra.
Qed.

(** ** the motion *)
Lemma r64_le a b : (a <= b)%R -> (r64 a <= r64 b)%R.
Proof. exact (rnd_le 53 1024 a b). Qed.
Lemma r64_near x m : (Rabs x <= m)%R -> (x - (m / 16777216 + tiny) <= r64 x <= x + (m / 16777216 + tiny))%R.
Proof. intros H. pose proof (r64_error x) as E. apply Rabs_bounds in E. lra. Qed.
Lemma r64_pos a : (0 <= a)%R -> (0 <= r64 a)%R.
Proof. exact (rnd_pos 53 1024 a). Qed.

(** the way covered after T ms at speed v, as computed *)
Definition rdelta (v : R) (T : Z) : R := r32 (r64 (r64 (r32 (v * r32 (IZR T))) / 1000)).

Lemma rdelta_chain v T : (0 <= v <= 10000)%R -> 0 <= T < 4294967296 ->
  (0 <= r32 (IZR T) <= 4294968000)%R /\ (0 <= v * r32 (IZR T) <= 10000 * 4294968000)%R /\
  (0 <= r32 (v * r32 (IZR T)) <= 50000000000000)%R /\ (0 <= r64 (r32 (v * r32 (IZR T))) <= 60000000000000)%R /\
  (0 <= r64 (r64 (r32 (v * r32 (IZR T))) / 1000) <= 70000000000)%R /\ (0 <= rdelta v T)%R /\
  (v * IZR T / 1000 * (1 - 6 / 16777216) - 10000 * tiny <= rdelta v T <= v * IZR T / 1000 * (1 + 6 / 16777216) + 10000 * tiny)%R.
Proof.
  intros V HT. pose proof tiny_pos as T0. pose proof tiny_small as T1.
  assert (B0 : (0 <= IZR T <= 4294967296)%R) by (split; apply IZR_le; lia).
  destruct (r32_near (IZR T) (IZR T)) as [K1 K2]; [rewrite Rabs_pos_eq; lra|].
  pose proof (r32_pos (IZR T) ltac:(lra)) as P1. set (t1 := r32 (IZR T)) in *.
  assert (B1 : (0 <= t1 <= 4294968000)%R) by lra.
  assert (P2 : (0 <= v * t1)%R) by (apply Rmult_le_pos; lra).
  assert (U2 : (v * t1 <= 10000 * 4294968000)%R) by (apply Rmult_le_compat; lra).
  assert (VT : (0 <= v * IZR T)%R) by (apply Rmult_le_pos; lra).
  assert (A1 : (v * t1 <= v * IZR T * (1 + 1 / 16777216) + 10000 * tiny)%R).
  { apply Rle_trans with (v * (IZR T + (IZR T / 16777216 + tiny)))%R; [apply Rmult_le_compat_l; lra|].
    assert (v * tiny <= 10000 * tiny)%R by (apply Rmult_le_compat_r; lra). lra. }
  assert (A2 : (v * IZR T * (1 - 1 / 16777216) - 10000 * tiny <= v * t1)%R).
  { apply Rle_trans with (v * (IZR T - (IZR T / 16777216 + tiny)))%R; [|apply Rmult_le_compat_l; lra].
    assert (v * tiny <= 10000 * tiny)%R by (apply Rmult_le_compat_r; lra). lra. }
  destruct (r32_near (v * t1) (v * t1)) as [K3 K4]; [rewrite Rabs_pos_eq; lra|].
  pose proof (r32_pos _ P2) as P3. set (t2 := r32 (v * t1)) in *.
  destruct (r64_near t2 t2) as [K5 K6]; [rewrite Rabs_pos_eq; lra|].
  pose proof (r64_pos _ P3) as P4. set (t3 := r64 t2) in *.
  destruct (r64_near (t3 / 1000) (t3 / 1000)) as [K7 K8]; [rewrite Rabs_pos_eq; lra|].
  pose proof (r64_pos (t3 / 1000) ltac:(lra)) as P5. unfold rdelta. fold t1 t2 t3. set (t4 := r64 (t3 / 1000)) in *.
  destruct (r32_near t4 t4) as [K9 K10]; [rewrite Rabs_pos_eq; lra|].
  pose proof (r32_pos _ P5) as P6. set (t5 := r32 t4) in *.
  split; [lra|]. split; [lra|]. split; [lra|]. split; [lra|]. split; [lra|]. split; [lra|].
  set (w := (v * IZR T)%R) in *. lra.
Qed.
Lemma rdelta_mono v T T' : (0 <= v)%R -> T <= T' -> (rdelta v T <= rdelta v T')%R.
Proof.
  intros V H. unfold rdelta. apply r32_le, r64_le. unfold Rdiv. apply Rmult_le_compat_r; [lra|]. apply r64_le, r32_le.
  apply Rmult_le_compat_l; auto. apply r32_le, IZR_le. exact H.
Qed.

Lemma thousand64 : v64 (sf_dec 53 1024 false 1000 0) 1000.
Proof.
  change (sf_dec 53 1024 false 1000 0) with (SpecFloat.binary_normalize 53 1024 1000 0 false).
  pose proof (fv_normalize 53 1024 1000 0 false) as N. cbn [bpow] in N. rewrite Rmult_1_r in N.
  rewrite (rnd_IZR 53 1024) in N by (cbn; lia). apply N. unfold bpow.
  rewrite Rabs_pos_eq by lra. apply IZR_lt. vm_compute. reflexivity.
Qed.

Lemma delta_v32 (s : servo A) v T : v32 (s_vel s) v -> s_elapsed s = T -> (0 <= v <= 10000)%R -> 0 <= T < 4294967296 ->
  v32 (servo_delta A s) (rdelta v T).
Proof.
  intros Vv E V HT. destruct (rdelta_chain v T V HT) as (B1 & B2 & B3 & B4 & B5 & _).
  unfold servo_delta, rdelta. rewrite E. cbn [d2f ddiv f2d fmul fofz ddec IEEE].
  apply (fv_conv 53 1024 24 128).
  - apply (fv_div 53 1024); [|apply thousand64|lra|].
    + apply (fv_conv 24 128 53 1024); [|apply r64_bound; rewrite Rabs_pos_eq; lra].
      apply v_mul; auto; [|rewrite Rabs_pos_eq; lra]. apply v_ofz. lia.
    + apply r64_bound. rewrite Rabs_pos_eq by lra. lra.
  - apply r32_bound. rewrite Rabs_pos_eq by lra. lra.
Qed.

(** one position update, as real numbers *)
Definition rstep (a t dl : R) : R :=
  if rltb (Rabs (r32 (t - a))) (Rabs dl) then t else if rltb a t then r32 (a + dl) else r32 (a - dl).
Lemma advance_v32 (s : servo A) a t v dt : v32 (s_start s) a -> v32 (s_target s) t -> v32 (s_vel s) v ->
  (-2000 <= a <= 2000)%R -> (-2000 <= t <= 2000)%R -> (0 <= v <= 10000)%R ->
  let T := u32 (s_elapsed s + dt) in let s' := servo_advance A s dt in let dl := rdelta v T in
  0 <= T < 4294967296 /\ s_elapsed s' = T /\ s_vel s' = s_vel s /\ s_target s' = s_target s /\
  v32 (s_cur s') (rstep a t dl) /\
  ((Rabs (r32 (t - a)) < dl)%R -> s_cur s' = s_target s /\ s_start s' = s_target s) /\
  (~ (Rabs (r32 (t - a)) < dl)%R -> s_start s' = s_start s).
Proof.
  intros Va Vt Vv Ba Bt Bv T s' dl. assert (HT : 0 <= T < 4294967296) by apply u32_range.
  destruct (rdelta_chain v T Bv HT) as (_ & _ & _ & _ & _ & P & _). fold dl in P.
  set (s1 := with_elapsed A s (u32 (s_elapsed s + dt))).
  assert (VD : v32 (servo_delta A s1) dl) by (apply delta_v32; auto).
  assert (VS : v32 (SFabs (SFsub 24 128 (s_target s) (s_start s))) (Rabs (r32 (t - a)))).
  { apply fv_abs. apply v_sub; auto. apply Rabs_le. lra. }
  unfold s', servo_advance. fold s1. cbn [flt fabsf fsub fadd IEEE].
  replace (s_target s1) with (s_target s) by reflexivity. replace (s_start s1) with (s_start s) by reflexivity.
  rewrite (fv_lt 24 128 _ _ _ _ VS (fv_abs 24 128 _ _ VD)). rewrite (fv_lt 24 128 _ _ _ _ Va Vt). unfold rstep.
  split; [exact HT|].
  assert (AB : Rabs dl = dl) by (apply Rabs_pos_eq; exact P). rewrite AB.
  unfold rltb. destruct (Rlt_dec (Rabs (r32 (t - a))) dl) as [Q|Q].
  - split; [reflexivity|]. split; [reflexivity|]. split; [reflexivity|]. split; [exact Vt|]. split; [intros _; split; reflexivity|tauto].
  - assert (DB : (dl <= 5000)%R).
    { apply Rnot_lt_le in Q. apply Rle_trans with (1 := Q). pose proof tiny_small. pose proof tiny_pos. destruct (r32_near (t - a) 4000); [apply Rabs_le; lra|]. apply Rabs_le. lra. }
    destruct (Rlt_dec a t) as [H|H]; (split; [reflexivity|]; split; [reflexivity|]; split; [reflexivity|]; split; [|split; [tauto|intros _; reflexivity]]); cbn [s_cur with_cur].
    + apply v_add; auto. apply Rabs_le. lra.
    + apply v_sub; auto. apply Rabs_le. lra.
Qed.

(** where a step ends: between start and target, up to the rounding *)
Lemma rstep_up a t dl M : (0 <= dl)%R -> (1 / 2000 <= M <= 1000)%R -> r32 a = a -> r32 t = t ->
  (- M <= t <= M)%R -> (- (M + slack M) <= a <= M + slack M)%R -> (a <= t)%R ->
  (a <= rstep a t dl <= t + slack M)%R /\ (rstep a t dl <= r32 (a + dl) \/ (r32 (t - a) < dl /\ rstep a t dl = t))%R.
Proof.
  intros D M0 Ea Et Bt Ba H. unfold slack in *. unfold rstep. rewrite (Rabs_pos_eq dl D).
  pose proof tiny_small as T1. pose proof tiny_pos as T0.
  rewrite (Rabs_pos_eq (r32 (t - a))) by (apply r32_pos; lra).
  unfold rltb. destruct (Rlt_dec (r32 (t - a)) dl) as [Q|Q]; [split; [lra|right; split; [exact Q|reflexivity]]|]. apply Rnot_lt_le in Q.
  destruct (r32_near (t - a) (2 * M + M / 4000000)) as [K1 K2]; [apply Rabs_le; lra|].
  destruct (Rlt_dec a t) as [HH|HH].
  - split; [|left; lra]. split; [rewrite <- Ea at 1; apply r32_le; lra|].
    apply Rle_trans with (r32 (a + r32 (t - a))); [apply r32_le; lra|].
    apply Rle_trans with (r32 (t + (M * (2 + 1 / 4000000) / 16777216 + tiny))); [apply r32_le; lra|].
    destruct (r32_near (t + (M * (2 + 1 / 4000000) / 16777216 + tiny)) (M + (M * (2 + 1 / 4000000) / 16777216 + tiny))) as [_ K]; [apply Rabs_le; lra|]. lra.
  - assert (a = t) by lra. subst t. replace (a - a)%R with 0%R in Q by ring. rewrite r32_0 in Q. assert (dl = 0%R) by lra. subst dl.
    rewrite Rminus_0_r, Rplus_0_r. split; [lra|left; lra].
Qed.
Lemma rstep_opp a t dl : a <> t -> rstep (- a) (- t) dl = (- rstep a t dl)%R.
Proof.
  intros N. unfold rstep. replace (- t - - a)%R with (- (t - a))%R by ring. rewrite r32_opp, Rabs_Ropp.
  unfold rltb. destruct (Rlt_dec (Rabs (r32 (t - a))) (Rabs dl)); [reflexivity|].
  destruct (Rlt_dec (- a) (- t)), (Rlt_dec a t); try lra.
  - rewrite <- r32_opp. f_equal. ring.
  - rewrite <- r32_opp. f_equal. ring.
Qed.
Lemma rstep_down a t dl M : (0 <= dl)%R -> (1 / 2000 <= M <= 1000)%R -> r32 a = a -> r32 t = t ->
  (- M <= t <= M)%R -> (- (M + slack M) <= a <= M + slack M)%R -> (t <= a)%R ->
  (t - slack M <= rstep a t dl <= a)%R /\ (r32 (a - dl) <= rstep a t dl \/ (r32 (a - t) < dl /\ rstep a t dl = t))%R.
Proof.
  intros D M0 Ea Et Bt Ba H. destruct (Req_dec a t) as [E|E].
  - subst t. destruct (rstep_up a a dl M D M0 Ea Ea Bt Ba (Rle_refl a)) as [B C].
    replace (r32 (a - a)) with 0%R in * by (replace (a - a)%R with 0%R by ring; now rewrite r32_0).
    assert (RS : rstep a a dl = a).
    { unfold rstep. replace (a - a)%R with 0%R by ring. rewrite r32_0, Rabs_R0, (Rabs_pos_eq dl D). unfold rltb.
      destruct (Rlt_dec 0 dl); [reflexivity|]. destruct (Rlt_dec a a); [lra|]. replace dl with 0%R by lra. rewrite Rminus_0_r. exact Ea. }
    rewrite RS. unfold slack. split; [lra|left]. rewrite <- Ea at 2. apply r32_le. lra.
  - destruct (rstep_up (- a) (- t) dl M D M0) as [B C]; try (rewrite r32_opp; congruence); try lra.
    rewrite (rstep_opp a t dl E) in *. replace (- a + dl)%R with (- (a - dl))%R in C by ring. replace (- t - - a)%R with (a - t)%R in C by ring.
    rewrite r32_opp in C. split; [lra|]. destruct C as [C|[C1 C2]]; [left; lra|right; split; lra].
Qed.
End Pulse.

(** literals *)
Lemma SF2R_neg s m e : SF2R radix2 (S754_finite s m (Zneg e)) = ((if s then -1 else 1) * IZR (Zpos m) / IZR (2 ^ Zpos e))%R.
Proof.
  unfold SF2R, F2R. cbn [Fnum Fexp]. change (Z.neg e) with (- Z.pos e). rewrite bpow_opp, <- IZR_Zpower by lia. change (Zpower radix2 (Z.pos e)) with (2 ^ Zpos e).
  unfold Rdiv. destruct s; cbn [SpecFloat.cond_Zopp cond_Zopp]; [|ring]. rewrite opp_IZR. ring.
Qed.
Ltac lit := match goal with |- v32 ?x _ => let y := eval vm_compute in x in change x with y; apply fv_valid; reflexivity end.
Ltac lits := repeat match goal with |- context [SF2R radix2 ?x] => let y := eval vm_compute in x in progress change x with y end;
  change (SF2R radix2 (S754_zero false)) with 0%R; rewrite ?SF2R_neg; repeat match goal with |- context [2 ^ Zpos ?e] => let y := eval vm_compute in (2 ^ Zpos e) in change (2 ^ Zpos e) with y end; cbv iota.
