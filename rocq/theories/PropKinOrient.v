(** * C43 in the arithmetic of the device: the reported orientation.

    Away from the gimbal lock of the angles (the tool's z axis along the x axis of the world) the three
    reported angles describe the orientation of the flange up to a stated error. *)
From Coq Require Import Reals Lra ZArith Lia Floats.SpecFloat.
From Flocq Require Import Core BinarySingleNaN.
From Verif Require Import Base Arith FloatBridge ServoFloat RobotModel KinModel KinSpec KinProofs PropKin KinFloat ConfigModel PropArm PropKinFloat.
Open Scope Z_scope.

(** ** the reported orientation *)
(** asin and atan2 accurate to 2^-22 and 2^-21 (atan2 up to a whole turn: atan2(-0, -1) is -pi) *)
Definition accurate_angles (L : libm) : Prop :=
  (forall (x : spec_float) (v : R), v32 x v -> (-1 <= v <= 1)%R ->
    exists w : R, v32 (m_fasin L x) w /\ (Rabs (w - asin v) <= / 4194304)%R) /\
  (forall (y x : spec_float) (v u : R), v32 y v -> v32 x u -> (u <> 0 \/ v <> 0)%R ->
    exists (w : R) (k : Z), v32 (m_fatan2 L y x) w /\ (Rabs (w - (ratan2 v u + 2 * IZR k * PI)) <= / 2097152)%R).

Lemma sin_close a b e : (Rabs (a - b) <= e)%R -> (Rabs (sin a - sin b) <= e)%R.
Proof.
  intros H. rewrite form4. pose proof (sin_abs_le ((a - b) / 2)) as S. pose proof (COS_bound ((a + b) / 2)) as C.
  rewrite !Rabs_mult. rewrite (Rabs_pos_eq 2) by lra.
  assert (Rabs (cos ((a + b) / 2)) <= 1)%R by (apply Rabs_le_of; lra).
  assert (E : (Rabs ((a - b) / 2) = Rabs (a - b) / 2)%R) by (unfold Rdiv; rewrite Rabs_mult, (Rabs_pos_eq (/ 2)) by lra; reflexivity).
  rewrite E in S. pose proof (Rabs_pos (sin ((a - b) / 2))). pose proof (Rabs_pos (cos ((a + b) / 2))). nra.
Qed.
Lemma cos_close a b e : (Rabs (a - b) <= e)%R -> (Rabs (cos a - cos b) <= e)%R.
Proof.
  intros H. rewrite <- !sin_shift. apply sin_close. replace (PI / 2 - a - (PI / 2 - b))%R with (- (a - b))%R by ring. now rewrite Rabs_Ropp.
Qed.
Lemma turn_sin x k : sin (x + 2 * IZR k * PI) = sin x.
Proof.
  destruct (Z_le_gt_dec 0 k) as [H|H].
  - rewrite <- (Z2Nat.id k H). rewrite <- INR_IZR_INZ. apply sin_period.
  - set (m := Z.to_nat (- k)). assert (E : IZR k = (- INR m)%R).
    { unfold m. rewrite INR_IZR_INZ, Z2Nat.id by lia. rewrite opp_IZR. ring. }
    rewrite <- (sin_period (x + 2 * IZR k * PI) m). f_equal. rewrite E. ring.
Qed.
Lemma turn_cos x k : cos (x + 2 * IZR k * PI) = cos x.
Proof. rewrite <- !sin_shift. replace (PI / 2 - (x + 2 * IZR k * PI))%R with (PI / 2 - x + 2 * IZR (- k) * PI)%R by (rewrite opp_IZR; ring). apply turn_sin. Qed.

(** the direction of a vector that is known up to d *)
Lemma direction_near (c t x y : R) : (14 / 100 <= c <= 1)%R -> (Rabs (x - c * cos t) <= 1 / 30000)%R -> (Rabs (y - c * sin t) <= 1 / 30000)%R ->
  (x <> 0 \/ y <> 0)%R /\ (Rabs (cos (ratan2 y x) - cos t) <= 1 / 1350)%R /\ (Rabs (sin (ratan2 y x) - sin t) <= 1 / 1350)%R.
Proof.
  intros C X Y. pose proof (cs1 t) as CS. pose proof (COS_bound t) as CB. pose proof (SIN_bound t) as SB.
  set (h := sqrt (x * x + y * y)).
  assert (H1 : (h <= c + 2 * (1 / 30000))%R /\ (c <= h + 2 * (1 / 30000))%R).
  { pose proof (norm_le (mk3 x y 0%R) (mk3 (c * cos t) (c * sin t) 0)%R (1 / 30000)) as N1.
    pose proof (norm_le (mk3 (c * cos t) (c * sin t) 0)%R (mk3 x y 0%R) (1 / 30000)) as N2.
    unfold norm3R, dot3 in N1, N2. cbn [vx vy vz] in N1, N2.
    replace (x * x + y * y + 0 * 0)%R with (x * x + y * y)%R in N1, N2 by ring.
    replace (c * cos t * (c * cos t) + c * sin t * (c * sin t) + 0 * 0)%R with (c * c)%R in N1, N2 by (transitivity (c * c * (cos t * cos t + sin t * sin t))%R; [rewrite CS|]; ring).
    rewrite sqrt_square in N1, N2 by lra. fold h in N1, N2.
    rewrite (Rabs_minus_sym (c * cos t)), (Rabs_minus_sym (c * sin t)) in N2.
    assert (Z0 : (Rabs (0 - 0) <= 1 / 30000)%R) by (rewrite Rminus_0_r, Rabs_R0; lra). split; auto. }
  assert (HP : (139 / 1000 <= h)%R) by lra.
  assert (NZ : (x <> 0 \/ y <> 0)%R).
  { destruct (Req_dec x 0) as [->|]; [|auto]. destruct (Req_dec y 0) as [->|]; [|auto]. exfalso. unfold h in HP.
    replace (0 * 0 + 0 * 0)%R with 0%R in HP by ring. rewrite sqrt_0 in HP. lra. }
  split; [exact NZ|]. destruct (ratan2_cs y x NZ) as (Ec & Es).
  assert (AUX : forall z u, (-1 <= u <= 1)%R -> (Rabs (z - c * u) <= 1 / 30000)%R -> (Rabs (z / h - u) <= 1 / 1350)%R).
  { intros z u Hu Hz. replace (z / h - u)%R with ((z - h * u) / h)%R by (field; lra).
    assert (Rabs (z - h * u) <= 3 / 30000)%R.
    { replace (z - h * u)%R with ((z - c * u) + (c - h) * u)%R by ring. eapply Rle_trans; [apply Rabs_triang|]. rewrite Rabs_mult.
      assert (Rabs (c - h) <= 2 / 30000)%R by (apply Rabs_le_of; lra). assert (Rabs u <= 1)%R by (apply Rabs_le_of; lra).
      pose proof (Rabs_pos (c - h)). pose proof (Rabs_pos u). nra. }
    unfold Rdiv at 1. rewrite Rabs_mult. rewrite (Rabs_pos_eq (/ h)) by (left; apply Rinv_0_lt_compat; lra).
    apply (Rmult_le_reg_r h); [lra|]. rewrite Rmult_assoc, Rinv_l, Rmult_1_r by lra. lra. }
  rewrite Ec, Es. fold h. split; apply AUX; auto; lra.
Qed.
Lemma sine_near (t v : R) : (0 <= cos t)%R -> (Rabs (sin t) <= 99 / 100)%R -> (Rabs (v - sin t) <= 1 / 30000)%R ->
  (14 / 100 <= cos t <= 1)%R /\ (-1 < v < 1)%R /\ (Rabs (cos (asin v) - cos t) <= 1 / 1350)%R /\ (Rabs (sin (asin v) - sin t) <= 1 / 1350)%R.
Proof.
  intros C S V. pose proof (cs1 t) as CS. pose proof (COS_bound t) as CB. apply Rabs_bounds in S, V.
  assert (C14 : (14 / 100 <= cos t)%R) by nra.
  assert (V1 : (-1 < v < 1)%R) by lra. split; [lra|]. split; [exact V1|].
  rewrite sin_asin by lra. rewrite cos_asin by lra. split; [|apply Rabs_le_of; lra].
  set (h := sqrt (1 - Rsqr v)). assert (H0 : (0 <= h)%R) by apply sqrt_pos.
  assert (H2 : (h * h = 1 - v * v)%R) by (unfold h; rewrite sqrt_sqrt; [reflexivity|unfold Rsqr; nra]).
  assert (E : ((h - cos t) * (h + cos t) = (sin t - v) * (sin t + v))%R) by lra.
  set (q := (sin t - v)%R) in *. set (w := (sin t + v)%R) in *.
  assert (Q : (-1 / 30000 <= q <= 1 / 30000)%R) by (unfold q; lra). assert (W : (-2 <= w <= 2)%R) by (unfold w; lra).
  assert (P : (- 2 / 30000 <= q * w <= 2 / 30000)%R) by nra. clearbody q w h.
  apply Rabs_le_of. split.
  - destruct (Rle_dec (- (1 / 1350)) (h - cos t)) as [|N]; [assumption|]. exfalso. nra.
  - destruct (Rle_dec (h - cos t) (1 / 1350)) as [|N]; [assumption|]. exfalso. nra.
Qed.

(** two triples of angles with nearly the same sines and cosines describe nearly the same orientation *)
Definition alike (e x y : R) : Prop := (Rabs (cos x - cos y) <= e)%R /\ (Rabs (sin x - sin y) <= e)%R.
Lemma mul_near p q u v e f : (Rabs (p - u) <= e)%R -> (Rabs (q - v) <= f)%R -> (Rabs p <= 1)%R -> (Rabs v <= 1)%R -> (Rabs (p * q - u * v) <= e + f)%R.
Proof.
  intros E G P V. replace (p * q - u * v)%R with ((p - u) * v + p * (q - v))%R by ring.
  eapply Rle_trans; [apply Rabs_triang|]. rewrite !Rabs_mult.
  pose proof (Rabs_pos (p - u)). pose proof (Rabs_pos (q - v)). pose proof (Rabs_pos p). pose proof (Rabs_pos v).
  apply Rplus_le_compat; nra.
Qed.
Lemma abs_cos x : (Rabs (cos x) <= 1)%R.
Proof. pose proof (COS_bound x). apply Rabs_le_of. lra. Qed.
Lemma abs_sin x : (Rabs (sin x) <= 1)%R.
Proof. pose proof (SIN_bound x). apply Rabs_le_of. lra. Qed.
Lemma abs_mul x y : (Rabs x <= 1)%R -> (Rabs y <= 1)%R -> (Rabs (x * y) <= 1)%R.
Proof. intros. rewrite Rabs_mult. pose proof (Rabs_pos x). pose proof (Rabs_pos y). nra. Qed.
Definition close3 (d : R) (u w : vecR) : Prop := (Rabs (vx u - vx w) <= d)%R /\ (Rabs (vy u - vy w) <= d)%R /\ (Rabs (vz u - vz w) <= d)%R.
Lemma orientation_cols a b c :
  orientation a b c ex = (mk3 (cos b * cos c) (cos a * sin c + sin a * sin b * cos c) (sin a * sin c - cos a * sin b * cos c))%R /\
  orientation a b c ey = (mk3 (- (cos b * sin c)) (cos a * cos c - sin a * sin b * sin c) (sin a * cos c + cos a * sin b * sin c))%R /\
  orientation a b c ez = (mk3 (sin b) (- (sin a * cos b)) (cos a * cos b))%R.
Proof. unfold orientation, rotx, roty, rotz, ex, ey, ez. cbn [vx vy vz]. split; [|split]; apply KinEuler.f_equal3_mk3; ring. Qed.
Lemma add_near p q u v e f : (Rabs (p - u) <= e)%R -> (Rabs (q - v) <= f)%R -> (Rabs (p + q - (u + v)) <= e + f)%R.
Proof. intros E G. replace (p + q - (u + v))%R with ((p - u) + (q - v))%R by ring. eapply Rle_trans; [apply Rabs_triang|]. lra. Qed.
Lemma sub_near p q u v e f : (Rabs (p - u) <= e)%R -> (Rabs (q - v) <= f)%R -> (Rabs (p - q - (u - v)) <= e + f)%R.
Proof. intros E G. replace (p - q - (u - v))%R with ((p - u) + - (q - v))%R by ring. eapply Rle_trans; [apply Rabs_triang|]. rewrite Rabs_Ropp. lra. Qed.
Lemma opp_near p u e : (Rabs (p - u) <= e)%R -> (Rabs (- p - - u) <= e)%R.
Proof. intros E. replace (- p - - u)%R with (- (p - u))%R by ring. now rewrite Rabs_Ropp. Qed.
Ltac near := repeat first [eassumption | apply abs_mul | eapply add_near | eapply sub_near | eapply opp_near | eapply mul_near].
Lemma orientation_near e a b c a' b' c' : alike e a' a -> alike e b' b -> alike e c' c ->
  forall u, u = ex \/ u = ey \/ u = ez -> close3 (5 * e) (orientation a' b' c' u) (orientation a b c u).
Proof.
  intros (A1 & A2) (B1 & B2) (C1 & C2) u U.
  pose proof (abs_cos a). pose proof (abs_cos b). pose proof (abs_cos c). pose proof (abs_sin a). pose proof (abs_sin b). pose proof (abs_sin c).
  pose proof (abs_cos a'). pose proof (abs_cos b'). pose proof (abs_cos c'). pose proof (abs_sin a'). pose proof (abs_sin b'). pose proof (abs_sin c').
  assert (E0 : (0 <= e)%R) by (pose proof (Rabs_pos (cos a' - cos a)); lra).
  destruct (orientation_cols a b c) as (X & Y & Z). destruct (orientation_cols a' b' c') as (X' & Y' & Z').
  unfold close3. destruct U as [-> | [-> | ->]]; [rewrite X, X'|rewrite Y, Y'|rewrite Z, Z']; cbn [vx vy vz]; clear X Y Z X' Y' Z';
    split; [|split| |split| |split]; (eapply Rle_trans; [near|lra]).
Qed.

Section Orient.
Context (L : libm).
Notation A := (IEEE L).

(** the reported angles are finite, and the orientation they describe is that of the flange up to 1/250 per
    component, whenever the tool's z axis is not within 8 degrees of the world's x axis *)
Theorem C43_ieee_orientation : forall (g : geom (F A)) (j : V6 (F A)) (a : V6 R),
  accurate L -> accurate_angles L -> reads j a -> (Rabs (vx (flange a ez)) <= 99 / 100)%R ->
  let p := kin_forward A (kin_new A g) j in
  exists x y z : R, v32 (v3 p) x /\ v32 (v4 p) y /\ v32 (v5 p) z /\
    forall u, u = ex \/ u = ey \/ u = ez -> close3 (1 / 250) (orientation x y z u) (flange a u).
Proof.
  intros g j a HL (HS & HT) Rj Hz. cbv zeta.
  pose proof (C43_ieee_matrix L g j a HL Rj) as HM. cbv zeta in HM.
  set (C := calculate_coordinates A (kin_new A g) j) in *.
  set (q := kin_forward RA (kin_new RA kit_geometry) a).
  assert (O : forall v, flange a v = orientation (v3 q) (v4 q) (v5 q) v) by (intros v; symmetry; apply (C43_reported_orientation kit_geometry a v)).
  pose proof (C43_angle_ranges kit_geometry a) as AR. cbv zeta in AR. fold q in AR. destruct AR as (_ & AR & _).
  set (X := v3 q) in *. set (Y := v4 q) in *. set (Z := v5 q) in *. clearbody X Y Z. clear q.
  destruct (orientation_cols X Y Z) as (OX & OY & OZ).
  rewrite (O ez), OZ in Hz. cbn [vx] in Hz.
  rewrite (O ex), (O ey), (O ez), OX, OY, OZ in HM. cbn [vx vy vz] in HM.
  destruct HM as ((M00 & M01 & M02) & (_ & _ & M12) & (_ & _ & M22)). cbn [vx vy vz] in M00, M01, M02, M12, M22.
  destruct M00 as (m00 & V00 & E00). destruct M01 as (m01 & V01 & E01). destruct M02 as (m02 & V02 & E02).
  destruct M12 as (m12 & V12 & E12). destruct M22 as (m22 & V22 & E22).
  assert (CY : (0 <= cos Y)%R) by (apply cos_ge_0; lra).
  destruct (sine_near Y m02 CY Hz E02) as (CY1 & V1 & DC & DS).
  destruct (direction_near (cos Y) Z m00 (- m01)) as (NZ & ZC & ZS); auto.
  { replace (- m01 - cos Y * sin Z)%R with (- (m01 - - (cos Y * sin Z)))%R by ring. now rewrite Rabs_Ropp. }
  destruct (direction_near (cos Y) X m22 (- m12)) as (NX & XC & XS); auto.
  { now rewrite (Rmult_comm (cos Y)). }
  { replace (- m12 - cos Y * sin X)%R with (- (m12 - - (sin X * cos Y)))%R by ring. now rewrite Rabs_Ropp. }
  destruct (HS (vz (c_m0 _ C)) m02 V02 ltac:(lra)) as (y & Vy & Ey).
  destruct (HT (SFopp (vy (c_m0 _ C))) (vx (c_m0 _ C)) (- m01)%R m00 (fv_opp _ _ _ _ V01) V00 NZ) as (z & kz & Vz & Ez).
  destruct (HT (SFopp (vz (c_m1 _ C))) (vz (c_m2 _ C)) (- m12)%R m22 (fv_opp _ _ _ _ V12) V22 NX) as (x & kx & Vx & Ex).
  assert (CA : c_ang _ C = mk3 (m_fatan2 L (SFopp (vz (c_m1 _ C))) (vz (c_m2 _ C))) (m_fasin L (vz (c_m0 _ C))) (m_fatan2 L (SFopp (vy (c_m0 _ C))) (vx (c_m0 _ C)))).
  { change (c_ang A C) with (euler_angles A (c_m0 _ C) (c_m1 _ C) (c_m2 _ C)). unfold euler_angles.
    assert (T1 : flt A (vz (c_m0 _ C)) (fnum A 1) = true).
    { refine (eq_trans (fv_lt 24 128 _ (fnum A 1) _ _ V02 (v_int 1 _)) _); [lia|]. apply rltb_true. lra. }
    assert (T2 : flt A (fnum A (-1)) (vz (c_m0 _ C)) = true).
    { refine (eq_trans (fv_lt 24 128 (fnum A (-1)) _ _ _ (v_int (-1) _) V02) _); [lia|]. apply rltb_true. lra. }
    rewrite T1, T2. reflexivity. }
  unfold kin_forward. fold C. cbn [v3 v4 v5]. rewrite CA. cbn [vx vy vz].
  exists x, y, z. split; [exact Vx|]. split; [exact Vy|]. split; [exact Vz|].
  intros u U. rewrite (O u).
  assert (P1 : alike (1 / 1250) x X).
  { split. - pose proof (cos_close _ _ _ Ex) as K. rewrite turn_cos in K. apply Rabs_bounds in K, XC. apply Rabs_le_of. lra.
    - pose proof (sin_close _ _ _ Ex) as K. rewrite turn_sin in K. apply Rabs_bounds in K, XS. apply Rabs_le_of. lra. }
  assert (P3 : alike (1 / 1250) z Z).
  { split. - pose proof (cos_close _ _ _ Ez) as K. rewrite turn_cos in K. apply Rabs_bounds in K, ZC. apply Rabs_le_of. lra.
    - pose proof (sin_close _ _ _ Ez) as K. rewrite turn_sin in K. apply Rabs_bounds in K, ZS. apply Rabs_le_of. lra. }
  assert (P2 : alike (1 / 1250) y Y).
  { split. - pose proof (cos_close _ _ _ Ey) as K. apply Rabs_bounds in K, DC. apply Rabs_le_of. lra.
    - pose proof (sin_close _ _ _ Ey) as K. apply Rabs_bounds in K, DS. apply Rabs_le_of. lra. }
  replace (1 / 250)%R with (5 * (1 / 1250))%R by field. now apply orientation_near.
Qed.
End Orient.

(** *** a library with the required accuracy, and a case *)
Example C43_accurate_exists : accurate_angles good_libm.
Proof.
  split.
  - intros x v (b & <- & Fb & <-) H. cbn [m_fasin good_libm]. rewrite SF2R_B2SF.
    pose proof (asin_bound (B2R b)) as B. pose proof PI_4.
    destruct (near_float_err 2 (asin (B2R b))) as (w & W & E); [lra|lra|]. exists w. split; [exact W|]. lra.
  - intros y x v u (b & <- & Fb & <-) (c & <- & Fc & <-) H. cbn [m_fatan2 good_libm]. rewrite !SF2R_B2SF.
    pose proof (ratan2_range (B2R b) (B2R c)) as B. pose proof PI_4.
    destruct (near_float_err 4 (ratan2 (B2R b) (B2R c))) as (w & W & E); [lra|lra|]. exists w, 0. split; [exact W|].
    rewrite Rmult_0_r, Rmult_0_l, Rplus_0_r. lra.
Qed.
(** all joints at zero: the flange looks down, far from the gimbal lock *)
Example C43_ieee_case : let A := IEEE good_libm in let z := fofz A 0 in
  accurate good_libm /\ accurate_angles good_libm /\ reads (mk6 z z z z z z) (mk6 0 0 0 0 0 0)%R /\
  (Rabs (vx (flange (mk6 0 0 0 0 0 0) ez)) <= 99 / 100)%R.
Proof.
  cbv zeta. split; [exact C41_accurate_exists|]. split; [exact C43_accurate_exists|]. split.
  - unfold reads. cbn [v0 v1 v2 v3 v4 v5]. repeat (split; [apply (v_int 0); lia|]). apply (v_int 0). lia.
  - unfold flange, link4, link3, link2, link1, link0, rotx, roty, rotz, ez. cbn [vx vy vz v0 v1 v2 v3 v4 v5].
    rewrite !cos_0, !sin_0, sin_PI, cos_PI. apply Rabs_le_of. lra.
Qed.
