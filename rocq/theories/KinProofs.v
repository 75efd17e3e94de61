From Verif Require Import Base Arith RobotModel KinModel KinSpec.
From Coq Require Import Reals Lra.
Open Scope R_scope.

Lemma cs1 t : cos t * cos t + sin t * sin t = 1.
Proof. pose proof (sin2_cos2 t). unfold Rsqr in *. lra. Qed.

Ltac v3 := unfold add3, sub3, scale3, dot3, rotx, roty, rotz, ex, ey, ez, zero3 in *; cbn [vx vy vz] in *.

Lemma rotx_dot t u v : dot3 (rotx t u) (rotx t v) = dot3 u v.
Proof. v3. pose proof (cs1 t). replace (vx u * vx v + (cos t * vy u - sin t * vz u) * (cos t * vy v - sin t * vz v) + (sin t * vy u + cos t * vz u) * (sin t * vy v + cos t * vz v)) with (vx u * vx v + (cos t * cos t + sin t * sin t) * (vy u * vy v + vz u * vz v)) by ring. rewrite H. ring. Qed.
Lemma roty_dot t u v : dot3 (roty t u) (roty t v) = dot3 u v.
Proof. v3. pose proof (cs1 t). transitivity (vy u * vy v + (cos t * cos t + sin t * sin t) * (vx u * vx v + vz u * vz v)); [ring|]. rewrite H. ring. Qed.
Lemma rotz_dot t u v : dot3 (rotz t u) (rotz t v) = dot3 u v.
Proof. v3. pose proof (cs1 t). transitivity (vz u * vz v + (cos t * cos t + sin t * sin t) * (vx u * vx v + vy u * vy v)); [ring|]. rewrite H. ring. Qed.

(** ** The code's coordinates are the chain's *)
Lemma coords_eq (g : geom R) (j : V6 R) : let C := calculate_coordinates RA (kin_new RA g) j in
  c_j0 _ C = zero3 /\ c_j1 _ C = joint1 g j /\ c_j2 _ C = joint2 g j /\ c_j3 _ C = joint3 g j /\
  c_j4 _ C = joint4 g j /\ c_j5 _ C = tip g j.
Proof.
  cbv zeta. unfold tip, joint4, joint3, joint2, joint1, link4, link3, link2, link1, link0, add3, rotx, roty, rotz, zero3.
  unfold calculate_coordinates. cbv zeta.
  cbn [c_j0 c_j1 c_j2 c_j3 c_j4 c_j5 vx vy vz k_g kin_new fnum fadd fsub fmul fopp fofz fcos fsin RA F].
  splits; f_equal; try (match goal with |- @eq _ ?x ?y => change (@eq R x y) end); ring.
Qed.

(** the matrix' columns are the flange's axes *)
Definition row_mul (m0 m1 m2 v : vecR) : vecR := mk3 (dot3 m0 v) (dot3 m1 v) (dot3 m2 v).
Lemma matrix_eq (g : geom R) (j : V6 R) v : let C := calculate_coordinates RA (kin_new RA g) j in
  row_mul (c_m0 _ C) (c_m1 _ C) (c_m2 _ C) v = flange j v.
Proof.
  cbv zeta. unfold row_mul, flange, link4, link3, link2, link1, link0, add3, rotx, roty, rotz, dot3.
  unfold calculate_coordinates. cbv zeta. rewrite cos_PI, sin_PI.
  cbn [c_m0 c_m1 c_m2 vx vy vz k_g kin_new fnum fadd fsub fmul fopp fofz fcos fsin RA F].
  f_equal; ring.
Qed.

(** ** atan2 *)
Lemma sqrt_pos_sum x y : (x <> 0 \/ y <> 0) -> 0 < sqrt (x * x + y * y).
Proof. intros H. apply sqrt_lt_R0. destruct H; nra. Qed.

Lemma sqrt_sq_sum x y : sqrt (x * x + y * y) * sqrt (x * x + y * y) = x * x + y * y.
Proof. apply sqrt_sqrt. nra. Qed.

Lemma cos_atan_q y x : 0 < x -> cos (atan (y / x)) = x / sqrt (x * x + y * y) /\ sin (atan (y / x)) = y / sqrt (x * x + y * y).
Proof.
  intros H. rewrite cos_atan, sin_atan.
  assert (E : sqrt (1 + (y / x)²) = sqrt (x * x + y * y) / x).
  { replace (1 + (y / x)²) with ((x * x + y * y) / (x * x)) by (unfold Rsqr; field; lra).
    rewrite sqrt_div_alt by nra. rewrite sqrt_square by lra. reflexivity. }
  rewrite E. pose proof (sqrt_pos_sum x y (or_introl (Rgt_not_eq _ _ H))).
  split; field; lra.
Qed.

Lemma ratan2_cs y x : (x <> 0 \/ y <> 0) ->
  cos (ratan2 y x) = x / sqrt (x * x + y * y) /\ sin (ratan2 y x) = y / sqrt (x * x + y * y).
Proof.
  intros H. unfold ratan2. pose proof (sqrt_pos_sum x y H) as P.
  destruct (Rlt_dec 0 x) as [X|X]; [now apply cos_atan_q|].
  destruct (Rlt_dec x 0) as [X'|X'].
  - assert (E : y / x = - y / - x) by (field; lra).
    destruct (cos_atan_q (- y) (- x)) as [C S]; [lra|].
    rewrite <- E in C, S. replace (- x * - x + - y * - y) with (x * x + y * y) in C, S by ring.
    destruct (Rle_dec 0 y).
    + rewrite neg_cos, neg_sin, C, S. split; field; lra.
    + replace (atan (y / x) - PI) with (- (PI - atan (y / x))) by ring.
      rewrite cos_neg, sin_neg, cos_minus, sin_minus, cos_PI, sin_PI, C, S. split; field; lra.
  - assert (x = 0) by lra. subst x. replace (0 * 0 + y * y) with (y * y) in * by ring.
    destruct (Rlt_dec 0 y) as [Y|Y].
    + rewrite cos_PI2, sin_PI2, sqrt_square by lra. split; field; lra.
    + destruct (Rlt_dec y 0) as [Y'|Y'].
      * rewrite cos_neg, sin_neg, cos_PI2, sin_PI2. replace (y * y) with (- y * - y) by ring.
        rewrite sqrt_square by lra. split; field; lra.
      * exfalso. destruct H; lra.
Qed.

Lemma ratan2_0 : ratan2 0 0 = 0.
Proof. unfold ratan2. destruct (Rlt_dec 0 0); [lra|]. reflexivity. Qed.

Lemma ratan2_range y x : - PI < ratan2 y x <= PI.
Proof.
  pose proof PI_RGT_0. unfold ratan2. pose proof (atan_bound (y / x)).
  destruct (Rlt_dec 0 x); [lra|]. destruct (Rlt_dec x 0).
  - destruct (Rle_dec 0 y).
    + assert (y / x <= 0). { unfold Rdiv. assert (/ x < 0) by (apply Rinv_lt_0_compat; lra). nra. }
      assert (atan (y / x) <= 0). { destruct (Req_dec (y / x) 0) as [E|E]; [rewrite E, atan_0; lra|].
        left. rewrite <- atan_0. apply atan_increasing. lra. }
      lra.
    + assert (0 < y / x). { unfold Rdiv. assert (/ x < 0) by (apply Rinv_lt_0_compat; lra). nra. }
      assert (0 < atan (y / x)). { rewrite <- atan_0. apply atan_increasing. lra. }
      lra.
  - destruct (Rlt_dec 0 y); [lra|]. destruct (Rlt_dec y 0); lra.
Qed.
Lemma ratan2_nonneg y x : 0 <= y -> 0 <= ratan2 y x.
Proof.
  intros H. pose proof PI_RGT_0. unfold ratan2. pose proof (atan_bound (y / x)).
  destruct (Rlt_dec 0 x).
  - assert (0 <= y / x) by (apply Rmult_le_pos; [lra|left; now apply Rinv_0_lt_compat]).
    destruct (Req_dec (y / x) 0) as [E|E]; [rewrite E, atan_0; lra|].
    left. rewrite <- atan_0. apply atan_increasing. lra.
  - destruct (Rlt_dec x 0). { destruct (Rle_dec 0 y); lra. } destruct (Rlt_dec 0 y); [lra|]. destruct (Rlt_dec y 0); lra.
Qed.

(** angles with equal sine and cosine in one turn are equal *)
Lemma cos_eq_1 t : - (2 * PI) < t < 2 * PI -> cos t = 1 -> t = 0.
Proof.
  intros H E. pose proof PI_RGT_0. rewrite <- cos_0 in E.
  assert (K : forall u, 0 <= u < 2 * PI -> cos u = 1 -> u = 0).
  { clear. intros u [A B] E. destruct (Req_dec u 0); auto. exfalso.
    pose proof PI_RGT_0. destruct (Rle_dec u PI).
    - assert (cos u < cos 0) by (apply cos_decreasing_1; lra). rewrite cos_0 in *. lra.
    - assert (cos u < cos (2 * PI)) by (apply cos_increasing_1; lra). rewrite cos_2PI in *. lra. }
  rewrite cos_0 in E. destruct (Rle_dec 0 t).
  - apply K; lra.
  - assert (- t = 0); [|lra]. apply K; [lra|]. rewrite cos_neg. exact E.
Qed.
Lemma same_angle s t : - PI < s <= PI -> - PI < t <= PI -> cos s = cos t -> sin s = sin t -> s = t.
Proof.
  intros S T C I. assert (s - t = 0); [|lra]. apply cos_eq_1; [lra|].
  rewrite cos_minus, C, I. apply cs1.
Qed.
Lemma ratan2_unique k t : 0 < k -> - PI < t <= PI -> ratan2 (k * sin t) (k * cos t) = t.
Proof.
  intros K T. pose proof (cs1 t) as E.
  assert (N : k * cos t <> 0 \/ k * sin t <> 0).
  { destruct (Req_dec (cos t) 0) as [Z|Z]; [right; rewrite Z in E; assert (sin t <> 0) by nra|left]; apply Rmult_integral_contrapositive_currified; lra. }
  destruct (ratan2_cs (k * sin t) (k * cos t) N) as [C S].
  replace (k * cos t * (k * cos t) + k * sin t * (k * sin t)) with (k * k) in *
    by (transitivity (k * k * (cos t * cos t + sin t * sin t)); [rewrite E; ring|ring]).
  rewrite sqrt_square in * by lra.
  apply same_angle; auto using ratan2_range; [rewrite C|rewrite S]; field; lra.
Qed.
