(** The inverse kinematics in exact arithmetic. *)
From Verif Require Import Base Arith RobotModel KinModel KinSpec KinProofs KinEuler.
From Coq Require Import Reals Lra.
Open Scope R_scope.

(** ** angleBetween *)
Ltac toR := match goal with |- @eq _ ?x ?y => change (@eq R x y) end.
Definition sgn (x : R) : R := if Rlt_dec 0 x then 1 else -1.
Lemma sgn_cases x : (0 < x /\ sgn x = 1) \/ (x <= 0 /\ sgn x = -1).
Proof. unfold sgn. destruct (Rlt_dec 0 x); [left|right]; split; lra. Qed.
Lemma sgn_abs x : sgn x * Rabs x = x.
Proof. destruct (sgn_cases x) as [[H ->]|[H ->]]; [rewrite Rabs_pos_eq|rewrite Rabs_left1]; lra. Qed.

Lemma length3_RA (v : vecR) : length3 RA v = norm3R v.
Proof. reflexivity. Qed.
Lemma cross_RA (u v : vecR) : cross RA u v = crossR u v.
Proof. reflexivity. Qed.
Lemma angle_between_RA (u v w : vecR) :
  angle_between RA u v w = ratan2 (norm3R (crossR u v)) (dot3 u v) * sgn (dot3 w u).
Proof.
  unfold angle_between. rewrite cross_RA, length3_RA. cbn [fmul fadd fatan2 flt fnum fofz RA F].
  unfold sgn, rltb, dot3.
  replace (vx v * vx u + vy v * vy u + vz v * vz u) with (vx u * vx v + vy u * vy v + vz u * vz v) by ring.
  destruct Rlt_dec; reflexivity.
Qed.

Lemma dot3_self v : 0 <= dot3 v v.
Proof. v3. nra. Qed.
Lemma norm_sq v : norm3R v * norm3R v = dot3 v v.
Proof. unfold norm3R. apply sqrt_sqrt, dot3_self. Qed.
Lemma norm_nonneg v : 0 <= norm3R v.
Proof. apply sqrt_pos. Qed.
Lemma norm_unique v k : 0 <= k -> k * k = dot3 v v -> norm3R v = k.
Proof. intros H E. unfold norm3R. rewrite <- E. now apply sqrt_square. Qed.
Lemma lagrange u v : dot3 (crossR u v) (crossR u v) + dot3 u v * dot3 u v = dot3 u u * dot3 v v.
Proof. unfold crossR; v3. ring. Qed.

(** cosine and sine of the signed angle between two non-zero vectors *)
Lemma angle_between_cs (u v w : vecR) : 0 < norm3R u -> 0 < norm3R v ->
  cos (angle_between RA u v w) = dot3 u v / (norm3R u * norm3R v) /\
  sin (angle_between RA u v w) = sgn (dot3 w u) * norm3R (crossR u v) / (norm3R u * norm3R v).
Proof.
  intros U V. rewrite angle_between_RA.
  assert (E : dot3 u v * dot3 u v + norm3R (crossR u v) * norm3R (crossR u v) = (norm3R u * norm3R v) * (norm3R u * norm3R v)).
  { rewrite norm_sq. transitivity (norm3R u * norm3R u * (norm3R v * norm3R v)); [|ring].
    rewrite !norm_sq, <- lagrange. ring. }
  assert (P : 0 < norm3R u * norm3R v) by now apply Rmult_lt_0_compat.
  destruct (ratan2_cs (norm3R (crossR u v)) (dot3 u v)) as [C S].
  { apply (nonzero_pair _ _ _ E). now apply Rmult_lt_0_compat. }
  rewrite E, sqrt_square in C, S by lra.
  destruct (sgn_cases (dot3 w u)) as [[_ ->]|[_ ->]].
  - rewrite Rmult_1_r, C, S. split; [reflexivity|field]. 
    split; lra.
  - replace (ratan2 (norm3R (crossR u v)) (dot3 u v) * -1) with (- ratan2 (norm3R (crossR u v)) (dot3 u v)) by ring.
    rewrite cos_neg, sin_neg, C, S. split; [reflexivity|field]. split; lra.
Qed.

(** angles do not change under a rotation *)
Lemma angle_between_rot f (u v w : vecR) : rotation f ->
  angle_between RA (f u) (f v) (f w) = angle_between RA u v w.
Proof.
  intros H. rewrite !angle_between_RA. unfold norm3R. rewrite (rot_cross f H), !(rot_dot f H). reflexivity.
Qed.

(** ** Joint 0 *)
Definition hd (x y : R) : R := sqrt (x * x + y * y).
Definition off (g : geom R) : R := 0 + vy (g0 g) + vy (g1 g) + vy (g2 g) + vy (g3 g).
Lemma solve_r0_RA (g : geom R) (J : vecR) :
  solve_r0 RA (kin_new RA g) J = PI / 2 - acos (- off g / hd (vx J) (vy J)) + ratan2 (vy J) (vx J).
Proof.
  unfold solve_r0, addd, half_pi, dnum, length2, KinModel.sq, fnum, hd, off.
  cbn [k_j4y kin_new fadd fofz fopp fdiv facos fatan2 d2f f2d dadd dsub ddiv dmul dpi ddec dsqrt RA fnum F].
  rewrite rdec_int. unfold fnum. cbn [fofz RA].
  replace (- vy J * - vy J + vx J * vx J) with (vx J * vx J + vy J * vy J) by ring. toR. ring.
Qed.

Lemma r0_correct D (J : vecR) : let x := vx J in let y := vy J in
  0 < hd x y -> -1 <= - D / hd x y <= 1 ->
  let R0 := PI / 2 - acos (- D / hd x y) + ratan2 y x in
  cos R0 * x + sin R0 * y = sqrt (hd x y * hd x y - D * D) /\ - sin R0 * x + cos R0 * y = D.
Proof.
  intros x y P B R0. set (th := acos (- D / hd x y)). set (ph := ratan2 y x).
  assert (N : x <> 0 \/ y <> 0).
  { unfold hd in P. destruct (Req_dec x 0) as [->|]; [right; intros ->|now left].
    replace (0 * 0 + 0 * 0) with 0 in P by ring. rewrite sqrt_0 in P. lra. }
  destruct (ratan2_cs y x N) as [C S]. fold (hd x y) in C, S.
  set (rho := hd x y) in *.
  assert (X : x = rho * cos ph) by (unfold ph; rewrite C; field; lra).
  assert (Y : y = rho * sin ph) by (unfold ph; rewrite S; field; lra).
  assert (TC : rho * cos th = - D) by (unfold th; rewrite cos_acos by exact B; field; lra).
  assert (TS : rho * sin th = sqrt (rho * rho - D * D)).
  { unfold th. rewrite sin_acos by exact B.
    transitivity (sqrt (rho * rho) * sqrt (1 - (- D / rho)²)); [rewrite sqrt_square by lra; reflexivity|].
    rewrite <- sqrt_mult_alt by nra. f_equal. unfold Rsqr. field. lra. }
  assert (E : R0 = ph - (th - PI / 2)) by (unfold R0, th, ph; ring).
  clearbody th ph rho. rewrite E. clear E R0 C S N B.
  pose proof (cs1 ph) as Q.
  rewrite (cos_minus ph), (sin_minus ph), (cos_minus th), (sin_minus th), cos_PI2, sin_PI2, <- TS.
  split.
  - rewrite X, Y. transitivity (rho * sin th * (cos ph * cos ph + sin ph * sin ph)); [ring|rewrite Q; ring].
  - rewrite X, Y. transitivity (- (rho * cos th) * (cos ph * cos ph + sin ph * sin ph)); [ring|rewrite Q, TC; ring].
Qed.

(** ** Joints 1 and 2: two links of lengths V and W bridging a distance L *)
Lemma acos_cs x : -1 <= x <= 1 -> cos (acos x) = x /\ sin (acos x) * sin (acos x) = 1 - x * x /\ 0 <= sin (acos x).
Proof.
  intros H. rewrite cos_acos by exact H. split; [reflexivity|].
  pose proof (cs1 (acos x)) as E. rewrite cos_acos in E by exact H.
  split; [lra|]. apply sin_ge_0; apply acos_bound.
Qed.

Lemma triangle L V W : 0 < L -> 0 < V -> 0 < W ->
  let cA := (L * L - W * W + V * V) / (2 * L * V) in
  let cB := (- (L * L) + W * W + V * V) / (2 * W * V) in
  -1 <= cA <= 1 -> -1 <= cB <= 1 ->
  let A := acos cA in let B := acos cB in
  V * cos A - W * cos (A + B) = L /\ V * sin A = W * sin (A + B).
Proof.
  intros HL HV HW cA cB BA BB A B.
  destruct (acos_cs _ BA) as (CA & SA & PA). destruct (acos_cs _ BB) as (CB & SB & PB).
  fold A in CA, SA, PA. fold B in CB, SB, PB.
  assert (E1 : L * cos A = V - W * cos B) by (rewrite CA, CB; unfold cA, cB; field; lra).
  assert (E2 : L * sin A = W * sin B).
  { apply Rsqr_inj; [apply Rmult_le_pos; lra|apply Rmult_le_pos; lra|]. unfold Rsqr.
    transitivity (L * L * (sin A * sin A)); [ring|]. transitivity (W * W * (sin B * sin B)); [|ring].
    rewrite SA, SB. unfold cA, cB. field. lra. }
  pose proof (cs1 A) as Q. rewrite cos_plus, sin_plus. split.
  - transitivity (cos A * (V - W * cos B) + sin A * (W * sin B)); [ring|].
    rewrite <- E1, <- E2. transitivity (L * (cos A * cos A + sin A * sin A)); [ring|rewrite Q; ring].
  - apply (Rplus_eq_reg_r (- (W * (sin A * cos B + cos A * sin B)))).
    transitivity (sin A * (V - W * cos B) - cos A * (W * sin B)); [ring|]. rewrite <- E1, <- E2. ring.
Qed.

(** the planar arm: h, j upper arm, m, n forearm, (x, z) the goal seen from joint 1 *)
Lemma planar h j m n x z : let V := hd h j in let W := hd m n in let L := hd x z in
  0 < V -> 0 < W -> 0 < L ->
  let cA := (L * L - W * W + V * V) / (2 * L * V) in
  let cB := (- (L * L) + W * W + V * V) / (2 * W * V) in
  -1 <= cA <= 1 -> -1 <= cB <= 1 ->
  let R1 := PI / 2 - ratan2 h j - ratan2 z x - acos cA in
  let R2 := PI / 2 + ratan2 n m + ratan2 h j - acos cB in
  cos R1 * h + sin R1 * j + (cos (R1 + R2) * m + sin (R1 + R2) * n) = x /\
  - sin R1 * h + cos R1 * j + (- sin (R1 + R2) * m + cos (R1 + R2) * n) = z.
Proof.
  intros V W L HV HW HL cA cB BA BB R1 R2.
  destruct (triangle L V W HL HV HW BA BB) as [T1 T2]. fold cA cB in T1, T2.
  set (A := acos cA) in *. set (B := acos cB) in *.
  assert (NZ : forall a b, 0 < hd a b -> a <> 0 \/ b <> 0).
  { intros a b P. unfold hd in P. destruct (Req_dec a 0) as [->|]; [right; intros ->|now left].
    replace (0 * 0 + 0 * 0) with 0 in P by ring. rewrite sqrt_0 in P. lra. }
  assert (HC : hd j h = hd h j) by (unfold hd; f_equal; ring).
  destruct (ratan2_cs h j) as [C1 S1]; [apply or_comm, NZ; exact HV|]. fold (hd j h) in C1, S1. rewrite HC in C1, S1. fold V in C1, S1.
  destruct (ratan2_cs n m) as [C2 S2]; [apply NZ; exact HW|]. fold (hd m n) in C2, S2. fold W in C2, S2.
  destruct (ratan2_cs z x) as [C3 S3]; [apply NZ; exact HL|]. fold (hd x z) in C3, S3. fold L in C3, S3.
  assert (Eh : h = V * sin (ratan2 h j)) by (rewrite S1; field; lra).
  assert (Ej : j = V * cos (ratan2 h j)) by (rewrite C1; field; lra).
  assert (En : n = W * sin (ratan2 n m)) by (rewrite S2; field; lra).
  assert (Em : m = W * cos (ratan2 n m)) by (rewrite C2; field; lra).
  assert (Ez : z = L * sin (ratan2 z x)) by (rewrite S3; field; lra).
  assert (Ex : x = L * cos (ratan2 z x)) by (rewrite C3; field; lra).
  assert (E12 : R1 + R2 = ratan2 n m - (ratan2 z x + (A + B) - PI)) by (unfold R1, R2; field).
  assert (E1 : R1 = PI / 2 - (ratan2 h j + (ratan2 z x + A))) by (unfold R1; field).
  rewrite E12, E1. clear E12 E1 C1 S1 C2 S2 C3 S3 HC NZ BA BB. clearbody A B V W L. clear R1 R2 cA cB HV HW HL.
  set (al := ratan2 h j) in *. set (be := ratan2 n m) in *. set (ga := ratan2 z x) in *. clearbody al be ga.
  subst h j m n x z.
  rewrite cos_shift, sin_shift, (cos_minus be), (sin_minus be), (cos_minus _ PI), (sin_minus _ PI), cos_PI, sin_PI,
          !(cos_plus al), !(sin_plus al), !(cos_plus ga), !(sin_plus ga).
  pose proof (cs1 al) as Qa. pose proof (cs1 be) as Qb.
  set (cAB := cos (A + B)) in *. set (sAB := sin (A + B)) in *. clearbody cAB sAB.
  split.
  - transitivity (V * (cos ga * cos A - sin ga * sin A) * (cos al * cos al + sin al * sin al)
       - W * (cos ga * cAB - sin ga * sAB) * (cos be * cos be + sin be * sin be)); [ring|]. rewrite Qa, Qb.
    transitivity (cos ga * (V * cos A - W * cAB) - sin ga * (V * sin A - W * sAB)); [ring|]. rewrite T1, T2. ring.
  - transitivity (V * (sin ga * cos A + cos ga * sin A) * (cos al * cos al + sin al * sin al)
       - W * (sin ga * cAB + cos ga * sAB) * (cos be * cos be + sin be * sin be)); [ring|]. rewrite Qa, Qb.
    transitivity (sin ga * (V * cos A - W * cAB) + cos ga * (V * sin A - W * sAB)); [ring|]. rewrite T1, T2. ring.
Qed.
