(** * C41-C45, C52: the kinematics.

    [kin_new RA g] is the constructor and [kin_forward RA], [calculate_coordinates RA],
    [kin_inverse NRA] the methods of src/Kinematic.cpp in exact real arithmetic ([NRA] is exact
    arithmetic with NaN for divisions by 0 and acos/asin/sqrt outside their domain).  The
    geometry is described independently in KinSpec. *)
From Verif Require Import Base Arith RobotModel KinModel KinSpec KinProofs KinEuler KinInv KinWrist KinSolve KinNan KinReach.
From Coq Require Import Reals Lra Psatz.
Open Scope R_scope.

(** distance of two points *)
Definition dist (u v : vecR) : R := norm3R (sub3 u v).
(** the position part of a pose vector is [position], the orientation part [tool] *)

(** ** C41 *)
Lemma dist_step (u v : vecR) (f : vecR -> vecR) : rotation f -> dist (add3 u (f v)) u = norm3R v.
Proof.
  intros Rf. unfold dist, norm3R. f_equal. rewrite <- (rot_dot f Rf v v). set (y := f v). v3. ring.
Qed.
Lemma rotation_link0 j : rotation (link0 j).
Proof. apply rotation_z. Qed.
Lemma rotation_link1 j : rotation (link1 j).
Proof. apply (rotation_comp (rotz (v0 j)) (roty (v1 j))); [apply rotation_z|apply rotation_y]. Qed.
Lemma rotation_link3 j : rotation (link3 j).
Proof. apply (rotation_comp (link2 j) (rotx (v3 j))); [apply rotation_link2|apply rotation_x]. Qed.
Lemma add3_0 v : add3 zero3 v = v.
Proof. apply v3_eta; v3; ring. Qed.

Theorem C41_rigid_chain : forall (g : geom R) (j : V6 R),
  let C := calculate_coordinates RA (kin_new RA g) j in
  c_j0 _ C = zero3 /\
  dist (c_j1 _ C) (c_j0 _ C) = norm3R (g0 g) /\ dist (c_j2 _ C) (c_j1 _ C) = norm3R (g1 g) /\
  dist (c_j3 _ C) (c_j2 _ C) = norm3R (g2 g) /\ dist (c_j4 _ C) (c_j3 _ C) = norm3R (g3 g) /\
  dist (c_j5 _ C) (c_j4 _ C) = norm3R (g4 g).
Proof.
  intros g j. cbv zeta. destruct (coords_eq g j) as (-> & -> & -> & -> & -> & ->).
  split; [reflexivity|].
  split. { rewrite <- (dist_step zero3 (g0 g) _ (rotation_link0 j)), add3_0. reflexivity. }
  split. { apply dist_step, rotation_link1. }
  split. { apply dist_step, rotation_link2. }
  split; apply dist_step; [apply rotation_link3|apply rotation_link4].
Qed.

(** the reported position is the tip of the chain of rotated links *)
Theorem C41_position_is_tip : forall (g : geom R) (j : V6 R),
  position (kin_forward RA (kin_new RA g) j) = tip g j.
Proof.
  intros g j. destruct (coords_eq g j) as (_ & _ & _ & _ & _ & <-). unfold kin_forward, position. cbv zeta.
  cbn [v0 v1 v2]. destruct (c_j5 _ _); reflexivity.
Qed.

Theorem C41_zero_pose : forall (g : geom R),
  kin_forward RA (kin_new RA g) (mk6 0 0 0 0 0 0) =
  mk6 (vx (g0 g) + vx (g1 g) + vx (g2 g) + vx (g3 g) + vx (g4 g))
      (vy (g0 g) + vy (g1 g) + vy (g2 g) + vy (g3 g) + vy (g4 g))
      (vz (g0 g) + vz (g1 g) + vz (g2 g) + vz (g3 g) + vz (g4 g)) PI 0 PI.
Proof.
  intros g. unfold kin_forward, calculate_coordinates. cbv zeta.
  cbn [c_j5 c_ang vx vy vz k_g kin_new v0 v1 v2 v3 v4 v5]. unfold fnum. ra. rewrite sin_0, cos_0.
  assert (E : ratan2 0 (-1) = PI).
  { unfold ratan2. destruct (Rlt_dec 0 (-1)); [lra|]. destruct (Rlt_dec (-1) 0); [|lra].
    destruct (Rle_dec 0 0); [|lra]. replace (0 / -1) with 0 by field. rewrite atan_0. ring. }
  unfold euler_angles. cbn [vx vy vz]. unfold fnum. ra.
  match goal with |- context [rltb ?x 1] => replace x with 0 by ring end.
  replace (rltb 0 1) with true by (symmetry; apply rltb_true; lra).
  replace (rltb (-1) 0) with true by (symmetry; apply rltb_true; lra). cbn [vx vy vz].
  rewrite asin_0.
  repeat match goal with |- context [ratan2 ?a ?b] => replace (ratan2 a b) with PI
    by (rewrite <- E; f_equal; ring) end.
  f_equal; ring.
Qed.

(** ** C43 *)
Lemma dot_axes (m : vecR) : m = mk3 (dot3 m ex) (dot3 m ey) (dot3 m ez).
Proof. apply v3_eta; v3; ring. Qed.
Lemma matrix_cols (g : geom R) (j : V6 R) : let C := calculate_coordinates RA (kin_new RA g) j in
  c_m0 _ C = mk3 (vx (flange j ex)) (vx (flange j ey)) (vx (flange j ez)) /\
  c_m1 _ C = mk3 (vy (flange j ex)) (vy (flange j ey)) (vy (flange j ez)) /\
  c_m2 _ C = mk3 (vz (flange j ex)) (vz (flange j ey)) (vz (flange j ez)).
Proof.
  cbv zeta. pose proof (matrix_eq g j ex) as X. pose proof (matrix_eq g j ey) as Y. pose proof (matrix_eq g j ez) as Z.
  cbv zeta in X, Y, Z. rewrite <- X, <- Y, <- Z. unfold row_mul.
  set (C := calculate_coordinates RA (kin_new RA g) j) in *. clearbody C. clear X Y Z.
  split; [|split]; apply dot_axes.
Qed.

Theorem C43_reported_orientation : forall (g : geom R) (j : V6 R) (v : vecR),
  tool (kin_forward RA (kin_new RA g) j) v = flange j v.
Proof.
  intros g j v. rewrite <- (euler_correct (flange j) (rotation_flange j) v). cbv zeta.
  destruct (matrix_cols g j) as (<- & <- & <-). reflexivity.
Qed.

(** the computed matrix is a proper rotation: orthonormal rows and columns, determinant 1 *)
Theorem C43_orthonormal : forall (g : geom R) (j : V6 R),
  let C := calculate_coordinates RA (kin_new RA g) j in
  let m := row_mul (c_m0 _ C) (c_m1 _ C) (c_m2 _ C) in
  (forall u v, dot3 (m u) (m v) = dot3 u v) /\ (forall u v, crossR (m u) (m v) = m (crossR u v)).
Proof.
  intros g j. cbv zeta. pose proof (rotation_flange j) as H. split; intros u v.
  - rewrite !(matrix_eq g j). apply (rot_dot _ H).
  - rewrite !(matrix_eq g j). apply (rot_cross _ H).
Qed.

Theorem C43_angle_ranges : forall (g : geom R) (j : V6 R),
  let p := kin_forward RA (kin_new RA g) j in
  - PI <= v3 p <= PI /\ - (PI / 2) <= v4 p <= PI / 2 /\ - PI < v5 p <= PI /\
  (- (PI / 2) < v4 p -> - PI < v3 p).
Proof.
  intros g j. cbv zeta. unfold kin_forward. cbv zeta. cbn [v3 v4 v5]. unfold calculate_coordinates. cbv zeta. cbn [c_ang].
  match goal with |- context [euler_angles RA ?a ?b ?c] => set (m0 := a); set (m1 := b); set (m2 := c) end.
  clearbody m0 m1 m2. pose proof PI_RGT_0. unfold euler_angles, half_pi, dnum, fnum. ra. rewrite !rdec_int.
  destruct (rltb (vz m0) 1); [destruct (rltb (-1) (vz m0))|]; cbn [vx vy vz].
  - pose proof (ratan2_range (- vz m1) (vz m2)). pose proof (ratan2_range (- vy m0) (vx m0)).
    pose proof (asin_bound (vz m0)). repeat split; lra.
  - pose proof (ratan2_range (vx m1) (vy m1)). repeat split; lra.
  - pose proof (ratan2_range (vx m1) (vy m1)). repeat split; lra.
Qed.

(** ** C42 *)
Definition turn_base (d : R) (j : V6 R) : V6 R := mk6 (v0 j + d) (v1 j) (v2 j) (v3 j) (v4 j) (v5 j).
Lemma rotz_add a d v : rotz (a + d) v = rotz d (rotz a v).
Proof. v3. rewrite cos_plus, sin_plus. apply f_equal3_mk3; ring. Qed.
Lemma rotz_lin d u v : rotz d (add3 u v) = add3 (rotz d u) (rotz d v).
Proof. v3. apply f_equal3_mk3; ring. Qed.

Theorem C42_turning_the_base : forall (g : geom R) (j : V6 R) (d : R),
  let C := calculate_coordinates RA (kin_new RA g) j in
  let C' := calculate_coordinates RA (kin_new RA g) (turn_base d j) in
  c_j0 _ C' = rotz d (c_j0 _ C) /\ c_j1 _ C' = rotz d (c_j1 _ C) /\ c_j2 _ C' = rotz d (c_j2 _ C) /\
  c_j3 _ C' = rotz d (c_j3 _ C) /\ c_j4 _ C' = rotz d (c_j4 _ C) /\ c_j5 _ C' = rotz d (c_j5 _ C).
Proof.
  intros g j d. cbv zeta.
  destruct (coords_eq g j) as (-> & -> & -> & -> & -> & ->).
  destruct (coords_eq g (turn_base d j)) as (-> & -> & -> & -> & -> & ->).
  unfold tip, joint4, joint3, joint2, joint1, link4, link3, link2, link1, link0, turn_base. cbn [v0 v1 v2 v3 v4 v5].
  rewrite !rotz_lin, !rotz_add.
  split; [apply v3_eta; v3; ring|]. repeat split.
Qed.
Theorem C42_turning_the_base_pose : forall (g : geom R) (j : V6 R) (d : R),
  let p := kin_forward RA (kin_new RA g) j in
  let p' := kin_forward RA (kin_new RA g) (turn_base d j) in
  position p' = rotz d (position p) /\ forall v, tool p' v = rotz d (tool p v).
Proof.
  intros g j d. cbv zeta. rewrite !C41_position_is_tip. split.
  - destruct (coords_eq g j) as (_ & _ & _ & _ & _ & <-).
    destruct (coords_eq g (turn_base d j)) as (_ & _ & _ & _ & _ & <-). apply C42_turning_the_base.
  - intros v. rewrite !C43_reported_orientation.
    unfold flange, link4, link3, link2, link1, link0, turn_base. cbn [v0 v1 v2 v3 v4 v5]. now rewrite rotz_add.
Qed.

(** ** C45 *)
(** for every arithmetic: OUT_OF_RANGE leaves the caller's array alone, OK writes six numbers *)
Theorem C45_output_only_on_success : forall (A : arith) (K : kin A) (p out r : V6 (F A)) (st : Z),
  kin_inverse A K p out = (st, r) ->
  (st = 1%Z /\ r = out) \/ (st = 0%Z /\ forall x, In x (list6 r) -> fisnan A x = false).
Proof.
  intros A K p out r st. unfold kin_inverse. destruct (existsb _ _) eqn:E; intros H.
  - left. split; congruence.
  - right. assert (r = kin_solve A K p) as -> by congruence. split; [congruence|].
    intros x I. destruct (fisnan A x) eqn:N; auto. exfalso.
    assert (existsb (fisnan A) (list6 (kin_solve A K p)) = true) by (apply existsb_exists; eauto). congruence.
Qed.

(** in exact arithmetic the answer is OK exactly for the reachable poses *)
Theorem C45_ok_iff_reachable : forall (g : geom R) (p : V6 R) (out : V6 (option R)),
  documented g -> as_shipped g ->
  let r := kin_inverse NRA (kin_new NRA (someG g)) (some6 p) out in
  (fst r = 0%Z <-> reachable g p) /\ (fst r = 1%Z <-> ~ reachable g p) /\
  (fst r = 0%Z -> exists j : V6 R, snd r = some6 j) /\ (fst r = 1%Z -> snd r = out).
Proof.
  intros g p out G S. cbv zeta. destruct (inverse_N g p out) as [A B].
  rewrite (all_ok_iff g p G S), solvable_iff in A, B.
  assert (D : reachable g p \/ ~ reachable g p) by apply Classical_Prop.classic.
  destruct D as [D|D]; [rewrite (A D)|rewrite (B D)]; cbn [fst snd]; intuition (eauto; congruence).
Qed.

(** ** C44 *)
Lemma euler_N (a b c : vecR) : euler_angles NRA (some3 a) (some3 b) (some3 c) = some3 (euler_angles RA a b c).
Proof.
  unfold euler_angles. rewrite half_pi_N.
  cbn -[rltb nasin half_pi ndiv]. destruct (rltb (vz a) 1) eqn:E1; [destruct (rltb (-1) (vz a)) eqn:E2|].
  - apply rltb_true in E1. apply rltb_true in E2. cbn. destruct Rle_dec; [|lra]. destruct Rle_dec; [|lra]. reflexivity.
  - rewrite ndiv_some by (rewrite rdec_int; lra). reflexivity.
  - reflexivity.
Qed.
(** forward never produces NaN *)
Theorem C43_forward_total : forall (g : geom R) (j : V6 R),
  kin_forward NRA (kin_new NRA (someG g)) (some6 j) = some6 (kin_forward RA (kin_new RA g) j).
Proof.
  intros g j. unfold kin_forward, calculate_coordinates. cbv zeta. cbn [c_j5 c_ang].
  match goal with |- context [euler_angles NRA ?a ?b ?c] =>
    match goal with |- context [euler_angles RA ?a' ?b' ?c'] =>
      change (euler_angles NRA a b c) with (euler_angles NRA (some3 a') (some3 b') (some3 c')); rewrite (euler_N a' b' c') end end.
  reflexivity.
Qed.

Lemma some6_inj (a b : V6 R) : some6 a = some6 b -> a = b.
Proof. destruct a as [a0 a1 a2 a3 a4 a5], b as [b0 b1 b2 b3 b4 b5]. unfold some6, map6. cbn [v0 v1 v2 v3 v4 v5]. congruence. Qed.

(** the pose the arm takes after the answer [j] of the inverse kinematics: the tool point is
    the requested one, the tool's axis is the requested one, and outside the wrist singularity
    the whole tool frame is the requested one *)
Theorem C44_inverse_then_forward_partial : forall (g : geom R) (p j : V6 R) (out : V6 (option R)),
  documented g -> as_shipped g ->
  kin_inverse NRA (kin_new NRA (someG g)) (some6 p) out = (0%Z, some6 j) ->
  let q := kin_forward RA (kin_new RA g) j in
  position q = position p /\ tool q ez = tool p ez /\
  (cos (v4 j) <> 0 -> forall v, tool q v = tool p v).
Proof.
  intros g p j out G S H. cbv zeta. rewrite C41_position_is_tip, C43_reported_orientation.
  destruct (inverse_N g p out) as [A B].
  assert (D : reachable g p).
  { apply (proj1 (C45_ok_iff_reachable g p out G S)). rewrite H. reflexivity. }
  apply solvable_iff in D. rewrite (A (proj2 (all_ok_iff g p G S) D)) in H.
  assert (j = kin_solve RA (kin_new RA g) p) as ->.
  { symmetry. apply some6_inj. congruence. }
  split; [now apply solved_tip|]. split; [now apply solved_axis|].
  intros N v. rewrite C43_reported_orientation. now apply solved_orientation.
Qed.

Lemma v6_eta (q p : V6 R) : v0 q = v0 p -> v1 q = v1 p -> v2 q = v2 p -> v3 q = v3 p -> v4 q = v4 p -> v5 q = v5 p -> q = p.
Proof. destruct q as [q0 q1 q2 q3 q4 q5], p as [p0 p1 p2 p3 p4 p5]. cbn [v0 v1 v2 v3 v4 v5]. congruence. Qed.

(** when the requested angles are the canonical ones (|b| < 90 degrees, a and c in (-180, 180]),
    the pose reported afterwards is the requested pose, number by number *)
Lemma sin_inj x y : - (PI / 2) <= x <= PI / 2 -> - (PI / 2) <= y <= PI / 2 -> sin x = sin y -> x = y.
Proof. intros [A B] [C D] E. rewrite <- (asin_sin x), <- (asin_sin y) by lra. now rewrite E. Qed.
Lemma angles_unique a b c a' b' c' :
  - PI < a <= PI -> - (PI / 2) < b < PI / 2 -> - PI < c <= PI ->
  (- (PI / 2) < b' -> - PI < a') -> a' <= PI -> - (PI / 2) <= b' <= PI / 2 -> - PI < c' <= PI ->
  (forall v, orientation a' b' c' v = orientation a b c v) -> a' = a /\ b' = b /\ c' = c.
Proof.
  intros A B C A1 A2 B' C' E.
  pose proof (E ez) as Z. rewrite !orientation_ez in Z.
  assert (Z1 : sin b' = sin b) by congruence. assert (Z2 : - sin a' * cos b' = - sin a * cos b) by congruence.
  assert (Z3 : cos a' * cos b' = cos a * cos b) by congruence.
  assert (EB : b' = b) by (apply sin_inj; lra). subst b'.
  assert (P : 0 < cos b) by (apply cos_gt_0; lra).
  assert (EA : a' = a). { apply same_angle; try lra; nra. }
  subst a'. split; [reflexivity|]. split; [reflexivity|].
  pose proof (E ey) as Y. pose proof (E ex) as X. 
  assert (Y1 : vx (orientation a b c' ey) = vx (orientation a b c ey)) by now rewrite Y.
  assert (X1 : vx (orientation a b c' ex) = vx (orientation a b c ex)) by now rewrite X.
  unfold orientation in X1, Y1. v3. apply same_angle; nra.
Qed.

Theorem C44_forward_inverse_is_identity : forall (g : geom R) (p j : V6 R) (out : V6 (option R)),
  documented g -> as_shipped g ->
  - PI < v3 p <= PI -> - (PI / 2) < v4 p < PI / 2 -> - PI < v5 p <= PI ->
  kin_inverse NRA (kin_new NRA (someG g)) (some6 p) out = (0%Z, some6 j) -> cos (v4 j) <> 0 ->
  kin_forward NRA (kin_new NRA (someG g)) (some6 j) = some6 p.
Proof.
  intros g p j out G S A B C H N. rewrite C43_forward_total. f_equal.
  destruct (C44_inverse_then_forward_partial g p j out G S H) as (P & _ & O). specialize (O N).
  pose proof (C43_angle_ranges g j) as RG. cbv zeta in RG. cbv zeta in P, O.
  set (q := kin_forward RA (kin_new RA g) j) in *.
  assert (E : v3 q = v3 p /\ v4 q = v4 p /\ v5 q = v5 p).
  { destruct RG as (R1 & R2 & R3 & R4). apply angles_unique; try assumption; lra. }
  clearbody q. apply v6_eta; tauto || (injection P; auto).
Qed.

(** *** C44 is false without the side conditions *)
(** The documented constraints allow a tool pointing up (positive z); then the solution is off
    by twice the tool's length, for every pose. *)
Definition flip_tool (g : geom R) : geom R := mkGeom (g0 g) (g1 g) (g2 g) (g3 g) (mk3 (vx (g4 g)) (vy (g4 g)) (- vz (g4 g))).
Lemma kin_flip g : kin_solve RA (kin_new RA (flip_tool g)) = kin_solve RA (kin_new RA g).
Proof.
  unfold flip_tool, kin_new. cbn [g0 g1 g2 g3 g4 vx vy vz]. unfold KinModel.sq. ra.
  replace (- vz (g4 g) * - vz (g4 g)) with (vz (g4 g) * vz (g4 g)) by ring. reflexivity.
Qed.
Lemma kin_inverse_flip g p out : kin_inverse NRA (kin_new NRA (someG (flip_tool g))) p out = kin_inverse NRA (kin_new NRA (someG g)) p out.
Proof.
  unfold kin_inverse. assert (E : kin_solve NRA (kin_new NRA (someG (flip_tool g))) p = kin_solve NRA (kin_new NRA (someG g)) p); [|now rewrite E].
  rewrite !kin_new_N. unfold flip_tool, kin_new. cbn [g0 g1 g2 g3 g4 vx vy vz]. unfold KinModel.sq. ra.
  replace (- vz (g4 g) * - vz (g4 g)) with (vz (g4 g) * vz (g4 g)) by ring. reflexivity.
Qed.
Theorem C44_upward_tool_refuted : forall (g : geom R) (p j : V6 R) (out : V6 (option R)),
  documented g -> 0 < vx (g3 g) -> 0 < vz (g4 g) ->
  kin_inverse NRA (kin_new NRA (someG g)) (some6 p) out = (0%Z, some6 j) ->
  dist (position (kin_forward RA (kin_new RA g) j)) (position p) = 2 * vz (g4 g).
Proof.
  intros g p j out G H3 H4 H. rewrite <- (kin_inverse_flip g) in H. rewrite C41_position_is_tip.
  assert (G' : documented (flip_tool g)) by exact G.
  assert (S' : as_shipped (flip_tool g)) by (unfold as_shipped, flip_tool; cbn [g3 g4 vx vz]; lra).
  destruct (C44_inverse_then_forward_partial (flip_tool g) p j out G' S' H) as (P & T & _).
  rewrite C41_position_is_tip in P. rewrite C43_reported_orientation in T.
  unfold dist. rewrite <- P. unfold tip. change (joint4 (flip_tool g) j) with (joint4 g j).
  destruct G as (_ & _ & X4 & Y4).
  assert (E : link4 j (g4 (flip_tool g)) = scale3 (-1) (link4 j (g4 g))).
  { unfold flip_tool. cbn [g4]. unfold link4, link3, link2, link1, link0. v3. rewrite X4, Y4. apply f_equal3_mk3; ring. }
  rewrite E. unfold norm3R.
  replace (dot3 _ _) with (4 * dot3 (link4 j (g4 g)) (link4 j (g4 g))) by (v3; ring).
  rewrite (rot_dot _ (rotation_link4 j)). unfold dot3. rewrite X4, Y4.
  replace (4 * (0 * 0 + 0 * 0 + vz (g4 g) * vz (g4 g))) with ((2 * vz (g4 g)) * (2 * vz (g4 g))) by ring.
  apply sqrt_square. lra.
Qed.

(** At the wrist singularity (forearm and tool in one line) joints 3 and 5 are left at zero
    whatever rotation about the tool axis was asked for. *)
Theorem C44_singular_ignores_rotation : forall (g : geom R) (p j : V6 R) (out : V6 (option R)),
  documented g -> as_shipped g ->
  kin_inverse NRA (kin_new NRA (someG g)) (some6 p) out = (0%Z, some6 j) ->
  cos (v4 j) = 0 -> v3 j = 0 /\ v5 j = 0.
Proof.
  intros g p j out G S H N.
  destruct (inverse_N g p out) as [A B].
  assert (D : reachable g p).
  { apply (proj1 (C45_ok_iff_reachable g p out G S)). rewrite H. reflexivity. }
  apply solvable_iff in D. rewrite (A (proj2 (all_ok_iff g p G S) D)) in H.
  assert (j = kin_solve RA (kin_new RA g) p) as -> by (symmetry; apply some6_inj; congruence).
  now apply solved_singular.
Qed.

(** ** C52: the poses the arm can take *)
(** the wrist is in front of the base: the arm does not reach over backwards *)
Definition in_front (g : geom R) (j : V6 R) : Prop :=
  0 <= dot3 (joint4 g j) (link0 j ex).

Lemma planar_bounds a b c d V W L : 0 <= V -> 0 <= W -> 0 <= L ->
  V * V = a * a + b * b -> W * W = c * c + d * d -> L * L = (a + c) * (a + c) + (b + d) * (b + d) ->
  Rabs (V - W) <= L <= V + W.
Proof.
  intros PV PW PL EV EW EL.
  assert (CS : (a * c + b * d) * (a * c + b * d) <= (V * W) * (V * W)).
  { replace (V * W * (V * W)) with ((V * V) * (W * W)) by ring. rewrite EV, EW.
    assert (0 <= (a * d - b * c) * (a * d - b * c)) by (apply Rle_0_sqr). nra. }
  assert (PVW : 0 <= V * W) by (apply Rmult_le_pos; assumption).
  assert (B : - (V * W) <= a * c + b * d <= V * W) by (split; nra).
  assert (E : L * L = V * V + W * W + 2 * (a * c + b * d)) by (rewrite EL, EV, EW; ring).
  clear EV EW EL CS. split; [apply Rabs_le; split; nra|nra].
Qed.

(** the wrist of the pose an arm with joint angles [j] takes *)
Lemma wrist_forward (g : geom R) (j : V6 R) : documented g ->
  wrist g (kin_forward RA (kin_new RA g) j) = joint4 g j.
Proof.
  intros (_ & _ & X4 & Y4). unfold wrist. rewrite C41_position_is_tip, C43_reported_orientation. unfold tip.
  set (w := joint4 g j). unfold flange, link4, link3, link2, link1, link0. v3. rewrite X4, Y4, cos_PI, sin_PI.
  apply v3_eta; cbn [vx vy vz]; ring.
Qed.

(** coordinates in the arm's vertical plane *)
Lemma joint4_plane (g : geom R) (j : V6 R) : documented g ->
  let s := v1 j + v2 j in
  let m := vx (g2 g) + vx (g3 g) in let n := vz (g2 g) + vz (g3 g) in
  let a := cos (v1 j) * vx (g1 g) + sin (v1 j) * vz (g1 g) in
  let b := - sin (v1 j) * vx (g1 g) + cos (v1 j) * vz (g1 g) in
  let c := cos s * m + sin s * n in let d := - sin s * m + cos s * n in
  joint4 g j = link0 j (mk3 (vx (g0 g) + (a + c)) (offset g) (vz (g0 g) + (b + d))).
Proof.
  intros (Y3 & Z3 & _). cbv zeta. unfold offset, joint4, joint3, joint2, joint1, link3, link2, link1, link0. v3.
  rewrite Y3, Z3, cos_plus, sin_plus. apply f_equal3_mk3; ring.
Qed.

Theorem C52_every_front_pose_is_accepted : forall (g : geom R) (j : V6 R) (out : V6 (option R)),
  documented g -> as_shipped g -> 0 < upper_arm g -> 0 < fore_arm g ->
  in_front g j -> 0 < horizontal (joint4 g j) -> 0 < reach g (joint4 g j) ->
  let p := kin_forward RA (kin_new RA g) j in
  exists j' : V6 R,
    kin_inverse NRA (kin_new NRA (someG g)) (some6 p) out = (0%Z, some6 j') /\
    position (kin_forward RA (kin_new RA g) j') = position p /\
    tool (kin_forward RA (kin_new RA g) j') ez = tool p ez.
Proof.
  intros g j out G S PV PW FR PH PR. cbv zeta.
  set (p := kin_forward RA (kin_new RA g) j).
  assert (D : reachable g p).
  { unfold reachable, p. cbv zeta. rewrite wrist_forward by exact G.
    pose proof (joint4_plane g j G) as E. cbv zeta in E.
    set (a := cos (v1 j) * vx (g1 g) + sin (v1 j) * vz (g1 g)) in *.
    set (b := - sin (v1 j) * vx (g1 g) + cos (v1 j) * vz (g1 g)) in *.
    set (m := vx (g2 g) + vx (g3 g)) in *. set (n := vz (g2 g) + vz (g3 g)) in *.
    set (c := cos (v1 j + v2 j) * m + sin (v1 j + v2 j) * n) in *.
    set (d := - sin (v1 j + v2 j) * m + cos (v1 j + v2 j) * n) in *.
    set (x := vx (g0 g) + (a + c)) in *. pose proof (cs1 (v0 j)) as C0.
    assert (FX : 0 <= x).
    { unfold in_front in FR. rewrite E in FR. unfold link0 in FR. v3.
      replace x with ((cos (v0 j) * cos (v0 j) + sin (v0 j) * sin (v0 j)) * x) by (rewrite C0; ring).
      eapply Rle_trans; [exact FR|]. right. ring. }
    assert (HH : horizontal (joint4 g j) * horizontal (joint4 g j) = x * x + offset g * offset g).
    { unfold horizontal. rewrite sqrt_sqrt by apply sum2_nonneg. rewrite E. unfold link0. v3.
      transitivity ((cos (v0 j) * cos (v0 j) + sin (v0 j) * sin (v0 j)) * (x * x + offset g * offset g)); [ring|rewrite C0; ring]. }
    assert (RR : reach g (joint4 g j) * reach g (joint4 g j) = (a + c) * (a + c) + (b + d) * (b + d)).
    { unfold reach. cbv zeta. rewrite HH. replace (x * x + offset g * offset g - offset g * offset g) with (x * x) by ring.
      rewrite sqrt_square by exact FX. rewrite sqrt_sqrt by apply sum2_nonneg. rewrite E. unfold link0. v3.
      unfold x. ring. }
    assert (EV : upper_arm g * upper_arm g = a * a + b * b).
    { unfold upper_arm. rewrite sqrt_sqrt by apply sum2_nonneg. pose proof (cs1 (v1 j)) as C1. unfold a, b.
      transitivity ((cos (v1 j) * cos (v1 j) + sin (v1 j) * sin (v1 j)) * (vx (g1 g) * vx (g1 g) + vz (g1 g) * vz (g1 g))); [rewrite C1; ring|ring]. }
    assert (EW : fore_arm g * fore_arm g = c * c + d * d).
    { unfold fore_arm. cbv zeta. fold m n. rewrite sqrt_sqrt by apply sum2_nonneg. pose proof (cs1 (v1 j + v2 j)) as C1. unfold c, d.
      set (co := cos (v1 j + v2 j)) in *. set (si := sin (v1 j + v2 j)) in *.
      transitivity ((co * co + si * si) * (m * m + n * n)); [rewrite C1; ring|ring]. }
    repeat split; try assumption.
    - apply Rsqr_incr_0_var; [|lra]. rewrite <- Rsqr_abs. unfold Rsqr. rewrite HH. pose proof (Rle_0_sqr x). unfold Rsqr in *. lra.
    - eapply (planar_bounds a b c d); eauto; lra.
    - eapply (planar_bounds a b c d (upper_arm g) (fore_arm g)); eauto; lra. }
  destruct (C45_ok_iff_reachable g p out G S) as (A & _ & B & _). cbv zeta in A, B.
  assert (O : fst (kin_inverse NRA (kin_new NRA (someG g)) (some6 p) out) = 0%Z) by now apply A.
  destruct (B O) as [j' J]. exists j'.
  assert (I : kin_inverse NRA (kin_new NRA (someG g)) (some6 p) out = (0%Z, some6 j')).
  { rewrite <- O, <- J. now destruct (kin_inverse _ _ _ _). }
  split; [exact I|]. destruct (C44_inverse_then_forward_partial g p j' out G S I) as (X & Y & _). split; assumption.
Qed.

(** ** Concrete cases *)
(** geometry of config/mp-robot-kit.h *)
Definition kit_geometry : geom R :=
  mkGeom (mk3 (46/10) 0 (79/10)) (mk3 0 0 (117/10)) (mk3 1 0 (15/10)) (mk3 (1215/100) 0 0) (mk3 0 0 (-3)).
Example C44_kit_geometry : documented kit_geometry /\ as_shipped kit_geometry.
Proof. unfold documented, as_shipped, kit_geometry. cbn [g3 g4 vx vy vz]. lra. Qed.

(** the kit's pose at zero angles: 17.75, 0, 18.1, pointing down; it is reachable and accepted *)
Example C45_kit_home_reachable : let p := mk6 (1775/100) 0 (181/10) PI 0 PI in
  kin_forward RA (kin_new RA kit_geometry) (mk6 0 0 0 0 0 0) = p /\
  exists j, kin_inverse NRA (kin_new NRA (someG kit_geometry)) (some6 p) (some6 p) = (0%Z, some6 j).
Proof.
  cbv zeta.
  assert (F0 : kin_forward RA (kin_new RA kit_geometry) (mk6 0 0 0 0 0 0) = mk6 (1775/100) 0 (181/10) PI 0 PI).
  { rewrite C41_zero_pose. unfold kit_geometry. cbn [g0 g1 g2 g3 g4 vx vy vz]. f_equal; lra. }
  split; [exact F0|].
  destruct C44_kit_geometry as [G S].
  assert (J4 : joint4 kit_geometry (mk6 0 0 0 0 0 0) = mk3 (1775/100) 0 (211/10)).
  { unfold joint4, joint3, joint2, joint1, link3, link2, link1, link0, kit_geometry. v3. cbn [v0 v1 v2 v3 g0 g1 g2 g3 vx vy vz].
    rewrite cos_0, sin_0. apply f_equal3_mk3; lra. }
  assert (PV : 0 < upper_arm kit_geometry) by (apply sqrt_lt_R0; unfold kit_geometry; cbn [g1 vx vz]; lra).
  assert (PW : 0 < fore_arm kit_geometry) by (apply sqrt_lt_R0; unfold kit_geometry; cbn [g2 g3 vx vz]; lra).
  destruct (C52_every_front_pose_is_accepted kit_geometry (mk6 0 0 0 0 0 0) (some6 (mk6 (1775/100) 0 (181/10) PI 0 PI)) G S PV PW)
    as (j & I & _).
  - unfold in_front. rewrite J4. unfold link0. v3. cbn [v0]. rewrite cos_0, sin_0. lra.
  - rewrite J4. apply sqrt_lt_R0. cbn [vx vy]. lra.
  - rewrite J4. apply sqrt_lt_R0. unfold offset, kit_geometry. cbn [g0 g1 g2 g3 vx vy vz].
    match goal with |- 0 < ?a * ?a + ?b * ?b => assert (0 < b * b); [|pose proof (Rle_0_sqr a); unfold Rsqr in *; lra] end. lra.
  - exists j. rewrite F0 in I. exact I.
Qed.

(** a stretched arm: forearm and tool in one line; the requested rotation about the tool axis is lost *)
Definition straight : geom R := mkGeom zero3 (mk3 0 0 1) zero3 (mk3 1 0 0) (mk3 0 0 (-1)).
Definition straight_pose : V6 R := mk6 3 0 0 0 (PI / 2) (PI / 2).
Lemma flange_is_hand j v : flange j v = link2 j (hand (v3 j) (v4 j) (v5 j) v).
Proof. reflexivity. Qed.
Theorem C44_singular_rotation_refuted : exists j : V6 R,
  kin_inverse NRA (kin_new NRA (someG straight)) (some6 straight_pose) (some6 straight_pose) = (0%Z, some6 j) /\
  tool straight_pose ey = ez /\
  tool (kin_forward RA (kin_new RA straight) j) ey <> ez.
Proof.
  assert (G : documented straight) by (unfold documented, straight; cbn [g3 g4 vx vy vz]; lra).
  assert (S : as_shipped straight) by (unfold as_shipped, straight; cbn [g3 g4 vx vy vz]; lra).
  assert (TZ : tool straight_pose ez = ex).
  { unfold tool, straight_pose. cbn [v3 v4 v5]. rewrite orientation_ez, sin_PI2, cos_PI2, sin_0, cos_0. v3. apply f_equal3_mk3; ring. }
  assert (TY : tool straight_pose ey = ez).
  { unfold tool, straight_pose. cbn [v3 v4 v5]. rewrite orientation_ey, sin_PI2, cos_PI2, sin_0, cos_0. v3. apply f_equal3_mk3; ring. }
  assert (W : wrist straight straight_pose = mk3 2 0 0).
  { unfold wrist. rewrite TZ. unfold position, straight_pose, straight. v3. cbn [v0 v1 v2 g4 vx vy vz]. apply f_equal3_mk3; ring. }
  assert (OF : offset straight = 0) by (unfold offset, straight; cbn [g0 g1 g2 g3]; v3; ring).
  assert (H2 : horizontal (mk3 2 0 0) = 2).
  { unfold horizontal. cbn [vx vy]. replace (2 * 2 + 0 * 0) with (2 * 2) by ring. apply sqrt_square. lra. }
  assert (UA : upper_arm straight = 1).
  { unfold upper_arm, straight. cbn [g1 vx vz]. replace (0 * 0 + 1 * 1) with (1 * 1) by ring. apply sqrt_square. lra. }
  assert (FA : fore_arm straight = 1).
  { unfold fore_arm, straight. v3. cbn [g2 g3 vx vz]. replace ((0 + 1) * (0 + 1) + (0 + 0) * (0 + 0)) with (1 * 1) by ring. apply sqrt_square. lra. }
  assert (RE : reach straight (mk3 2 0 0) = 2).
  { unfold reach. cbv zeta. rewrite H2, OF. replace (2 * 2 - 0 * 0) with (2 * 2) by ring. rewrite sqrt_square by lra.
    unfold straight. v3. cbn [g0 vx vz]. replace ((2 - 0) * (2 - 0) + (0 - 0) * (0 - 0)) with (2 * 2) by ring. apply sqrt_square. lra. }
  assert (D : reachable straight straight_pose).
  { unfold reachable. cbv zeta. rewrite W, H2, OF, UA, FA, RE, Rabs_R0. replace (1 - 1) with 0 by ring. rewrite Rabs_R0. lra. }
  pose proof (proj2 (solvable_iff straight straight_pose) D) as OK.
  destruct (inverse_N straight straight_pose (some6 straight_pose)) as [A _].
  specialize (A (proj2 (all_ok_iff _ _ G S) OK)).
  set (j := kin_solve RA (kin_new RA straight) straight_pose : V6 R) in *. exists j.
  split; [exact A|]. split; [exact TY|].
  pose proof (joint4_eq straight straight_pose G S OK) as J4. fold j in J4. rewrite W in J4.
  pose proof (solved_axis straight straight_pose G S OK) as AX. fold j in AX. rewrite TZ in AX.
  pose proof (solved_singular straight straight_pose G S OK) as SG. fold j in SG.
  clearbody j. clear A OK D.
  (* the forearm points along x *)
  assert (L2 : link2 j ex = ex).
  { assert (J4' : add3 (link1 j ez) (link2 j ex) = mk3 2 0 0).
    { rewrite <- J4. unfold straight, joint4, joint3, joint2, joint1, link3, link2, link1, link0. cbn [g0 g1 g2 g3]. v3. apply f_equal3_mk3; ring. }
    assert (N1 : dot3 (link1 j ez) (link1 j ez) = 1) by (rewrite (rot_dot _ (rotation_link1 j)); v3; ring).
    assert (N2 : dot3 (link2 j ex) (link2 j ex) = 1) by (rewrite (rot_dot _ (rotation_link2 j)); v3; ring).
    set (u := link1 j ez) in *. set (v := link2 j ex) in *. clearbody u v.
    destruct u as [a b c], v as [d e f]. v3. injection J4' as X1 X2 X3.
    assert (d <= 1) by nra. assert (a <= 1) by nra. assert (d = 1) by lra. subst d.
    assert (e * e + f * f = 0) as Q by lra. apply sum_sq_0 in Q. destruct Q as [-> ->]. reflexivity. }
  assert (C4 : cos (v4 j) = 0).
  { rewrite flange_is_hand in AX. assert (Q : dot3 (link2 j (hand (v3 j) (v4 j) (v5 j) ez)) (link2 j ex) = 1) by (rewrite AX, L2; v3; ring).
    rewrite (rot_dot _ (rotation_link2 j)), hand_ez in Q. v3. pose proof (cs1 (v4 j)) as C. 
    assert (sin (v4 j) = -1) as Z by lra. rewrite Z in C. nra. }
  destruct (SG C4) as [Z3 Z5]. rewrite C43_reported_orientation, flange_is_hand, hand_ey, Z3, Z5, cos_0, sin_0.
  intros E. apply (f_equal vz) in E. unfold link2, link1, link0 in E. v3. lra.
Qed.

(** C43, C42, C41 need no hypotheses.  A case of C44_upward_tool_refuted: the stretched arm with the tool flipped. *)
Example C44_upward_case : documented (flip_tool straight) /\ 0 < vx (g3 (flip_tool straight)) /\ 0 < vz (g4 (flip_tool straight)) /\
  exists j, kin_inverse NRA (kin_new NRA (someG (flip_tool straight))) (some6 straight_pose) (some6 straight_pose) = (0%Z, some6 j).
Proof.
  split; [unfold documented, flip_tool, straight; cbn [g3 g4 vx vy vz]; lra|].
  split; [unfold flip_tool, straight; cbn [g3 vx]; lra|]. split; [unfold flip_tool, straight; cbn [g4 vz]; lra|].
  destruct C44_singular_rotation_refuted as (j & I & _). exists j. rewrite kin_inverse_flip. exact I.
Qed.

(** a case of C44_forward_inverse_is_identity: the kit's home pose is not singular *)
Example C44_kit_home_round_trip : let p := mk6 (1775/100) 0 (181/10) PI 0 PI in
  exists j, kin_inverse NRA (kin_new NRA (someG kit_geometry)) (some6 p) (some6 p) = (0%Z, some6 j) /\
    cos (v4 j) <> 0 /\ kin_forward NRA (kin_new NRA (someG kit_geometry)) (some6 j) = some6 p.
Proof.
  cbv zeta. destruct C45_kit_home_reachable as [F0 [j I]]. destruct C44_kit_geometry as [G S]. pose proof PI_RGT_0 as PP.
  exists j. split; [exact I|].
  destruct (C44_inverse_then_forward_partial kit_geometry _ j _ G S I) as (P & T & _).
  rewrite C43_reported_orientation in T. unfold tool in T. cbn [v3 v4 v5] in T. rewrite orientation_ez, sin_0, cos_0, sin_PI, cos_PI in T.
  assert (J4 : joint4 kit_geometry j = mk3 (1775/100) 0 (211/10)).
  { rewrite <- (wrist_forward _ _ G). unfold wrist. rewrite P, C43_reported_orientation, T. unfold position, kit_geometry. v3.
    cbn [v0 v1 v2 g4 vz]. apply f_equal3_mk3; lra. }
  assert (N : cos (v4 j) <> 0).
  { intros C4. pose proof (cs1 (v4 j)) as C. rewrite C4 in C.
    rewrite flange_is_hand, hand_ez, C4 in T.
    pose proof (joint4_plane kit_geometry j G) as E. cbv zeta in E. rewrite J4 in E. unfold offset, kit_geometry, link0 in E.
    cbn [g0 g1 g2 g3 g4 vx vy vz] in E. v3.
    apply (f_equal (fun v => (vx v, vy v, vz v))) in T. unfold link2, link1, link0 in T. v3. injection T as T1 T2 T3.
    injection E as E1 E2 E3.
    pose proof (cs1 (v1 j)) as C1. pose proof (cs1 (v1 j + v2 j)) as CS. pose proof (cs1 (v0 j)) as C0.
    assert (T3' : sin (v1 j + v2 j) * sin (v4 j) = -1) by (rewrite sin_plus; lra).
    set (s := sin (v1 j + v2 j)) in *. set (c := cos (v1 j + v2 j)) in *. set (s4 := sin (v4 j)) in *.
    assert (Z : c = 0 /\ s * s = 1).
    { assert (s4 * s4 = 1) by lra. assert (s * s = 1).
      { transitivity ((s * s4) * (s * s4)); [transitivity (s * s * (s4 * s4)); [rewrite H; ring|ring]|rewrite T3'; ring]. }
      split; [|assumption]. assert (c * c = 0) by lra. nra. }
    destruct Z as [Zc Zs]. rewrite Zc in *.
    set (s1 := sin (v1 j)) in *. set (c1 := cos (v1 j)) in *. set (c0 := cos (v0 j)) in *. set (s0 := sin (v0 j)) in *.
    clearbody s c s1 c1 s4 c0 s0.
    (* in-plane: u = (11.7 s1, 11.7 c1) *)
    assert (X : (46/10 + (117/10 * s1 + 15/10 * s)) * (46/10 + (117/10 * s1 + 15/10 * s)) = 1775/100 * (1775/100)).
    { transitivity ((c0 * c0 + s0 * s0) * ((46/10 + (117/10 * s1 + 15/10 * s)) * (46/10 + (117/10 * s1 + 15/10 * s)))); [rewrite C0; ring|].
      set (x := 46/10 + (117/10 * s1 + 15/10 * s)) in *.
      replace (1775/100 * (1775/100)) with ((c0 * x) * (c0 * x) + (s0 * x) * (s0 * x)); [ring|].
      replace (c0 * x) with (1775/100) by (unfold x; lra). replace (s0 * x) with 0 by (unfold x; lra). ring. }
    assert (S0 : s = 1 \/ s = -1) by (destruct (Rle_dec 0 s); [left|right]; nra).
    assert (s1 <= 1) by nra. assert (-1 <= s1) by nra. assert (c1 <= 1) by nra. assert (-1 <= c1) by nra.
    destruct S0 as [-> | ->]; nra. }
  split; [exact N|]. eapply C44_forward_inverse_is_identity; eauto; cbn [v3 v4 v5]; lra.
Qed.
