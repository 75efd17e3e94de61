(** forward (inverse p) = p in exact arithmetic. *)
From Verif Require Import Base Arith RobotModel KinModel KinSpec KinProofs KinEuler KinInv KinWrist.
From Coq Require Import Reals Lra.
Open Scope R_scope.

Ltac ra := cbn [fadd fsub fmul fdiv fopp fabsf flt fofz f2d d2f dadd dsub dmul ddiv dopp dabs dlt dle ddec dpi
                fsin fcos facos fasin fatan2 fsqrt dsin dcos dacos dsqrt dfmod datan2 RA F] in *.

(** ** Turning back *)
Lemma roty_back t v : roty t (roty (- t) v) = v.
Proof.
  pose proof (cs1 t). apply v3_eta; v3; rewrite ?cos_neg, ?sin_neg.
  - transitivity ((cos t * cos t + sin t * sin t) * vx v); [ring|rewrite H; ring].
  - reflexivity.
  - transitivity ((cos t * cos t + sin t * sin t) * vz v); [ring|rewrite H; ring].
Qed.
Lemma rotz_back t v : rotz t (rotz (- t) v) = v.
Proof.
  pose proof (cs1 t). apply v3_eta; v3; rewrite ?cos_neg, ?sin_neg.
  - transitivity ((cos t * cos t + sin t * sin t) * vx v); [ring|rewrite H; ring].
  - transitivity ((cos t * cos t + sin t * sin t) * vy v); [ring|rewrite H; ring].
  - reflexivity.
Qed.
Definition link2_inv (j : V6 R) (v : vecR) : vecR := roty (- v2 j) (roty (- v1 j) (rotz (- v0 j) v)).
Lemma link2_back j v : link2 j (link2_inv j v) = v.
Proof. unfold link2, link1, link0, link2_inv. now rewrite !roty_back, rotz_back. Qed.
Lemma rotation_link2 j : rotation (link2 j).
Proof.
  unfold link2, link1, link0.
  apply (rotation_comp (rotz (v0 j)) (fun v => roty (v1 j) (roty (v2 j) v))); [apply rotation_z|].
  apply (rotation_comp (roty (v1 j)) (roty (v2 j))); apply rotation_y.
Qed.

(** ** Periodicity *)
Lemma cs_turns x n : cos (x + IZR n * (2 * PI)) = cos x /\ sin (x + IZR n * (2 * PI)) = sin x.
Proof.
  destruct (Z_le_dec 0 n) as [H|H].
  - replace n with (Z.of_nat (Z.to_nat n)) by (apply Z2Nat.id; exact H). rewrite <- INR_IZR_INZ.
    replace (x + INR (Z.to_nat n) * (2 * PI)) with (x + 2 * INR (Z.to_nat n) * PI) by ring.
    split; [apply cos_period|apply sin_period].
  - set (m := Z.to_nat (- n)). assert (E : IZR n = - INR m).
    { unfold m. rewrite INR_IZR_INZ, Z2Nat.id by lia. rewrite opp_IZR. ring. }
    rewrite E. set (z := x + - INR m * (2 * PI)).
    replace x with (z + 2 * INR m * PI) by (unfold z; ring).
    now rewrite cos_period, sin_period.
Qed.
Lemma clamp_cs r : exists n, rfmod (PI + r) (2 * PI) - PI = r + IZR n * (2 * PI).
Proof.
  unfold rfmod. exists (- rtrunc ((PI + r) / (2 * PI)))%Z. rewrite opp_IZR. ring.
Qed.

(** ** The six angles in exact arithmetic *)
Section Solve.
Context (g : geom R) (p : V6 R).
Hypothesis G : documented g.
Hypothesis S : as_shipped g.
Notation K := (kin_new RA g).
Let w := wrist g p.

Lemma target_z_RA : target_z RA p = tool p ez.
Proof. unfold tool. rewrite orientation_ez. reflexivity. Qed.
Lemma target_y_RA : target_y RA p = tool p ey.
Proof. unfold tool. rewrite orientation_ey. reflexivity. Qed.
Lemma v4_RA : k_v4 _ K = - vz (g4 g).
Proof.
  destruct G as (_ & _ & X & Y). destruct S as [_ Z].
  unfold kin_new, KinModel.sq. cbn [k_v4]. ra. rewrite X, Y.
  replace (0 * 0 + vz (g4 g) * vz (g4 g) + 0 * 0) with (- vz (g4 g) * - vz (g4 g)) by ring.
  apply sqrt_square. lra.
Qed.
Lemma wrist_RA : wrist_centre RA K p = w.
Proof.
  unfold wrist_centre. rewrite target_z_RA, v4_RA. ra. unfold w, wrist, position. v3.
  apply f_equal3_mk3; ring.
Qed.

Lemma rho_eq : horizontal w = hd (vx w) (vy w).
Proof. reflexivity. Qed.
Lemma off_eq : off g = offset g.
Proof. unfold off, offset. ring. Qed.

(** the plane's coordinates of the wrist, seen from joint 1 *)
Let R0 : R := solve_r0 RA K w.
Let px : R := plane_x RA R0 w.
Let X : R := px - vx (g0 g).
Let Z : R := vz w - vz (g0 g).
Let V := upper_arm g.
Let W := fore_arm g.
Let L := hd X Z.
Lemma r1_RA : solve_r1 RA K px (vz w) =
  PI / 2 - ratan2 (vx (g1 g)) (vz (g1 g)) - ratan2 Z X - acos ((L * L - W * W + V * V) / (2 * L * V)).
Proof.
  unfold solve_r1, proj_sq, forearm_len, length2, KinModel.sq, subd, kin_new, addd, half_pi, dnum, fnum.
  cbn [k_a1 k_j1 k_v1 k_g vx vy vz]. ra. rewrite !rdec_int.
  replace (px - (0 + vx (g0 g))) with X by (unfold X; ring).
  replace (vz w - (0 + vz (g0 g))) with Z by (unfold Z; ring).
  replace (X * X + Z * Z) with (L * L) by (unfold L, hd; apply sqrt_sqrt; nra).
  rewrite sqrt_square by apply sqrt_pos. rewrite Rplus_0_l. reflexivity.
Qed.
Lemma r2_RA : solve_r2 RA K px (vz w) =
  PI / 2 + ratan2 (vz (g2 g) + vz (g3 g)) (vx (g2 g) + vx (g3 g)) + ratan2 (vx (g1 g)) (vz (g1 g))
  - acos ((- (L * L) + W * W + V * V) / (2 * W * V)).
Proof.
  unfold solve_r2, proj_sq, forearm_len, length2, KinModel.sq, subd, kin_new, addd, half_pi, dnum, fnum.
  cbn [k_a2 k_j1 k_v1 k_g vx vy vz]. ra. rewrite !rdec_int.
  replace (px - (0 + vx (g0 g))) with X by (unfold X; ring).
  replace (vz w - (0 + vz (g0 g))) with Z by (unfold Z; ring).
  replace (X * X + Z * Z) with (L * L) by (unfold L, hd; apply sqrt_sqrt; nra).
  rewrite Rplus_0_l. reflexivity.
Qed.

(** what the code needs *)
Definition solvable : Prop :=
  0 < hd (vx w) (vy w) /\ -1 <= - off g / hd (vx w) (vy w) <= 1 /\
  0 < V /\ 0 < W /\ 0 < L /\
  -1 <= (L * L - W * W + V * V) / (2 * L * V) <= 1 /\
  -1 <= (- (L * L) + W * W + V * V) / (2 * W * V) <= 1.

Hypothesis OK : solvable.
Let j : V6 R := kin_solve RA K p.

Lemma j0_eq : v0 j = R0.
Proof. unfold j, kin_solve. cbv zeta. cbn [v0]. now rewrite wrist_RA. Qed.
Lemma j1_eq : v1 j = solve_r1 RA K px (vz w).
Proof. unfold j, kin_solve. cbv zeta. cbn [v1]. now rewrite wrist_RA. Qed.
Lemma j2_eq : v2 j = solve_r2 RA K px (vz w).
Proof. unfold j, kin_solve. cbv zeta. cbn [v2]. now rewrite wrist_RA. Qed.

Lemma plane_facts : px = sqrt (hd (vx w) (vy w) * hd (vx w) (vy w) - off g * off g) /\
  cos R0 * px - sin R0 * off g = vx w /\ sin R0 * px + cos R0 * off g = vy w.
Proof.
  destruct OK as (H1 & H2 & _). destruct (r0_correct (off g) w H1 H2) as [A B].
  unfold px, plane_x. ra. unfold R0. rewrite solve_r0_RA. cbv zeta in A, B.
  split; [exact A|].
  match goal with |- context [cos ?r] => set (r0 := r) in *; pose proof (cs1 r0) as Q end.
  split.
  - rewrite <- B at 1. transitivity ((cos r0 * cos r0 + sin r0 * sin r0) * vx w); [ring|rewrite Q; ring].
  - rewrite <- B at 1. transitivity ((cos r0 * cos r0 + sin r0 * sin r0) * vy w); [ring|rewrite Q; ring].
Qed.

(** the forearm ends at the wrist *)
Lemma joint4_eq : joint4 g j = w.
Proof.
  destruct OK as (H1 & H2 & HV & HW & HL & BA & BB). destruct G as (Y3 & Z3 & _).
  destruct plane_facts as (_ & PX & PY).
  destruct (planar (vx (g1 g)) (vz (g1 g)) (vx (g2 g) + vx (g3 g)) (vz (g2 g) + vz (g3 g)) X Z HV HW HL BA BB) as [QX QZ].
  fold (upper_arm g) in QX, QZ. change (hd (vx (g1 g)) (vz (g1 g))) with V in QX, QZ.
  change (hd (vx (g2 g) + vx (g3 g)) (vz (g2 g) + vz (g3 g))) with W in QX, QZ. fold L in QX, QZ.
  rewrite <- r1_RA, <- r2_RA, <- j1_eq, <- j2_eq in QX, QZ. rewrite <- j0_eq in PX, PY.
  unfold joint4, joint3, joint2, joint1, link3, link2, link1, link0. v3. rewrite Y3, Z3 in *.
  rewrite cos_plus, sin_plus in QX, QZ.
  set (r0 := v0 j) in *. set (r1 := v1 j) in *. set (r2 := v2 j) in *. set (r3 := v3 j) in *.
  assert (EX : px = vx (g0 g) + X) by (unfold X; ring).
  unfold off in PX, PY. rewrite Y3 in PX, PY. clearbody r0 r1 r2 r3.
  apply v3_eta; cbn [vx vy vz].
  - rewrite <- PX, EX, <- QX. ring.
  - rewrite <- PY, EX, <- QX. ring.
  - replace (vz w) with (vz (g0 g) + Z) by (unfold Z; ring). rewrite <- QZ. ring.
Qed.

(** ** The wrist *)
Lemma elbow_RA : elbow_j3 RA K (v0 j) (v1 j) (v2 j) = joint3 g j.
Proof.
  unfold elbow_j3, joint3, joint2, joint1, link2, link1, link0, kin_new. v3. cbn [k_g]. ra.
  apply f_equal3_mk3; ring.
Qed.

Let t := link2_inv j (tool p ez).
Let y := link2_inv j (tool p ey).
Let r := vx (g3 g).
Let q := - vz (g4 g).
Lemma t_eq : link2 j t = tool p ez. Proof. apply link2_back. Qed.
Lemma y_eq : link2 j y = tool p ey. Proof. apply link2_back. Qed.
Lemma t_unit : dot3 t t = 1.
Proof. rewrite <- (rot_dot _ (rotation_link2 j)), t_eq. unfold tool. rewrite (rot_dot _ (rotation_orientation _ _ _)). v3. ring. Qed.
Lemma y_unit : dot3 y y = 1.
Proof. rewrite <- (rot_dot _ (rotation_link2 j)), y_eq. unfold tool. rewrite (rot_dot _ (rotation_orientation _ _ _)). v3. ring. Qed.
Lemma ty_orth : dot3 t y = 0.
Proof. rewrite <- (rot_dot _ (rotation_link2 j)), y_eq, t_eq. unfold tool. rewrite (rot_dot _ (rotation_orientation _ _ _)). v3. ring. Qed.

Lemma link2_lin c v : link2 j (scale3 c v) = scale3 c (link2 j v).
Proof. unfold link2, link1, link0. v3. apply f_equal3_mk3; ring. Qed.

Let j45 : vecR := vsub RA (mk3 (v0 p) (v1 p) (v2 p)) w.
Let j43 : vecR := vsub RA (joint3 g j) w.
Lemma j45_eq : j45 = link2 j (scale3 q t).
Proof.
  rewrite link2_lin, t_eq. unfold j45, vsub, w, wrist, position, q. ra. v3. apply f_equal3_mk3; ring.
Qed.
Lemma j43_eq : j43 = link2 j (mk3 (- r) 0 0).
Proof.
  destruct G as (Y3 & Z3 & _).
  unfold j43. rewrite <- joint4_eq. unfold vsub, joint4, link3, r. ra. rewrite Y3 || idtac.
  unfold link2, link1, link0. v3. rewrite Y3, Z3. apply f_equal3_mk3; ring.
Qed.
Lemma xy_eq : xy_vector RA (v0 j) = link2 j (mk3 0 10 0).
Proof.
  unfold xy_vector, half_pi, dnum, fnum. ra. rewrite !rdec_int.
  unfold link2, link1, link0. v3. rewrite cos_plus, sin_plus, cos_PI2, sin_PI2. apply f_equal3_mk3; ring.
Qed.
Lemma normal_eq : exists s, (s = 1 \/ s = -1) /\
  wrist_normal RA (v0 j) j45 j43 = link2 j (mk3 0 (- (s * (q * r) * vz t)) (s * (q * r) * vy t)).
Proof.
  unfold wrist_normal. rewrite cross_RA.
  assert (E : crossR j45 j43 = link2 j (mk3 0 (- (1 * (q * r) * vz t)) (1 * (q * r) * vy t))).
  { rewrite j45_eq, j43_eq, (rot_cross _ (rotation_link2 j)). f_equal. unfold crossR. v3. apply f_equal3_mk3; ring. }
  destruct dle.
  - exists (-1). split; [now right|]. unfold vneg. ra. rewrite E. unfold dnum. ra. rewrite rdec_int.
    unfold link2, link1, link0. v3. apply f_equal3_mk3; ring.
  - exists 1. split; [now left|exact E].
Qed.

Lemma solve3_def : v3 j = solve_r3 RA (v0 j) (wrist_normal RA (v0 j) j45 j43) j43.
Proof. unfold j45, j43. rewrite <- elbow_RA, <- wrist_RA. reflexivity. Qed.
Lemma solve4_def : v4 j = solve_r4 RA K (wrist_normal RA (v0 j) j45 j43) j45 j43.
Proof. unfold j45, j43. rewrite <- elbow_RA, <- wrist_RA. reflexivity. Qed.
Lemma solve5_def : v5 j = solve_r5 RA (wrist_normal RA (v0 j) j45 j43) (tool p ez) (tool p ey).
Proof. unfold j45, j43. rewrite <- elbow_RA, <- wrist_RA, <- target_z_RA, <- target_y_RA. reflexivity. Qed.

Lemma joints_eq : exists s n, (s = 1 \/ s = -1) /\
  v3 j = w3 t r q s /\ v4 j = w4 t r q s + IZR n * (2 * PI) /\ v5 j = w5 t y r q s.
Proof.
  destruct normal_eq as (s & S1 & N). destruct (clamp_cs (w4 t r q s)) as [n C]. exists s, n. split; [exact S1|].
  split; [|split].
  - transitivity (solve_r3 RA (v0 j) (wrist_normal RA (v0 j) j45 j43) j43).
    + exact solve3_def.
    + unfold solve_r3. rewrite cross_RA, N, xy_eq, j43_eq, (rot_cross _ (rotation_link2 j)), (angle_between_rot _ _ _ _ (rotation_link2 j)).
      reflexivity.
  - transitivity (solve_r4 RA K (wrist_normal RA (v0 j) j45 j43) j45 j43).
    + exact solve4_def.
    + unfold solve_r4. rewrite cross_RA, N, j45_eq, j43_eq, (rot_cross _ (rotation_link2 j)), (angle_between_rot _ _ _ _ (rotation_link2 j)).
      rewrite <- C. unfold kin_new, addd, half_pi, dnum, fnum. cbn [k_a4]. ra. rewrite !rdec_int.
      change (IZR (3 / 2)) with 1. unfold w4. rewrite Rplus_0_l, Rmult_1_l. reflexivity.
  - transitivity (solve_r5 RA (wrist_normal RA (v0 j) j45 j43) (tool p ez) (tool p ey)).
    + exact solve5_def.
    + unfold solve_r5. rewrite cross_RA, N, <- t_eq, <- y_eq, (rot_cross _ (rotation_link2 j)), (angle_between_rot _ _ _ _ (rotation_link2 j)).
      unfold fnum. ra. change (angle_between RA (mk3 0 (- (s * (q * r) * vz t)) (s * (q * r) * vy t)) y (crossR t y)) with (- - angle_between RA (mk3 0 (- (s * (q * r) * vz t)) (s * (q * r) * vy t)) y (crossR t y)) || idtac.
      fold (w5 t y r q s). 
      replace (rltb PI (w5 t y r q s)) with false; [reflexivity|]. symmetry. apply rltb_false.
      unfold w5. rewrite angle_between_RA.
      match goal with |- context [ratan2 ?a ?b] => pose proof (ratan2_range a b) as RG; pose proof (ratan2_nonneg a b (norm_nonneg _)) as RN end.
      destruct (sgn_cases (dot3 (crossR t y) (mk3 0 (- (s * (q * r) * vz t)) (s * (q * r) * vy t)))) as [[_ ->]|[_ ->]]; lra.
Qed.

Lemma flange_hand v : flange j v = link2 j (hand (v3 j) (v4 j) (v5 j) v).
Proof. reflexivity. Qed.

Lemma rq_pos : 0 < r /\ 0 < q.
Proof. destruct S. unfold r, q. lra. Qed.

Lemma solved_axis : flange j ez = tool p ez.
Proof.
  destruct rq_pos as [RP QP]. destruct joints_eq as (s & n & S1 & E3 & E4 & E5).
  rewrite flange_hand, hand_ez, E3, E4. destruct (cs_turns (w4 t r q s) n) as [-> ->].
  rewrite <- (hand_ez _ _ 0), (wrist_ez t r q s t_unit RP QP S1). apply t_eq.
Qed.

Lemma solved_tip : tip g j = position p.
Proof.
  destruct G as (_ & _ & X4 & Y4). unfold tip. rewrite joint4_eq.
  assert (E : link4 j (g4 g) = scale3 (- vz (g4 g)) (flange j ez)).
  { unfold flange, link4, link3, link2, link1, link0. v3. rewrite cos_PI, sin_PI, X4, Y4. apply f_equal3_mk3; ring. }
  rewrite E, solved_axis. unfold w, wrist, position. v3. apply f_equal3_mk3; ring.
Qed.

Lemma solved_singular : cos (v4 j) = 0 -> v3 j = 0 /\ v5 j = 0.
Proof.
  intros NS. destruct rq_pos as [RP QP]. pose proof joints_eq as (s & n & S1 & E3 & E4 & E5).
  assert (N : hd (vy t) (vz t) = 0).
  { rewrite E4 in NS. destruct (cs_turns (w4 t r q s) n) as [C _]. rewrite C in NS.
    destruct (w4_cs t r q s t_unit RP QP S1) as [_ CW]. rewrite CW in NS.
    destruct (sgn_cases (s * hd (vy t) (vz t))) as [[_ Q]|[_ Q]]; rewrite Q in NS; lra. }
  rewrite E3, E5. split; [now apply w3_singular|now apply w5_singular].
Qed.

Lemma solved_orientation : cos (v4 j) <> 0 -> forall v, flange j v = tool p v.
Proof.
  intros NS. destruct rq_pos as [RP QP]. pose proof joints_eq as (s & n & S1 & E3 & E4 & E5).
  apply rotation_ext; [apply rotation_flange|apply rotation_orientation| |apply solved_axis].
  assert (N : 0 < hd (vy t) (vz t)).
  { destruct (Rle_lt_or_eq_dec 0 (hd (vy t) (vz t)) (sqrt_pos _)) as [?|Z0]; auto. exfalso. apply NS.
    rewrite E4. destruct (cs_turns (w4 t r q s) n) as [-> _].
    destruct (w4_cs t r q s t_unit RP QP S1) as [_ ->]. rewrite <- Z0. ring. }
  rewrite flange_hand, hand_ey, E3, E4, E5. destruct (cs_turns (w4 t r q s) n) as [-> ->].
  rewrite <- hand_ey, (wrist_ey t y r q s t_unit y_unit ty_orth RP QP S1 N). apply y_eq.
Qed.
End Solve.
