(** The wrist: joints 3, 4, 5, in the frame of the forearm. *)
From Verif Require Import Base Arith RobotModel KinModel KinSpec KinProofs KinEuler KinInv.
From Coq Require Import Reals Lra.
Open Scope R_scope.

(** the last three joints applied to a vector, in the forearm's frame *)
Definition hand (r3 r4 r5 : R) (v : vecR) : vecR := rotx r3 (roty r4 (roty PI (rotz r5 v))).
Lemma hand_ez r3 r4 r5 : hand r3 r4 r5 ez = mk3 (- sin r4) (sin r3 * cos r4) (- cos r3 * cos r4).
Proof. unfold hand; v3. rewrite cos_PI, sin_PI. apply f_equal3_mk3; ring. Qed.
Lemma hand_ey r3 r4 r5 : hand r3 r4 r5 ey =
  mk3 (sin r5 * cos r4) (cos r5 * cos r3 + sin r5 * (sin r3 * sin r4)) (cos r5 * sin r3 - sin r5 * (cos r3 * sin r4)).
Proof. unfold hand; v3. rewrite cos_PI, sin_PI. apply f_equal3_mk3; ring. Qed.

Lemma frame_decompose p q u v (y : vecR) : p * p + q * q = 1 -> u * u + v * v = 1 ->
  dot3 (mk3 (- v) (q * u) (- p * u)) y = 0 ->
  let a := dot3 (mk3 0 p q) y in let b := dot3 (mk3 u (q * v) (- p * v)) y in
  mk3 (b * u) (a * p + b * (q * v)) (a * q - b * (p * v)) = y.
Proof.
  intros P U O a b. unfold a, b in *. clear a b. destruct y as [y1 y2 y3]. v3.
  apply f_equal3_mk3.
  - transitivity ((u * u + v * v) * y1 + v * (- v * y1 + q * u * y2 + - p * u * y3)); [ring|rewrite U, O; ring].
  - transitivity (p * p * y2 + p * q * y3 + (u * u + v * v) * (q * q * y2 - p * q * y3)
        - u * q * (- v * y1 + q * u * y2 + - p * u * y3)); [ring|rewrite U, O].
    transitivity ((p * p + q * q) * y2); [ring|rewrite P; ring].
  - transitivity (q * q * y3 + p * q * y2 - (u * u + v * v) * (p * q * y2 - p * p * y3)
        + u * p * (- v * y1 + q * u * y2 + - p * u * y3)); [ring|rewrite U, O].
    transitivity ((p * p + q * q) * y3); [ring|rewrite P; ring].
Qed.

Section Wrist.
Context (t y : vecR) (r v4 s : R).
Hypothesis T1 : dot3 t t = 1.
Hypothesis Y1 : dot3 y y = 1.
Hypothesis TY : dot3 t y = 0.
Hypothesis RP : 0 < r.
Hypothesis VP : 0 < v4.
Hypothesis S1 : s = 1 \/ s = -1.

Let al := vx t. Let be := vy t. Let ga := vz t.
Let nu := hd be ga.
Let k := s * (v4 * r).
(** the wrist's normal, the direction across the arm and the direction back to the elbow *)
Let n := mk3 0 (- (k * ga)) (k * be).
Let ac := mk3 0 10 0.
Let back := mk3 (- r) 0 0.
Definition w3 : R := angle_between RA (mk3 0 (- (s * (v4 * r) * vz t)) (s * (v4 * r) * vy t)) (mk3 0 10 0)
                   (crossR (mk3 0 10 0) (mk3 (- r) 0 0)).
Definition w4 : R := PI / 2 - angle_between RA (scale3 v4 t) (mk3 (- r) 0 0)
                   (crossR (mk3 (- r) 0 0) (mk3 0 (- (s * (v4 * r) * vz t)) (s * (v4 * r) * vy t))).
Definition w5 : R := 0 - angle_between RA (mk3 0 (- (s * (v4 * r) * vz t)) (s * (v4 * r) * vy t)) y (crossR t y).

Lemma kr_pos : 0 < v4 * r.
Proof. now apply Rmult_lt_0_compat. Qed.
Lemma ss : s * s = 1.
Proof. destruct S1 as [-> | ->]; ring. Qed.
Lemma nu_nonneg : 0 <= nu.
Proof. apply sqrt_pos. Qed.
Lemma nu_sq : nu * nu = be * be + ga * ga.
Proof. apply sqrt_sqrt. nra. Qed.
Lemma al_nu : al * al + nu * nu = 1.
Proof. rewrite nu_sq. unfold al, be, ga. rewrite <- T1. unfold dot3. ring. Qed.
Lemma norm_n : norm3R n = v4 * r * nu.
Proof.
  pose proof kr_pos. pose proof nu_nonneg. pose proof ss.
  apply norm_unique; [now apply Rmult_le_pos; lra|].
  transitivity (v4 * r * (v4 * r) * (nu * nu)); [ring|]. rewrite nu_sq. unfold n, k. v3.
  transitivity (v4 * r * (v4 * r) * (s * s) * (be * be + ga * ga)); [rewrite H1; ring|ring].
Qed.
Lemma norm_ac : norm3R ac = 10.
Proof. apply norm_unique; [lra|]. unfold ac. v3. ring. Qed.
Lemma norm_back : norm3R back = r.
Proof. apply norm_unique; [lra|]. unfold back. v3. ring. Qed.
Lemma norm_t : norm3R (scale3 v4 t) = v4.
Proof. apply norm_unique; [lra|]. transitivity (v4 * v4 * dot3 t t); [rewrite T1; ring|v3; ring]. Qed.
Lemma norm_y : norm3R y = 1.
Proof. apply norm_unique; [lra|]. rewrite Y1. ring. Qed.

(** joint 4 *)
Lemma w4_cs : sin w4 = - al /\ cos w4 = sgn (s * nu) * nu.
Proof.
  pose proof kr_pos. pose proof nu_nonneg. pose proof nu_sq.
  destruct (angle_between_cs (scale3 v4 t) back (crossR back n)) as [C S];
    [rewrite norm_t; lra|rewrite norm_back; lra|].
  rewrite norm_t, norm_back in C, S.
  assert (E1 : dot3 (scale3 v4 t) back = - (v4 * r) * al) by (unfold back, al; v3; ring).
  assert (E2 : norm3R (crossR (scale3 v4 t) back) = v4 * r * nu).
  { apply norm_unique; [apply Rmult_le_pos; lra|]. transitivity (v4 * r * (v4 * r) * (nu * nu)); [ring|].
    rewrite H1. unfold crossR, back, be, ga. v3. ring. }
  assert (E3 : dot3 (crossR back n) (scale3 v4 t) = (s * nu) * (v4 * r * (v4 * r) * nu)).
  { transitivity (s * (v4 * r * (v4 * r)) * (nu * nu)); [|ring]. rewrite H1.
    unfold crossR, back, n, k, be, ga. v3. ring. }
  rewrite E1 in C. rewrite E2, E3 in S.
  assert (E4 : sgn (s * nu * (v4 * r * (v4 * r) * nu)) * nu = sgn (s * nu) * nu).
  { destruct (Req_dec nu 0) as [->|N]; [ring|]. f_equal.
    assert (0 < nu) by lra. assert (0 < v4 * r * (v4 * r) * nu) by (repeat apply Rmult_lt_0_compat; lra).
    destruct (sgn_cases (s * nu)) as [[P ->]|[P ->]]; destruct (sgn_cases (s * nu * (v4 * r * (v4 * r) * nu))) as [[Q ->]|[Q ->]];
      auto; exfalso; destruct S1 as [-> | ->]; nra. }
  unfold w4. change (mk3 0 (- (s * (v4 * r) * vz t)) (s * (v4 * r) * vy t)) with n. change (mk3 (- r) 0 0) with back.
  rewrite sin_shift, cos_shift, C, S. split.
  - field. lra.
  - transitivity (sgn (s * nu * (v4 * r * (v4 * r) * nu)) * nu); [field; lra|exact E4].
Qed.

(** joint 3, away from the singularity *)
Lemma w3_cs : 0 < nu -> cos w3 = - (s * ga) / nu /\ sin w3 = s * be / nu.
Proof.
  intros N. pose proof kr_pos. pose proof nu_sq. pose proof ss as SS.
  destruct (angle_between_cs n ac (crossR ac back)) as [C S];
    [rewrite norm_n; apply Rmult_lt_0_compat; lra|rewrite norm_ac; lra|].
  rewrite norm_n, norm_ac in C, S.
  assert (E1 : dot3 n ac = - 10 * k * ga) by (unfold n, ac; v3; ring).
  assert (E2 : norm3R (crossR n ac) = 10 * Rabs (k * be)).
  { apply norm_unique; [pose proof (Rabs_pos (k * be)); lra|].
    transitivity (100 * (Rabs (k * be) * Rabs (k * be))); [ring|]. rewrite <- Rabs_mult.
    rewrite Rabs_pos_eq by nra. unfold crossR, n, ac. v3. ring. }
  assert (E3 : sgn (dot3 (crossR ac back) n) = sgn (k * be)).
  { replace (dot3 (crossR ac back) n) with (10 * r * (k * be)) by (unfold crossR, n, ac, back; v3; ring).
    assert (0 < 10 * r) by lra.
    destruct (sgn_cases (k * be)) as [[P ->]|[P ->]]; destruct (sgn_cases (10 * r * (k * be))) as [[Q ->]|[Q ->]]; auto; exfalso; nra. }
  rewrite E1 in C. rewrite E2, E3 in S.
  unfold w3. change (mk3 0 (- (s * (v4 * r) * vz t)) (s * (v4 * r) * vy t)) with n.
  change (mk3 (- r) 0 0) with back. change (mk3 0 10 0) with ac. rewrite C, S. split.
  - unfold k. field. lra.
  - replace (sgn (k * be) * (10 * Rabs (k * be))) with (10 * (sgn (k * be) * Rabs (k * be))) by ring.
    rewrite sgn_abs. unfold k. field. lra.
Qed.

(** at the singularity joint 3 is zero *)
Lemma w3_singular : nu = 0 -> w3 = 0.
Proof.
  intros N. pose proof nu_sq as E. rewrite N in E.
  assert (be = 0 /\ ga = 0) as [B G] by (apply sum_sq_0; lra). unfold be in B. unfold ga in G.
  unfold w3. rewrite angle_between_RA, B, G.
  replace (mk3 0 (- (s * (v4 * r) * 0)) (s * (v4 * r) * 0)) with zero3 by (unfold zero3; apply f_equal3_mk3; ring).
  replace (norm3R (crossR zero3 (mk3 0 10 0))) with 0.
  2:{ symmetry. apply norm_unique; [lra|]. unfold crossR; v3; ring. }
  replace (dot3 zero3 (mk3 0 10 0)) with 0 by (v3; ring). rewrite ratan2_0. toR. ring.
Qed.

Lemma w5_singular : nu = 0 -> w5 = 0.
Proof.
  intros N. pose proof nu_sq as E. rewrite N in E.
  assert (be = 0 /\ ga = 0) as [B G] by (apply sum_sq_0; lra). unfold be in B. unfold ga in G.
  unfold w5. rewrite angle_between_RA, B, G.
  replace (mk3 0 (- (s * (v4 * r) * 0)) (s * (v4 * r) * 0)) with zero3 by (unfold zero3; apply f_equal3_mk3; ring).
  replace (norm3R (crossR zero3 y)) with 0.
  2:{ symmetry. apply norm_unique; [lra|]. unfold crossR; v3; ring. }
  replace (dot3 zero3 y) with 0 by (v3; ring). rewrite ratan2_0. toR. ring.
Qed.

(** joint 5, away from the singularity *)
Lemma w5_cs : 0 < nu -> cos w5 = dot3 n y / (v4 * r * nu) /\ sin w5 = - dot3 (crossR t y) n / (v4 * r * nu).
Proof.
  intros N. pose proof kr_pos. pose proof nu_sq.
  assert (P : 0 < v4 * r * nu) by (apply Rmult_lt_0_compat; lra).
  destruct (angle_between_cs n y (crossR t y)) as [C S]; [rewrite norm_n; lra|rewrite norm_y; lra|].
  rewrite norm_n, norm_y in C, S.
  assert (NT : dot3 n t = 0) by (unfold n, be, ga; v3; ring).
  assert (E2 : norm3R (crossR n y) = Rabs (dot3 (crossR t y) n)).
  { apply norm_unique; [apply Rabs_pos|]. rewrite <- Rabs_mult, Rabs_pos_eq by nra.
    transitivity (dot3 t t * dot3 n n * dot3 y y - dot3 t t * (dot3 n y * dot3 n y) - dot3 n t * dot3 n t * dot3 y y
                  - dot3 t y * dot3 t y * dot3 n n + 2 * dot3 n t * dot3 t y * dot3 n y).
    - unfold crossR. v3. ring.
    - rewrite T1, NT, TY. pose proof (lagrange n y). lra. }
  rewrite E2 in S. rewrite sgn_abs in S.
  unfold w5. change (mk3 0 (- (s * (v4 * r) * vz t)) (s * (v4 * r) * vy t)) with n.
  unfold Rminus. rewrite Rplus_0_l, cos_neg, sin_neg, C, S. split; field; lra.
Qed.

(** the tool's axis is always right *)
Lemma wrist_ez r5 : hand w3 w4 r5 ez = t.
Proof.
  rewrite hand_ez. destruct w4_cs as [S4 C4]. rewrite S4, C4. pose proof nu_nonneg as NN. pose proof nu_sq as NS. pose proof ss as SS.
  destruct (Req_dec nu 0) as [Z|Z].
  - assert (be = 0 /\ ga = 0) as [B G] by (apply sum_sq_0; rewrite <- NS, Z; ring).
    rewrite Z. apply v3_eta; cbn [vx vy vz]; fold al be ga; rewrite ?B, ?G; ring.
  - assert (N : 0 < nu) by lra. destruct (w3_cs N) as [C3 S3]. rewrite C3, S3.
    assert (G : sgn (s * nu) = s).
    { destruct (sgn_cases (s * nu)) as [[P ->]|[P ->]]; destruct S1 as [-> | ->]; auto; exfalso; lra. }
    rewrite G. apply v3_eta; cbn [vx vy vz]; fold al be ga.
    + ring.
    + transitivity (s * s * be); [field; lra|rewrite SS; ring].
    + transitivity (s * s * ga); [field; lra|rewrite SS; ring].
Qed.

(** and the whole orientation, away from the singularity *)
Lemma wrist_ey : 0 < nu -> hand w3 w4 w5 ey = y.
Proof.
  intros N. pose proof kr_pos. pose proof nu_sq as NS. pose proof ss as SS. pose proof al_nu as AN.
  destruct w4_cs as [S4 C4]. destruct (w3_cs N) as [C3 S3]. destruct (w5_cs N) as [C5 S5].
  pose proof (wrist_ez w5) as EZ. rewrite hand_ez in EZ.
  rewrite hand_ey. rewrite C5, S5.
  set (p := cos w3) in *. set (q := sin w3) in *. set (u := cos w4) in *. set (v := sin w4) in *.
  assert (P : p * p + q * q = 1) by apply cs1. assert (U : u * u + v * v = 1) by apply cs1.
  assert (EN : n = scale3 (v4 * r * nu) (mk3 0 p q)).
  { unfold n, k. unfold scale3. cbn [vx vy vz]. rewrite C3, S3. apply f_equal3_mk3; [ring|field; lra|field; lra]. }
  assert (ET : t = mk3 (- v) (q * u) (- p * u)) by (rewrite <- EZ; reflexivity).
  assert (A5 : dot3 n y / (v4 * r * nu) = dot3 (mk3 0 p q) y) by (rewrite EN; unfold dot3, scale3; cbn [vx vy vz]; field; split; lra).
  assert (B5 : - dot3 (crossR t y) n / (v4 * r * nu) = dot3 (mk3 u (q * v) (- p * v)) y).
  { rewrite EN, ET. unfold crossR. unfold dot3, scale3. cbn [vx vy vz].
    transitivity (vx y * (u * (p * p + q * q)) + vy y * (q * v) + vz y * (- p * v)); [field; split; lra|rewrite P; ring]. }
  rewrite A5, B5.
  pose proof (frame_decompose p q u v y P U) as FD. rewrite <- ET in FD. specialize (FD TY). exact FD.
Qed.
End Wrist.
