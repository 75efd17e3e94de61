(** Orientation angles: the code's Euler extraction inverts [orientation]. *)
From Verif Require Import Base Arith RobotModel KinModel KinSpec KinProofs.
From Coq Require Import Reals Lra.
Open Scope R_scope.

Definition crossR (u v : vecR) : vecR :=
  mk3 (vy u * vz v - vz u * vy v) (vz u * vx v - vx u * vz v) (vx u * vy v - vy u * vx v).

Ltac v3eq := apply (f_equal3 mk3).
Lemma f_equal3_mk3 (a b c a' b' c' : R) : a = a' -> b = b' -> c = c' -> mk3 a b c = mk3 a' b' c'.
Proof. now intros -> -> ->. Qed.
Lemma v3_eta (v w : vecR) : vx v = vx w -> vy v = vy w -> vz v = vz w -> v = w.
Proof. destruct v, w; cbn; now intros -> -> ->. Qed.

Lemma rotx_cross t u v : crossR (rotx t u) (rotx t v) = rotx t (crossR u v).
Proof.
  unfold crossR; v3. pose proof (cs1 t). apply f_equal3_mk3; [|ring|ring].
  transitivity ((cos t * cos t + sin t * sin t) * (vy u * vz v - vz u * vy v)); [ring|rewrite H; ring].
Qed.
Lemma roty_cross t u v : crossR (roty t u) (roty t v) = roty t (crossR u v).
Proof.
  unfold crossR; v3. pose proof (cs1 t). apply f_equal3_mk3; [ring| |ring].
  transitivity ((cos t * cos t + sin t * sin t) * (vz u * vx v - vx u * vz v)); [ring|rewrite H; ring].
Qed.
Lemma rotz_cross t u v : crossR (rotz t u) (rotz t v) = rotz t (crossR u v).
Proof.
  unfold crossR; v3. pose proof (cs1 t). apply f_equal3_mk3; [ring|ring|].
  transitivity ((cos t * cos t + sin t * sin t) * (vx u * vy v - vy u * vx v)); [ring|rewrite H; ring].
Qed.

(** a rotation: preserves dot and cross products, linear *)
Record rotation (f : vecR -> vecR) : Prop := {
  rot_dot : forall u v, dot3 (f u) (f v) = dot3 u v;
  rot_cross : forall u v, crossR (f u) (f v) = f (crossR u v);
  rot_lin : forall v, f v = add3 (add3 (scale3 (vx v) (f ex)) (scale3 (vy v) (f ey))) (scale3 (vz v) (f ez)) }.
Lemma rotation_x t : rotation (rotx t).
Proof. split; [apply rotx_dot|apply rotx_cross|]. intros v. v3. apply f_equal3_mk3; ring. Qed.
Lemma rotation_y t : rotation (roty t).
Proof. split; [apply roty_dot|apply roty_cross|]. intros v. v3. apply f_equal3_mk3; ring. Qed.
Lemma rotation_z t : rotation (rotz t).
Proof. split; [apply rotz_dot|apply rotz_cross|]. intros v. v3. apply f_equal3_mk3; ring. Qed.
Lemma rotation_comp f h : rotation f -> rotation h -> rotation (fun v => f (h v)).
Proof.
  intros F H. split; intros.
  - rewrite (rot_dot f F). apply (rot_dot h H).
  - rewrite (rot_cross f F). now rewrite (rot_cross h H).
  - rewrite (rot_lin h H v) at 1. rewrite !(rot_lin f F (h _)) at 1. rewrite (rot_lin f F (add3 _ _)).
    v3. apply f_equal3_mk3; ring.
Qed.
Lemma rotation_link4 j : rotation (link4 j).
Proof.
  unfold link4, link3, link2, link1, link0.
  apply (rotation_comp (rotz (v0 j)) (fun v => roty (v1 j) (roty (v2 j) (rotx (v3 j) (roty (v4 j) v))))); [apply rotation_z|].
  apply (rotation_comp (roty (v1 j)) (fun v => roty (v2 j) (rotx (v3 j) (roty (v4 j) v)))); [apply rotation_y|].
  apply (rotation_comp (roty (v2 j)) (fun v => rotx (v3 j) (roty (v4 j) v))); [apply rotation_y|].
  apply (rotation_comp (rotx (v3 j)) (roty (v4 j))); [apply rotation_x|apply rotation_y].
Qed.
Lemma rotation_flange j : rotation (flange j).
Proof.
  unfold flange. apply (rotation_comp (link4 j) (fun v => roty PI (rotz (v5 j) v))); [apply rotation_link4|].
  apply (rotation_comp (roty PI) (rotz (v5 j))); [apply rotation_y|apply rotation_z].
Qed.
Lemma rotation_orientation a b c : rotation (orientation a b c).
Proof.
  unfold orientation. apply (rotation_comp (rotx a) (fun v => roty b (rotz c v))); [apply rotation_x|].
  apply (rotation_comp (roty b) (rotz c)); [apply rotation_y|apply rotation_z].
Qed.
Lemma rotation_ext f h : rotation f -> rotation h -> f ey = h ey -> f ez = h ez -> forall v, f v = h v.
Proof.
  intros F H Y Z v. rewrite (rot_lin f F v), (rot_lin h H v), Y, Z.
  assert (X : f ex = h ex); [|now rewrite X].
  assert (E : ex = crossR ey ez) by (unfold crossR; v3; apply f_equal3_mk3; ring).
  rewrite E. rewrite <- (rot_cross f F), <- (rot_cross h H). now rewrite Y, Z.
Qed.

(** rows of a rotation *)
Lemma rotation_facts f : rotation f ->
  let m00 := vx (f ex) in let m01 := vx (f ey) in let m02 := vx (f ez) in
  let m10 := vy (f ex) in let m11 := vy (f ey) in let m12 := vy (f ez) in
  let m20 := vz (f ex) in let m21 := vz (f ey) in let m22 := vz (f ez) in
  m02 * m02 + m12 * m12 + m22 * m22 = 1 /\ m00 * m00 + m01 * m01 + m02 * m02 = 1 /\
  m00 * m02 + m10 * m12 + m20 * m22 = 0 /\ m01 * m02 + m11 * m12 + m21 * m22 = 0 /\
  m00 = m11 * m22 - m21 * m12 /\ m01 = m12 * m20 - m22 * m10 /\ m02 = m10 * m21 - m20 * m11 /\
  m10 = m21 * m02 - m01 * m22 /\ m11 = m22 * m00 - m02 * m20 /\ m12 = m20 * m01 - m00 * m21 /\
  m20 = m01 * m12 - m11 * m02 /\ m21 = m02 * m10 - m12 * m00 /\ m22 = m00 * m11 - m10 * m01.
Proof.
  intros H. cbv zeta.
  assert (D := rot_dot f H). assert (X := rot_cross f H).
  assert (X0 : f ex = crossR (f ey) (f ez)) by (rewrite X; f_equal; unfold crossR; v3; apply f_equal3_mk3; ring).
  assert (X1 : f ey = crossR (f ez) (f ex)) by (rewrite X; f_equal; unfold crossR; v3; apply f_equal3_mk3; ring).
  assert (X2 : f ez = crossR (f ex) (f ey)) by (rewrite X; f_equal; unfold crossR; v3; apply f_equal3_mk3; ring).
  assert (D0 := D ex ex). assert (D1 := D ey ey). assert (D2 := D ez ez).
  assert (D02 := D ex ez). assert (D12 := D ey ez).
  assert (P := fun v w : vecR => f_equal vx (x := v) (y := w)).
  pose proof (f_equal vx X0) as A0. pose proof (f_equal vy X0) as A1. pose proof (f_equal vz X0) as A2.
  pose proof (f_equal vx X1) as B0. pose proof (f_equal vy X1) as B1. pose proof (f_equal vz X1) as B2.
  pose proof (f_equal vx X2) as C0. pose proof (f_equal vy X2) as C1. pose proof (f_equal vz X2) as C2.
  clear X0 X1 X2 X D P H. unfold crossR in *. unfold dot3 in *. cbn [vx vy vz] in *.
  assert (E0 : vx ex * vx ex + vy ex * vy ex + vz ex * vz ex = 1) by (v3; ring).
  assert (E2 : vx ez * vx ez + vy ez * vy ez + vz ez * vz ez = 1) by (v3; ring).
  assert (E3 : vx ex * vx ez + vy ex * vy ez + vz ex * vz ez = 0) by (v3; ring).
  assert (E4 : vx ey * vx ez + vy ey * vy ez + vz ey * vz ez = 0) by (v3; ring).
  rewrite E0 in D0. rewrite E2 in D2. rewrite E3 in D02. rewrite E4 in D12. clear E0 E2 E3 E4 D1.
  destruct (f ex) as [m00 m10 m20]. destruct (f ey) as [m01 m11 m21]. destruct (f ez) as [m02 m12 m22].
  cbn [vx vy vz] in *.
  splits; try lra.
  (* row 0: expand the determinant along it *)
  transitivity (m00 * (m11 * m22 - m21 * m12) + m01 * (m12 * m20 - m22 * m10) + m02 * (m10 * m21 - m20 * m11)).
  - f_equal; [f_equal|]; f_equal; lra.
  - transitivity (m00 * (m11 * m22 - m21 * m12) + m10 * (m21 * m02 - m01 * m22) + m20 * (m01 * m12 - m11 * m02)); [ring|].
    transitivity (m00 * m00 + m10 * m10 + m20 * m20); [|exact D0].
    f_equal; [f_equal|]; f_equal; lra.
Qed.

Lemma sqrt_one_minus x : -1 < x < 1 -> 0 < sqrt (1 - x * x) /\ sqrt (1 - x * x) * sqrt (1 - x * x) = 1 - x * x.
Proof. intros H. split; [apply sqrt_lt_R0; nra|apply sqrt_sqrt; nra]. Qed.

Lemma sum_sq_0 x y : x * x + y * y = 0 -> x = 0 /\ y = 0.
Proof. intros H. split; nra. Qed.
Lemma unit_low x y z : x * x + y * y + z * z = 1 -> x <= -1 -> x = -1 /\ y = 0 /\ z = 0.
Proof.
  intros H L. assert (x = -1) by nra. subst. split; auto. apply sum_sq_0. lra.
Qed.
Lemma unit_high x y z : x * x + y * y + z * z = 1 -> 1 <= x -> x = 1 /\ y = 0 /\ z = 0.
Proof.
  intros H L. assert (x = 1) by nra. subst. split; auto. apply sum_sq_0. lra.
Qed.
Lemma nonzero_pair x y k : x * x + y * y = k -> 0 < k -> x <> 0 \/ y <> 0.
Proof.
  intros H K. destruct (Req_dec x 0) as [->|]; [right|now left]. intros ->. lra.
Qed.

Lemma orientation_ey a b c : orientation a b c ey =
  mk3 (- cos b * sin c) (cos a * cos c - sin a * sin b * sin c) (sin a * cos c + cos a * sin b * sin c).
Proof. unfold orientation; v3; apply f_equal3_mk3; ring. Qed.
Lemma orientation_ez a b c : orientation a b c ez = mk3 (sin b) (- sin a * cos b) (cos a * cos b).
Proof. unfold orientation; v3; apply f_equal3_mk3; ring. Qed.

(** the extracted angles describe the matrix *)
Lemma euler_correct f : rotation f ->
  let e := euler_angles RA (mk3 (vx (f ex)) (vx (f ey)) (vx (f ez)))
                           (mk3 (vy (f ex)) (vy (f ey)) (vy (f ez)))
                           (mk3 (vz (f ex)) (vz (f ey)) (vz (f ez))) in
  forall v, orientation (vx e) (vy e) (vz e) v = f v.
Proof.
  intros H e v. revert v.
  destruct (rotation_facts f H) as (N2 & N0 & O02 & O12 & C00 & C01 & C02 & C10 & C11 & C12 & C20 & C21 & C22).
  apply rotation_ext; [apply rotation_orientation|exact H| |];
    (rewrite orientation_ey || rewrite orientation_ez);
    subst e; unfold euler_angles; cbn [vx vy vz flt fnum fofz RA];
    destruct (f ex) as [m00 m10 m20]; destruct (f ey) as [m01 m11 m21]; destruct (f ez) as [m02 m12 m22];
    cbn [vx vy vz] in *;
    (destruct (rltb m02 1) eqn:L; [apply rltb_true in L; destruct (rltb (-1) m02) eqn:G; [apply rltb_true in G|apply rltb_false in G]|apply rltb_false in L]);
    unfold half_pi, dnum; cbn [vx vy vz fasin fatan2 fopp fofz d2f ddiv dopp dpi ddec RA];
    rewrite ?rdec_int.
  1,4: (* regular *)
    pose proof (sqrt_one_minus m02 (conj G L)) as [KP KK]; set (k := sqrt (1 - m02 * m02)) in *;
    assert (K2 : 0 < 1 - m02 * m02) by (rewrite <- KK; now apply Rmult_lt_0_compat);
    assert (NA : m22 <> 0 \/ - m12 <> 0) by (apply (nonzero_pair _ _ (1 - m02 * m02)); [lra|exact K2]);
    assert (NC : m00 <> 0 \/ - m01 <> 0) by (apply (nonzero_pair _ _ (1 - m02 * m02)); [lra|exact K2]);
    destruct (ratan2_cs _ _ NA) as [CA SA]; destruct (ratan2_cs _ _ NC) as [CC SC];
    replace (m22 * m22 + - m12 * - m12) with (1 - m02 * m02) in CA, SA by lra;
    replace (m00 * m00 + - m01 * - m01) with (1 - m02 * m02) in CC, SC by lra;
    fold k in CA, SA, CC, SC; rewrite CA, SA, ?CC, ?SC, sin_asin, cos_asin by lra;
    replace (sqrt (1 - m02²)) with k by reflexivity; clearbody k.
  - apply f_equal3_mk3.
    + field; lra.
    + apply (Rmult_eq_reg_r (k * k)); [|lra].
      transitivity (m22 * m00 - m12 * m02 * m01); [field; lra|]. rewrite KK.
      replace (1 - m02 * m02) with (m12 * m12 + m22 * m22) by lra.
      replace (m12 * m02 * m01) with (m12 * (m01 * m02)) by ring.
      replace (m01 * m02) with (- (m11 * m12 + m21 * m22)) by lra.
      rewrite C00. ring.
    + apply (Rmult_eq_reg_r (k * k)); [|lra].
      transitivity (- m12 * m00 - m22 * m02 * m01); [field; lra|]. rewrite KK.
      replace (1 - m02 * m02) with (m12 * m12 + m22 * m22) by lra.
      replace (m22 * m02 * m01) with (m22 * (m01 * m02)) by ring.
      replace (m01 * m02) with (- (m11 * m12 + m21 * m22)) by lra.
      rewrite C00. ring.
  - apply f_equal3_mk3; field; lra.
  - (* m02 = -1 *)
    destruct (unit_low _ _ _ N2 G) as (-> & -> & ->).
    assert (m21 = - m10) by lra. subst m21.
    assert (Q : m11 * m11 + m10 * m10 = 1) by (replace m20 with m11 in * by lra; lra).
    destruct (ratan2_cs m10 m11) as [CA SA]; [apply (nonzero_pair _ _ 1); lra|].
    rewrite Q, sqrt_1 in CA, SA. rewrite cos_neg, sin_neg, CA, SA.
    replace (- PI / 2) with (- (PI / 2)) by field. rewrite cos_neg, sin_neg, cos_PI2, sin_PI2, cos_0, sin_0.
    destruct (sum_sq_0 m00 m01) as [_ ->]; [lra|]. apply f_equal3_mk3; field.
  - destruct (unit_high _ _ _ N2 L) as (-> & -> & ->).
    assert (m21 = m10) by lra. subst m21.
    assert (Q : m11 * m11 + m10 * m10 = 1) by (replace m20 with (- m11) in * by lra; lra).
    destruct (ratan2_cs m10 m11) as [CA SA]; [apply (nonzero_pair _ _ 1); lra|].
    rewrite Q, sqrt_1 in CA, SA. rewrite CA, SA, cos_PI2, sin_PI2, cos_0, sin_0.
    destruct (sum_sq_0 m00 m01) as [_ ->]; [lra|]. apply f_equal3_mk3; field.
  - destruct (unit_low _ _ _ N2 G) as (-> & -> & ->).
    replace (- PI / 2) with (- (PI / 2)) by field. rewrite cos_neg, sin_neg, cos_PI2, sin_PI2.
    apply f_equal3_mk3; ring.
  - destruct (unit_high _ _ _ N2 L) as (-> & -> & ->).
    rewrite cos_PI2, sin_PI2. apply f_equal3_mk3; ring.
Qed.
