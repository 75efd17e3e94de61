(** * C41 in the arithmetic of the device.

    The kinematics computed in binary32 with correctly rounded +, -, *, and a libm whose sin and cos
    are accurate to 2^-22, compared with the exact chain of rotated links (KinSpec). *)
From Coq Require Import Reals Lra ZArith Lia Floats.SpecFloat.
From Flocq Require Import Core BinarySingleNaN.
From Verif Require Import Base Arith FloatBridge ServoFloat RobotModel KinModel KinSpec KinProofs PropKin KinFloat ConfigModel.
Open Scope Z_scope.

(** the [float] x is a finite number within d of r *)
Definition within (d : R) (x : spec_float) (r : R) : Prop := exists v : R, v32 x v /\ (Rabs (v - r) <= d)%R.
Definition within3 (d : R) (x : V3 spec_float) (r : V3 R) : Prop :=
  within d (vx x) (vx r) /\ within d (vy x) (vy r) /\ within d (vz x) (vz r).
(** no component is larger than M *)
Definition at_most (M : R) (r : V3 R) : Prop := (Rabs (vx r) <= M)%R /\ (Rabs (vy r) <= M)%R /\ (Rabs (vz r) <= M)%R.
(** the table of links holds the nominal lengths, rounded to [float]; none is longer than M *)
Definition table (M : R) (g : geom spec_float) (n : geom R) : Prop :=
  (within3 (M / 16777216) (g0 g) (g0 n) /\ at_most M (g0 n)) /\ (within3 (M / 16777216) (g1 g) (g1 n) /\ at_most M (g1 n)) /\
  (within3 (M / 16777216) (g2 g) (g2 n) /\ at_most M (g2 n)) /\ (within3 (M / 16777216) (g3 g) (g3 n) /\ at_most M (g3 n)) /\
  (within3 (M / 16777216) (g4 g) (g4 n) /\ at_most M (g4 n)).
(** the joint angles are finite numbers *)
Definition reads (j : V6 spec_float) (a : V6 R) : Prop :=
  v32 (v0 j) (v0 a) /\ v32 (v1 j) (v1 a) /\ v32 (v2 j) (v2 a) /\ v32 (v3 j) (v3 a) /\ v32 (v4 j) (v4 a) /\ v32 (v5 j) (v5 a).

Section Ieee.
Context (L : libm).
Notation A := (IEEE L).

Lemma apx_of M x r : (Rabs r <= M)%R -> within (M / 16777216) x r -> apx L M x r 1 1.
Proof. intros B (v & V & E). exists v. rewrite !Rmult_1_l. auto. Qed.

Lemma ok1 : okM 1.
Proof. unfold okM. lra. Qed.
End Ieee.

Lemma within_of (L : libm) M x r b e d : apx L M x r b e -> okM M -> (e <=? 1677) = true -> (M / 10000 <= d)%R -> within d x r.
Proof.
  intros H HM E D. destruct (apx_weaken L M x r b e 1677 HM H) as (v & V & B); [now apply Z.leb_le|].
  exists v. split; [exact V|]. unfold okM in HM. lra.
Qed.

Lemma within_of' (L : libm) M x r b e k d : apx L M x r b e -> okM M -> (e <=? k) = true -> (IZR k * (M / 16777216) <= d)%R -> within d x r.
Proof.
  intros H HM E D. destruct (apx_weaken L M x r b e k HM H) as (v & V & B); [now apply Z.leb_le|].
  exists v. split; [exact V|]. lra.
Qed.
Ltac num := vm_compute; split; intro; discriminate.
(** the error of a term of calculateCoordinates, operation by operation *)
Ltac err HL := repeat match goal with
  | |- apx _ _ (fadd _ _ _) _ _ _ => eapply apx_add; [assumption|..]
  | |- apx _ _ (fsub _ _ _) _ _ _ => eapply apx_sub; [assumption|..]
  | |- apx _ _ (fmul _ _ _) _ _ _ => eapply apx_mul; [assumption|..]
  | |- apx _ _ (fopp _ _) _ _ _ => eapply apx_opp
  | |- apx _ _ (fnum _ _) _ _ _ => eapply apx_zero; assumption
  | |- apx _ _ (fcos _ _) _ _ _ => eapply apx_cos; [exact HL|eassumption]
  | |- apx _ _ (fsin _ _) _ _ _ => eapply apx_sin; [exact HL|eassumption]
  | |- apx _ _ (vx _) _ _ _ => eassumption
  | |- apx _ _ (vy _) _ _ _ => eassumption
  | |- apx _ _ (vz _) _ _ _ => eassumption
  end.
Ltac entry HL := match goal with |- within (?M / ?k) _ _ =>
  eapply (within_of _ M); [err HL; num|assumption|vm_compute; reflexivity|lra] end.

Section Main.
Context (L : libm).
Notation A := (IEEE L).

(** *** every joint *)
Theorem C41_ieee_joints : forall (M : R) (g : geom (F A)) (n : geom R) (j : V6 (F A)) (a : V6 R),
  accurate L -> okM M -> table M g n -> reads j a ->
  let C := calculate_coordinates A (kin_new A g) j in
  let E := calculate_coordinates RA (kin_new RA n) a in
  within3 (M / 10000) (c_j0 _ C) (c_j0 _ E) /\ within3 (M / 10000) (c_j1 _ C) (c_j1 _ E) /\
  within3 (M / 10000) (c_j2 _ C) (c_j2 _ E) /\ within3 (M / 10000) (c_j3 _ C) (c_j3 _ E) /\
  within3 (M / 10000) (c_j4 _ C) (c_j4 _ E) /\ within3 (M / 10000) (c_j5 _ C) (c_j5 _ E).
Proof.
  intros M g n j a HL HM (G0 & G1 & G2 & G3 & G4) (R0 & R1 & R2 & R3 & R4 & R5).
  destruct G0 as ((X0 & Y0 & Z0) & (x0 & y0 & z0)). destruct G1 as ((X1 & Y1 & Z1) & (x1 & y1 & z1)).
  destruct G2 as ((X2 & Y2 & Z2) & (x2 & y2 & z2)). destruct G3 as ((X3 & Y3 & Z3) & (x3 & y3 & z3)). destruct G4 as ((X4 & Y4 & Z4) & (x4 & y4 & z4)).
  pose proof (apx_of L _ _ _ x0 X0) as A0. pose proof (apx_of L _ _ _ y0 Y0) as B0. pose proof (apx_of L _ _ _ z0 Z0) as C0.
  pose proof (apx_of L _ _ _ x1 X1) as A1. pose proof (apx_of L _ _ _ y1 Y1) as B1. pose proof (apx_of L _ _ _ z1 Z1) as C1.
  pose proof (apx_of L _ _ _ x2 X2) as A2. pose proof (apx_of L _ _ _ y2 Y2) as B2. pose proof (apx_of L _ _ _ z2 Z2) as C2.
  pose proof (apx_of L _ _ _ x3 X3) as A3. pose proof (apx_of L _ _ _ y3 Y3) as B3. pose proof (apx_of L _ _ _ z3 Z3) as C3.
  pose proof (apx_of L _ _ _ x4 X4) as A4. pose proof (apx_of L _ _ _ y4 Y4) as B4. pose proof (apx_of L _ _ _ z4 Z4) as C4.
  clear - HL HM R0 R1 R2 R3 R4 R5 A0 A1 A2 A3 A4 B0 B1 B2 B3 B4 C0 C1 C2 C3 C4. pose proof ok1 as HM1.
  unfold calculate_coordinates. cbv zeta. unfold within3. cbn [c_j0 c_j1 c_j2 c_j3 c_j4 c_j5 vx vy vz k_g kin_new].
  repeat apply conj. all: entry HL.
Qed.

(** the reported position is the tip of the chain of rotated links, up to a ten-thousandth of the largest
    link component *)
Theorem C41_ieee_position : forall (M : R) (g : geom (F A)) (n : geom R) (j : V6 (F A)) (a : V6 R),
  accurate L -> okM M -> table M g n -> reads j a ->
  let p := kin_forward A (kin_new A g) j in
  within (M / 10000) (v0 p) (vx (tip n a)) /\ within (M / 10000) (v1 p) (vy (tip n a)) /\ within (M / 10000) (v2 p) (vz (tip n a)).
Proof.
  intros M g n j a HL HM T Rj. cbv zeta. pose proof (C41_ieee_joints M g n j a HL HM T Rj) as H. cbv zeta in H.
  destruct H as (_ & _ & _ & _ & _ & H). rewrite <- (C41_position_is_tip n a). exact H.
Qed.

(** the matrix of the flange *)
Theorem C43_ieee_matrix : forall (g : geom (F A)) (j : V6 (F A)) (a : V6 R),
  accurate L -> reads j a ->
  let C := calculate_coordinates A (kin_new A g) j in
  within3 (1 / 30000) (c_m0 _ C) (mk3 (vx (flange a ex)) (vx (flange a ey)) (vx (flange a ez))) /\
  within3 (1 / 30000) (c_m1 _ C) (mk3 (vy (flange a ex)) (vy (flange a ey)) (vy (flange a ez))) /\
  within3 (1 / 30000) (c_m2 _ C) (mk3 (vz (flange a ex)) (vz (flange a ey)) (vz (flange a ez))).
Proof.
  intros g j a HL (R0 & R1 & R2 & R3 & R4 & R5). destruct (matrix_cols kit_geometry a) as (<- & <- & <-). pose proof ok1 as HM1.
  unfold calculate_coordinates. cbv zeta. unfold within3. cbn [c_m0 c_m1 c_m2 vx vy vz k_g kin_new].
  repeat apply conj.
  all: eapply (within_of' _ 1 _ _ _ _ 559); [err HL; num|assumption|vm_compute; reflexivity|lra].
Qed.
End Main.

(** *** distances *)
Lemma norm_le (u w : vecR) (d : R) : (Rabs (vx u - vx w) <= d)%R -> (Rabs (vy u - vy w) <= d)%R -> (Rabs (vz u - vz w) <= d)%R ->
  (norm3R u <= norm3R w + 2 * d)%R.
Proof.
  intros X Y Z. assert (D : (0 <= d)%R) by (pose proof (Rabs_pos (vx u - vx w)); lra).
  set (x := (vx u - vx w)%R) in *. set (y := (vy u - vy w)%R) in *. set (z := (vz u - vz w)%R) in *.
  assert (Ex : vx u = (vx w + x)%R) by (unfold x; ring). assert (Ey : vy u = (vy w + y)%R) by (unfold y; ring). assert (Ez : vz u = (vz w + z)%R) by (unfold z; ring).
  clearbody x y z. apply Rabs_bounds in X, Y, Z.
  assert (X2 : (x * x <= d * d)%R) by (apply neg_pos_Rsqr_le in X || nra; nra).
  assert (Y2 : (y * y <= d * d)%R) by nra. assert (Z2 : (z * z <= d * d)%R) by nra.
  set (nw := norm3R w). assert (N0 : (0 <= nw)%R) by apply sqrt_pos.
  assert (N2 : (nw * nw = vx w * vx w + vy w * vy w + vz w * vz w)%R).
  { unfold nw, norm3R. rewrite sqrt_sqrt; [reflexivity|]. unfold dot3. nra. }
  unfold norm3R. rewrite <- (sqrt_Rsqr (nw + 2 * d)) by lra. apply sqrt_le_1_alt. unfold Rsqr, dot3. rewrite Ex, Ey, Ez.
  assert (CS : (vx w * x + vy w * y + vz w * z <= nw * (2 * d))%R).
  { destruct (Rle_dec (vx w * x + vy w * y + vz w * z) 0) as [H|H].
    - assert (0 <= nw * (2 * d))%R by (apply Rmult_le_pos; lra). lra.
    - apply Rsqr_incr_0_var; [|apply Rmult_le_pos; lra]. unfold Rsqr.
      replace (nw * (2 * d) * (nw * (2 * d)))%R with ((nw * nw) * (4 * (d * d)))%R by ring. rewrite N2.
      apply Rle_trans with ((vx w * vx w + vy w * vy w + vz w * vz w) * (x * x + y * y + z * z))%R.
      + pose proof (Rle_0_sqr (vx w * y - vy w * x)). pose proof (Rle_0_sqr (vx w * z - vz w * x)). pose proof (Rle_0_sqr (vy w * z - vz w * y)).
        unfold Rsqr in *. nra.
      + apply Rmult_le_compat_l; nra. }
  nra.
Qed.
Lemma dist_near (p q u w : vecR) (d : R) :
  (Rabs (vx p - vx u) <= d)%R -> (Rabs (vy p - vy u) <= d)%R -> (Rabs (vz p - vz u) <= d)%R ->
  (Rabs (vx q - vx w) <= d)%R -> (Rabs (vy q - vy w) <= d)%R -> (Rabs (vz q - vz w) <= d)%R ->
  (Rabs (dist p q - dist u w) <= 4 * d)%R.
Proof.
  intros A1 A2 A3 B1 B2 B3. apply Rabs_bounds in A1, A2, A3, B1, B2, B3.
  assert (H1 : (dist p q <= dist u w + 2 * (2 * d))%R).
  { apply norm_le; unfold sub3; cbn [vx vy vz]; apply Rabs_le_of; lra. }
  assert (H2 : (dist u w <= dist p q + 2 * (2 * d))%R).
  { apply norm_le; unfold sub3; cbn [vx vy vz]; apply Rabs_le_of; lra. }
  apply Rabs_le_of. lra.
Qed.

Section Chain.
Context (L : libm).
Notation A := (IEEE L).
(** p is the point with the computed coordinates x *)
Definition point (x : V3 (F A)) (p : vecR) : Prop := v32 (vx x) (vx p) /\ v32 (vy x) (vy p) /\ v32 (vz x) (vz p).
Lemma point_of d x r : within3 d x r -> exists p, point x p /\ (Rabs (vx p - vx r) <= d)%R /\ (Rabs (vy p - vy r) <= d)%R /\ (Rabs (vz p - vz r) <= d)%R.
Proof.
  intros ((a & A1 & A2) & (b & B1 & B2) & (c & C1 & C2)). exists (mk3 a b c). unfold point. cbn [vx vy vz]. tauto.
Qed.

(** the computed joints are a chain with the configured link lengths, up to the rounding error *)
Theorem C41_ieee_rigid_chain : forall (M : R) (g : geom (F A)) (n : geom R) (j : V6 (F A)) (a : V6 R),
  accurate L -> okM M -> table M g n -> reads j a ->
  let C := calculate_coordinates A (kin_new A g) j in
  exists p0 p1 p2 p3 p4 p5 : vecR,
    point (c_j0 _ C) p0 /\ point (c_j1 _ C) p1 /\ point (c_j2 _ C) p2 /\ point (c_j3 _ C) p3 /\ point (c_j4 _ C) p4 /\ point (c_j5 _ C) p5 /\
    p0 = zero3 /\
    (Rabs (dist p1 p0 - norm3R (g0 n)) <= M / 2500)%R /\ (Rabs (dist p2 p1 - norm3R (g1 n)) <= M / 2500)%R /\
    (Rabs (dist p3 p2 - norm3R (g2 n)) <= M / 2500)%R /\ (Rabs (dist p4 p3 - norm3R (g3 n)) <= M / 2500)%R /\
    (Rabs (dist p5 p4 - norm3R (g4 n)) <= M / 2500)%R.
Proof.
  intros M g n j a HL HM T Rj. cbv zeta. pose proof (C41_ieee_joints L M g n j a HL HM T Rj) as H. cbv zeta in H.
  pose proof (C41_rigid_chain n a) as K. cbv zeta in K. destruct K as (K0 & <- & <- & <- & <- & <-).
  destruct H as (_ & H1 & H2 & H3 & H4 & H5).
  assert (HD : (0 <= M / 10000)%R) by (unfold okM in HM; lra).
  assert (P0 : point (c_j0 A (calculate_coordinates A (kin_new A g) j)) zero3).
  { unfold point, calculate_coordinates. cbv zeta. cbn [c_j0 vx vy vz]. split; [|split]; apply (v_int 0); lia. }
  apply point_of in H1, H2, H3, H4, H5.
  destruct H1 as (p1 & P1 & X1 & Y1 & Z1). destruct H2 as (p2 & P2 & X2 & Y2 & Z2). destruct H3 as (p3 & P3 & X3 & Y3 & Z3).
  destruct H4 as (p4 & P4 & X4 & Y4 & Z4). destruct H5 as (p5 & P5 & X5 & Y5 & Z5).
  exists zero3, p1, p2, p3, p4, p5. repeat (split; [assumption||reflexivity|]).
  replace (M / 2500)%R with (4 * (M / 10000))%R by field.
  split; [apply dist_near; try assumption; rewrite K0; rewrite Rminus_diag_eq by reflexivity; rewrite Rabs_R0; exact HD|].
  repeat (split; [apply dist_near; assumption|]). apply dist_near; assumption.
Qed.

(** *** the robot kit *)
Example C41_kit_table : table 13 (kit_geom A) kit_geometry.
Proof.
  unfold table, within3, at_most, kit_geometry. cbn [g0 g1 g2 g3 g4 vx vy vz].
  repeat apply conj; try (apply Rabs_le_of; lra).
  all: match goal with |- within _ ?x _ => exists (SF2R radix2 x); split; [lit|] end.
  all: apply Rabs_le_of; lits; lra.
Qed.
(** config/mp-robot-kit.h: the reported position of the kit is right to 0.0013 cm *)
Theorem C41_kit_position : forall (j : V6 (F A)) (a : V6 R), accurate L -> reads j a ->
  let p := kin_forward A (kin_new A (kit_geom A)) j in
  within (13 / 10000) (v0 p) (vx (tip kit_geometry a)) /\ within (13 / 10000) (v1 p) (vy (tip kit_geometry a)) /\
  within (13 / 10000) (v2 p) (vz (tip kit_geometry a)).
Proof.
  intros j a HL Rj. apply C41_ieee_position; auto. { unfold okM. lra. } exact C41_kit_table.
Qed.
End Chain.

(** *** a library with the required accuracy *)
Definition near_float (r : R) : spec_float := SpecFloat.binary_normalize 24 128 (Int_part (r * 1073741824)) (-30) false.
Lemma near_float_err (M r : R) : (0 <= M <= 4)%R -> (- M <= r <= M)%R ->
  exists v, v32 (near_float r) v /\ (Rabs (v - r) <= M / 16777216 + / 500000000)%R.
Proof.
  intros HM H. unfold near_float. set (m := Int_part (r * 1073741824)). pose proof (Int_part_bound (r * 1073741824)) as B. fold m in B.
  set (q := (IZR m * bpow radix2 (-30))%R). assert (Q : q = (IZR m / 1073741824)%R) by reflexivity.
  assert (D : (r - / 1073741824 <= q <= r)%R) by (rewrite Q; lra).
  assert (S : (Rabs q <= M + / 1073741824)%R) by (apply Rabs_le_of; lra).
  exists (r32 q). split. { apply (fv_normalize 24 128). apply r32_bound. eapply Rle_trans; [exact S|lra]. }
  pose proof (r32_near q _ S). pose proof tiny_small. apply Rabs_le_of. lra.
Qed.
Lemma near_float_ok r : (-1 <= r <= 1)%R -> exists v, v32 (near_float r) v /\ (Rabs (v - r) <= / 4194304)%R.
Proof.
  intros H. destruct (near_float_err 1 r) as (v & V & E); [lra|lra|]. exists v. split; [exact V|]. lra.
Qed.
(** the exact functions, rounded *)
Definition good_libm : libm := {|
  m_fsin := fun x => near_float (sin (SF2R radix2 x)); m_fcos := fun x => near_float (cos (SF2R radix2 x));
  m_facos := fun x => near_float (acos (SF2R radix2 x)); m_fasin := fun x => near_float (asin (SF2R radix2 x));
  m_fatan2 := fun y x => near_float (ratan2 (SF2R radix2 y) (SF2R radix2 x)); m_dsin := fun x => x; m_dcos := fun x => x;
  m_dacos := fun x => x; m_dfmod := fun x _ => x; m_datan2 := fun x _ => x |}.
Example C41_accurate_exists : accurate good_libm.
Proof.
  intros x r (b & <- & Fb & <-). cbn [m_fcos m_fsin good_libm]. rewrite SF2R_B2SF.
  destruct (near_float_ok (cos (B2R b)) (COS_bound _)) as (c & C1 & C2).
  destruct (near_float_ok (sin (B2R b)) (SIN_bound _)) as (s & S1 & S2). exists c, s. auto.
Qed.
(** the kit with its joints at one radian: within 0.0013 cm of the exact point *)
Example C41_kit_case : within (13 / 10000) (v0 (kin_forward (IEEE good_libm) (kin_new (IEEE good_libm) (kit_geom (IEEE good_libm)))
    (mk6 (fofz (IEEE good_libm) 1) (fofz (IEEE good_libm) 1) (fofz (IEEE good_libm) 1) (fofz (IEEE good_libm) 1) (fofz (IEEE good_libm) 1) (fofz (IEEE good_libm) 1))))
  (vx (tip kit_geometry (mk6 1 1 1 1 1 1)))%R.
Proof.
  refine (proj1 (C41_kit_position good_libm _ _ C41_accurate_exists _)). unfold reads. cbn [v0 v1 v2 v3 v4 v5].
  repeat (split; [apply (v_int 1); lia|]). apply (v_int 1). lia.
Qed.
