(** * C40: the joint coupling of the shipped configurations. *)
From Verif Require Import Base Arith ServoModel RobotModel KinModel KinSpec KinProofs KinNan ConfigModel ConfigProofs.
From Coq Require Import Reals Lra.
Open Scope R_scope.

(** ** C40, mp-robot-kit *)
Theorem C40_kit : forall a : V6 R,
  kit_p2l RA (kit_l2p RA a) = a /\ kit_l2p RA (kit_p2l RA a) = a.
Proof.
  intros [a0 a1 a2 a3 a4 a5]. unfold kit_p2l, kit_l2p. cbn [v0 v1 v2 v3 v4 v5 fadd fsub RA F].
  split; f_equal; ring.
Qed.
Theorem C40_kit_current_physical : forall r : robot RA,
  current_physical RA (kit_l2p RA) (kit_p2l RA) r = servo_angles RA r.
Proof. intros r. unfold current_physical, current_logical. apply C40_kit. Qed.

(** ** C40, mp-robot-d: a four-bar linkage drives joint 2.
    Logical angles of joint 2 between -30 and 60 degrees (the configured limits are -25 and
    48): the conversion to servo angles is defined and converting back gives the same angles. *)
Theorem C40_d_logical : forall a : V6 R, - (PI / 6) <= v2 a <= PI / 3 ->
  exists b : V6 R, d_l2p NRA (some6 a) = some6 b /\ d_p2l NRA (some6 b) = some6 a.
Proof.
  intros a H. pose proof PI_RGT_0.
  destruct (forward_bar (v2 a + PI / 2)) as (A & B & C); [lra|].
  eexists. split; [apply d_l2p_N; exact A|].
  set (b := mk6 (v0 a) (v1 a) (to_servo (v2 a) + v1 a) (v3 a) (v4 a) (v5 a)).
  assert (E : PI / 2 - (v2 b - v1 b) = linkage 9.5 3.3 2.619 10.29 (v2 a + PI / 2)).
  { unfold b, to_servo. cbn [v1 v2]. ring. }
  rewrite d_p2l_N by (rewrite E; exact B). f_equal. unfold to_joint. rewrite E, C. unfold b. cbn [v0 v1 v3 v4 v5].
  destruct a as [a0 a1 a2 a3 a4 a5]. cbn [v0 v1 v2 v3 v4 v5]. f_equal. ring.
Qed.

(** the configured limits of joint 2 are inside that range *)
Lemma deg_RA n : deg RA n = IZR n * DEG_TO_RAD RA.
Proof.
  unfold deg, dnum. cbn [d2f dmul dopp ddec RA]. rewrite !rdec_int. destruct (Z.ltb_spec n 0); [|reflexivity].
  f_equal. rewrite opp_IZR. ring.
Qed.
Lemma DEG_bounds : 0.01745 <= DEG_TO_RAD RA <= 0.01746.
Proof.
  unfold DEG_TO_RAD. cbn [ddec RA]. unfold rdec.
  assert (E : powerRZ 10 (-33) = / 1000000000000000000000000000000000).
  { unfold powerRZ. replace (Pos.to_nat 33) with 33%nat by reflexivity. f_equal. cbn [pow]. ring. }
  rewrite E. lra.
Qed.
Theorem C40_d_within_limits : forall a : V6 R,
  fst (d_limit2 RA) <= v2 a <= snd (d_limit2 RA) ->
  exists b : V6 R, d_l2p NRA (some6 a) = some6 b /\ d_p2l NRA (some6 b) = some6 a.
Proof.
  intros a H. apply C40_d_logical. unfold d_limit2 in H. cbn [fst snd] in H. rewrite !deg_RA in H.
  pose proof DEG_bounds. pose proof PI2_3_2. lra.
Qed.

(** Servo angles whose distance to joint 1's is between -90 and 60 degrees: converting to
    logical angles and back gives the same angles. *)
Theorem C40_d_physical : forall b : V6 R, - (PI / 2) <= v2 b - v1 b <= PI / 3 ->
  exists a : V6 R, d_p2l NRA (some6 b) = some6 a /\ d_l2p NRA (some6 a) = some6 b.
Proof.
  intros b H. pose proof PI_RGT_0.
  destruct (backward_bar (PI / 2 - (v2 b - v1 b))) as (A & B & C); [lra|].
  eexists. split; [apply d_p2l_N; exact A|].
  set (a := mk6 (v0 b) (v1 b) (to_joint (v2 b - v1 b)) (v3 b) (v4 b) (v5 b)).
  assert (E : v2 a + PI / 2 = linkage 9.5 2.619 3.3 10.29 (PI / 2 - (v2 b - v1 b))).
  { unfold a, to_joint. cbn [v2]. ring. }
  rewrite d_l2p_N by (rewrite E; exact B). f_equal. unfold to_servo. rewrite E, C. unfold a. cbn [v0 v1 v3 v4 v5].
  destruct b as [b0 b1 b2 b3 b4 b5]. cbn [v0 v1 v2 v3 v4 v5]. f_equal. ring.
Qed.
(** and so the reported physical angles are the servos' *)
Theorem C40_d_current_physical : forall (r : robot NRA) (b : V6 R),
  servo_angles NRA r = some6 b -> - (PI / 2) <= v2 b - v1 b <= PI / 3 ->
  current_physical NRA (d_l2p NRA) (d_p2l NRA) r = servo_angles NRA r.
Proof.
  intros r b E H. destruct (C40_d_physical b H) as (a & A & B).
  unfold current_physical, current_logical. now rewrite E, A, B.
Qed.
Theorem C40_kit_no_nan : forall a : V6 R,
  kit_p2l NRA (kit_l2p NRA (some6 a)) = some6 a /\ kit_l2p NRA (kit_p2l NRA (some6 a)) = some6 a.
Proof.
  intros a. destruct (C40_kit a) as [X Y]. split.
  - rewrite <- X at 2. reflexivity.
  - rewrite <- Y at 2. reflexivity.
Qed.

(** joints 0, 1, 3, 4, 5 are not coupled *)
Theorem C40_other_joints : forall (A : arith) (a : V6 (F A)) (f : V6 (F A) -> V6 (F A)),
  In f [kit_l2p A; kit_p2l A; d_l2p A; d_p2l A] ->
  v0 (f a) = v0 a /\ v1 (f a) = v1 a /\ v3 (f a) = v3 a /\ v4 (f a) = v4 a /\ v5 (f a) = v5 a.
Proof.
  intros A a f H. cbn [In] in H. destruct H as [<-|[<-|[<-|[<-|[]]]]]; repeat split; reflexivity.
Qed.

Example C40_d_case : exists b, d_l2p NRA (some6 (mk6 0 0.3 0.5 0 0 0)) = some6 b.
Proof.
  destruct (C40_d_within_limits (mk6 0 0.3 0.5 0 0 0)) as (b & B & _); [|exists b; exact B].
  unfold d_limit2. cbn [fst snd v2]. rewrite !deg_RA. pose proof DEG_bounds. lra.
Qed.
