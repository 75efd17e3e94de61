(** The inverse kinematics in arithmetic with NaN: it succeeds exactly on the reachable poses. *)
From Verif Require Import Base Arith RobotModel KinModel KinSpec KinProofs KinEuler KinInv KinWrist KinSolve.
From Coq Require Import Reals Lra.
Open Scope R_scope.

Definition someK (k : kin RA) : kin NRA :=
  mkKin NRA (someG (k_g _ k)) (Some (k_v1 _ k)) (Some (k_v4 _ k)) (some3 (k_j1 _ k)) (Some (k_j4y _ k))
        (Some (k_a1 _ k)) (Some (k_a2 _ k)) (Some (k_a4 _ k)).

Lemma nsqrt_some a : 0 <= a -> nsqrt (Some a) = Some (sqrt a).
Proof. intros H. cbn. destruct Rle_dec; [reflexivity|lra]. Qed.
Lemma ndiv_some a b : b <> 0 -> ndiv (Some a) (Some b) = Some (a / b).
Proof. intros H. cbn. destruct Req_EM_T; [contradiction|reflexivity]. Qed.
Lemma ndiv_zero a : ndiv (Some a) (Some 0) = None.
Proof. cbn. destruct Req_EM_T; [reflexivity|contradiction]. Qed.
Lemma nacos_some a : -1 <= a <= 1 -> nacos (Some a) = Some (acos a).
Proof. intros [H1 H2]. cbn. destruct Rle_dec; [|lra]. destruct Rle_dec; [reflexivity|lra]. Qed.
Lemma nacos_none a : ~ (-1 <= a <= 1) -> nacos (Some a) = None.
Proof. intros H. cbn. destruct Rle_dec; [|reflexivity]. destruct Rle_dec; [lra|reflexivity]. Qed.

(** cosine with a checked quotient *)
Lemma nacos_div a b : b <> 0 -> -1 <= a / b <= 1 -> nacos (ndiv (Some a) (Some b)) = Some (acos (a / b)).
Proof. intros H1 H2. rewrite ndiv_some by exact H1. now apply nacos_some. Qed.
Lemma nacos_div_bad a b : ~ (b <> 0 /\ -1 <= a / b <= 1) -> nacos (ndiv (Some a) (Some b)) = None.
Proof.
  intros H. destruct (Req_EM_T b 0) as [->|N]; [now rewrite ndiv_zero|].
  rewrite ndiv_some by exact N. apply nacos_none. tauto.
Qed.

Lemma sum3_nonneg x y z : 0 <= x * x + y * y + z * z.
Proof. nra. Qed.
Lemma sum2_nonneg x y : 0 <= x * x + y * y.
Proof. nra. Qed.

Lemma half_pi_N : half_pi NRA = Some (half_pi RA).
Proof.
  unfold half_pi, dnum. cbn [ddiv dpi ddec NRA RA]. apply ndiv_some. rewrite rdec_int. lra.
Qed.
Lemma length2_N (a b : R) : length2 NRA (Some a) (Some b) = Some (length2 RA a b).
Proof. unfold length2. cbn -[nsqrt]. now rewrite nsqrt_some by apply sum2_nonneg. Qed.
Lemma length3_N (v : vecR) : length3 NRA (some3 v) = Some (length3 RA v).
Proof. unfold length3. cbn -[nsqrt]. now rewrite nsqrt_some by apply sum3_nonneg. Qed.
Lemma kin_new_N g : kin_new NRA (someG g) = someK (kin_new RA g).
Proof.
  unfold kin_new, someK. rewrite half_pi_N. cbn -[nsqrt half_pi]. rewrite !nsqrt_some by (apply sum2_nonneg || apply sum3_nonneg). reflexivity.
Qed.
Lemma cross_N (u v : vecR) : cross NRA (some3 u) (some3 v) = some3 (cross RA u v).
Proof. reflexivity. Qed.
Lemma angle_between_N (u v w : vecR) :
  angle_between NRA (some3 u) (some3 v) (some3 w) = Some (angle_between RA u v w).
Proof.
  unfold angle_between. rewrite cross_N, length3_N. cbn. destruct (rltb _ _); reflexivity.
Qed.

Lemma target_z_N (p : V6 R) : target_z NRA (some6 p) = some3 (target_z RA p).
Proof. reflexivity. Qed.
Lemma target_y_N (p : V6 R) : target_y NRA (some6 p) = some3 (target_y RA p).
Proof. reflexivity. Qed.
Lemma wrist_centre_N K (p : V6 R) : wrist_centre NRA (someK K) (some6 p) = some3 (wrist_centre RA K p).
Proof. reflexivity. Qed.
Lemma plane_x_N (a : R) (v : vecR) : plane_x NRA (Some a) (some3 v) = Some (plane_x RA a v).
Proof. reflexivity. Qed.
Lemma elbow_N K (a b c : R) : elbow_j3 NRA (someK K) (Some a) (Some b) (Some c) = some3 (elbow_j3 RA K a b c).
Proof. reflexivity. Qed.
Lemma vsub_N (u v : vecR) : vsub NRA (some3 u) (some3 v) = some3 (vsub RA u v).
Proof. reflexivity. Qed.
Lemma xy_N (a : R) : xy_vector NRA (Some a) = some3 (xy_vector RA a).
Proof. unfold xy_vector. rewrite half_pi_N. reflexivity. Qed.
Lemma normal_N (a : R) (u v : vecR) : wrist_normal NRA (Some a) (some3 u) (some3 v) = some3 (wrist_normal RA a u v).
Proof.
  unfold wrist_normal. rewrite half_pi_N, xy_N, !cross_N.
  change (mk3 (fnum NRA 0) (fnum NRA 0) (fnum NRA 1)) with (some3 (mk3 (fnum RA 0) (fnum RA 0) (fnum RA 1))).
  rewrite cross_N, angle_between_N. cbn -[angle_between cross half_pi]. destruct (rleb _ _); reflexivity.
Qed.
Lemma r3_N (a : R) (n v : vecR) : solve_r3 NRA (Some a) (some3 n) (some3 v) = Some (solve_r3 RA a n v).
Proof. unfold solve_r3. now rewrite xy_N, cross_N, angle_between_N. Qed.
Lemma r4_N K (n u v : vecR) : solve_r4 NRA (someK K) (some3 n) (some3 u) (some3 v) = Some (solve_r4 RA K n u v).
Proof. unfold solve_r4. rewrite cross_N, angle_between_N. reflexivity. Qed.
Lemma r5_N (n u v : vecR) : solve_r5 NRA (some3 n) (some3 u) (some3 v) = Some (solve_r5 RA n u v).
Proof.
  unfold solve_r5. rewrite cross_N, angle_between_N. cbn -[angle_between cross]. destruct (rltb _ _); reflexivity.
Qed.

(** joint 0 *)
Definition ok0 (K : kin RA) (J : vecR) : Prop :=
  length2 RA (- vy J) (vx J) <> 0 /\ -1 <= - k_j4y _ K / length2 RA (- vy J) (vx J) <= 1.
Lemma r0_N K (J : vecR) : (ok0 K J -> solve_r0 NRA (someK K) (some3 J) = Some (solve_r0 RA K J)) /\
  (~ ok0 K J -> solve_r0 NRA (someK K) (some3 J) = None).
Proof.
  unfold solve_r0. rewrite half_pi_N. split; intros H.
  - change (fopp NRA (vy (some3 J))) with (Some (- vy J)). change (vx (some3 J)) with (Some (vx J)). rewrite length2_N.
    destruct H as [H1 H2]. unfold addd. cbn -[nacos ndiv length2 half_pi]. rewrite nacos_div by assumption. reflexivity.
  - change (fopp NRA (vy (some3 J))) with (Some (- vy J)). change (vx (some3 J)) with (Some (vx J)). rewrite length2_N.
    unfold addd. cbn -[nacos ndiv length2 half_pi]. rewrite nacos_div_bad by exact H. reflexivity.
Qed.

(** joints 1 and 2 *)
Definition num1 (K : kin RA) (px pz : R) : R :=
  proj_sq RA K px pz - forearm_len RA K * forearm_len RA K + k_v1 _ K * k_v1 _ K.
Definition den1 (K : kin RA) (px pz : R) : R := 2 * sqrt (proj_sq RA K px pz) * k_v1 _ K.
Definition num2 (K : kin RA) (px pz : R) : R :=
  - proj_sq RA K px pz + forearm_len RA K * forearm_len RA K + k_v1 _ K * k_v1 _ K.
Definition den2 (K : kin RA) : R := 2 * forearm_len RA K * k_v1 _ K.
Definition ok1 K px pz : Prop := den1 K px pz <> 0 /\ -1 <= num1 K px pz / den1 K px pz <= 1.
Definition ok2 K px pz : Prop := den2 K <> 0 /\ -1 <= num2 K px pz / den2 K <= 1.

Lemma forearm_N K : forearm_len NRA (someK K) = Some (forearm_len RA K).
Proof. unfold forearm_len. apply (length2_N (vx (g2 (k_g _ K)) + vx (g3 (k_g _ K))) (vz (g2 (k_g _ K)) + vz (g3 (k_g _ K)))). Qed.
Lemma proj_N K (px pz : R) : proj_sq NRA (someK K) (Some px) (Some pz) = Some (proj_sq RA K px pz).
Proof. reflexivity. Qed.
Lemma proj_nonneg K (px pz : R) : 0 <= proj_sq RA K px pz.
Proof.
  unfold proj_sq, KinModel.sq.
  change (0 <= (px - vx (k_j1 _ K)) * (px - vx (k_j1 _ K)) + (pz - vz (k_j1 _ K)) * (pz - vz (k_j1 _ K))).
  pose proof (Rle_0_sqr (px - vx (k_j1 _ K))). pose proof (Rle_0_sqr (pz - vz (k_j1 _ K))). unfold Rsqr in *. lra.
Qed.
Lemma r1_N K (px pz : R) : (ok1 K px pz -> solve_r1 NRA (someK K) (Some px) (Some pz) = Some (solve_r1 RA K px pz)) /\
  (~ ok1 K px pz -> solve_r1 NRA (someK K) (Some px) (Some pz) = None).
Proof.
  unfold solve_r1, subd. rewrite forearm_N, proj_N. cbn [fsqrt NRA]. rewrite nsqrt_some by apply proj_nonneg.
  assert (E2 : rdec false 2 0 = 2) by apply rdec_int.
  split; intros H.
  - cbn -[nacos ndiv forearm_len proj_sq]. rewrite E2. destruct H as [H1 H2].
    rewrite nacos_div by assumption. cbn -[forearm_len proj_sq]. rewrite ?E2. reflexivity.
  - cbn -[nacos ndiv forearm_len proj_sq]. rewrite E2. rewrite nacos_div_bad by exact H. reflexivity.
Qed.
Lemma r2_N K (px pz : R) : (ok2 K px pz -> solve_r2 NRA (someK K) (Some px) (Some pz) = Some (solve_r2 RA K px pz)) /\
  (~ ok2 K px pz -> solve_r2 NRA (someK K) (Some px) (Some pz) = None).
Proof.
  unfold solve_r2, subd. rewrite forearm_N, proj_N.
  assert (E2 : rdec false 2 0 = 2) by apply rdec_int.
  split; intros H.
  - cbn -[nacos ndiv forearm_len proj_sq]. rewrite E2. destruct H as [H1 H2].
    rewrite nacos_div by assumption. cbn -[forearm_len proj_sq]. rewrite ?E2. reflexivity.
  - cbn -[nacos ndiv forearm_len proj_sq]. rewrite E2. rewrite nacos_div_bad by exact H. reflexivity.
Qed.

Lemma isnan_some x : fisnan NRA (Some x) = false.
Proof. unfold fisnan. cbn. now rewrite reqb_refl. Qed.
Lemma isnan_none : fisnan NRA None = true.
Proof. reflexivity. Qed.

(** the wrist angles, given the first three *)
Definition tail6 (A : arith) (K : kin A) (po : V6 (F A)) (J4 : V3 (F A)) (R0 R1 R2 : F A) : V6 (F A) :=
  let j45 := vsub A (mk3 (v0 po) (v1 po) (v2 po)) J4 in
  let j43 := vsub A (elbow_j3 A K R0 R1 R2) J4 in
  let n := wrist_normal A R0 j45 j43 in
  mk6 R0 R1 R2 (solve_r3 A R0 n j43) (solve_r4 A K n j45 j43) (solve_r5 A n (target_z A po) (target_y A po)).
Lemma tail6_N K (p : V6 R) (w : vecR) (a b c : R) :
  tail6 NRA (someK K) (some6 p) (some3 w) (Some a) (Some b) (Some c) = some6 (tail6 RA K p w a b c).
Proof.
  unfold tail6. cbv zeta. rewrite elbow_N.
  match goal with |- context [vsub NRA (mk3 ?a ?b ?c) ?u] =>
    change (vsub NRA (mk3 a b c) u) with (some3 (vsub RA (mk3 (v0 p) (v1 p) (v2 p)) w)) end.
  rewrite vsub_N, normal_N, r3_N, r4_N, target_z_N, target_y_N, r5_N. reflexivity.
Qed.

Section Inverse.
Context (g : geom R) (p : V6 R).
Notation K := (kin_new RA g).
Let w : vecR := wrist_centre RA K p.
Let R0 : R := solve_r0 RA K w.
Let px : R := plane_x RA R0 w.
Definition all_ok : Prop := ok0 K w /\ ok1 K px (vz w) /\ ok2 K px (vz w).

Lemma solve_RA_eq : kin_solve RA K p = tail6 RA K p w R0 (solve_r1 RA K px (vz w)) (solve_r2 RA K px (vz w)).
Proof. reflexivity. Qed.
Lemma solve_N_eq : kin_solve NRA (someK K) (some6 p) =
  let r0 := solve_r0 NRA (someK K) (some3 w) in
  let x := plane_x NRA r0 (some3 w) in
  tail6 NRA (someK K) (some6 p) (some3 w) r0
    (solve_r1 NRA (someK K) x (Some (vz w))) (solve_r2 NRA (someK K) x (Some (vz w))).
Proof. unfold kin_solve, tail6. cbv zeta. rewrite wrist_centre_N. reflexivity. Qed.

Lemma solve_N_steps (r0 x r1 r2 : option R) :
  solve_r0 NRA (someK K) (some3 w) = r0 -> plane_x NRA r0 (some3 w) = x ->
  solve_r1 NRA (someK K) x (Some (vz w)) = r1 -> solve_r2 NRA (someK K) x (Some (vz w)) = r2 ->
  kin_solve NRA (someK K) (some6 p) = tail6 NRA (someK K) (some6 p) (some3 w) r0 r1 r2.
Proof. intros <- <- <- <-. apply solve_N_eq. Qed.

Lemma existsb_some6 (v : V6 R) : existsb (fisnan NRA) (list6 (some6 v)) = false.
Proof. unfold list6, some6, map6. cbn [existsb v0 v1 v2 v3 v4 v5]. now rewrite !isnan_some. Qed.

Lemma inverse_N (out : V6 (option R)) :
  (all_ok -> kin_inverse NRA (kin_new NRA (someG g)) (some6 p) out = (0%Z, some6 (kin_solve RA K p))) /\
  (~ all_ok -> kin_inverse NRA (kin_new NRA (someG g)) (some6 p) out = (1%Z, out)).
Proof.
  assert (classic_ok0 : ok0 K w \/ ~ ok0 K w).
  { unfold ok0. destruct (Req_EM_T (length2 RA (- vy w) (vx w)) 0); [right; tauto|].
    destruct (Rle_dec (-1) (- k_j4y _ K / length2 RA (- vy w) (vx w))); [|right; lra].
    destruct (Rle_dec (- k_j4y _ K / length2 RA (- vy w) (vx w)) 1); [left; tauto|right; lra]. }
  assert (classic_ok1 : ok1 K px (vz w) \/ ~ ok1 K px (vz w)).
  { unfold ok1. destruct (Req_EM_T (den1 K px (vz w)) 0); [right; tauto|].
    destruct (Rle_dec (-1) (num1 K px (vz w) / den1 K px (vz w))); [|right; lra].
    destruct (Rle_dec (num1 K px (vz w) / den1 K px (vz w)) 1); [left; tauto|right; lra]. }
  unfold kin_inverse. rewrite kin_new_N.
  destruct (r0_N K w) as [A0 B0]. destruct (r1_N K px (vz w)) as [A1 B1]. destruct (r2_N K px (vz w)) as [A2 B2].
  split.
  - intros (O0 & O1 & O2).
    rewrite (solve_N_steps (Some R0) (Some px) (Some (solve_r1 RA K px (vz w))) (Some (solve_r2 RA K px (vz w)))
              (A0 O0) (plane_x_N R0 w) (A1 O1) (A2 O2)).
    rewrite tail6_N, <- solve_RA_eq, existsb_some6. reflexivity.
  - intros N.
    destruct classic_ok0 as [O0|O0].
    2:{ rewrite (solve_N_steps None _ _ _ (B0 O0) eq_refl eq_refl eq_refl).
        unfold list6 at 1, tail6 at 1. cbn [existsb v0]. now rewrite isnan_none. }
    destruct classic_ok1 as [O1|O1].
    2:{ rewrite (solve_N_steps (Some R0) (Some px) None _ (A0 O0) (plane_x_N R0 w) (B1 O1) eq_refl).
        unfold list6 at 1, tail6 at 1 2. cbn [existsb v0 v1]. now rewrite isnan_none, orb_true_r. }
    assert (O2 : ~ ok2 K px (vz w)) by (intros O2; exact (N (conj O0 (conj O1 O2)))).
    rewrite (solve_N_steps (Some R0) (Some px) _ None (A0 O0) (plane_x_N R0 w) eq_refl (B2 O2)).
    unfold list6 at 1, tail6 at 1 2 3. cbn [existsb v0 v1 v2]. now rewrite isnan_none, !orb_true_r.
Qed.
End Inverse.
