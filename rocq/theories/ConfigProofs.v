From Verif Require Import Base Arith RobotModel KinModel KinSpec KinProofs KinInv KinSolve KinNan KinReach ConfigModel.
From Coq Require Import Reals Lra Psatz.
Open Scope R_scope.

(** ** A four-bar linkage
    Corners O = (0,0), A = (v,0); crank a turns about A, crank b about O; c joins their ends. *)
Definition diag (v a x : R) : R := sqrt (v * v - 2 * v * a * cos x + a * a).
Definition num_b (v a b c x : R) : R := - c * c + b * b + diag v a x * diag v a x.
Definition num_v (v a x : R) : R := - a * a + v * v + diag v a x * diag v a x.
Definition linkage (v a b c x : R) : R :=
  acos (num_b v a b c x / (2 * b * diag v a x)) + acos (num_v v a x / (2 * v * diag v a x)).
(** the same in arithmetic with NaN *)
Definition linkage_ok (v a b c x : R) : Prop :=
  diag v a x <> 0 /\ -1 <= num_b v a b c x / (2 * b * diag v a x) <= 1 /\
  -1 <= num_v v a x / (2 * v * diag v a x) <= 1.

Lemma diag_sq v a x : diag v a x * diag v a x = v * v - 2 * v * a * cos x + a * a.
Proof.
  unfold diag. apply sqrt_sqrt. pose proof (cs1 x).
  replace (v * v - 2 * v * a * cos x + a * a) with ((v - a * cos x) * (v - a * cos x) + (a * sin x) * (a * sin x)).
  - apply sum2_nonneg.
  - transitivity (v * v - 2 * v * a * cos x + a * a * (cos x * cos x + sin x * sin x)); [ring|rewrite H; ring].
Qed.

Section Bar.
Context (v a b c x : R).
Hypothesis PV : 0 < v.
Hypothesis PA : 0 < a.
Hypothesis PB : 0 < b.
Hypothesis PX : 0 <= x <= PI.
Let d := diag v a x.
Hypothesis PD : 0 < d.

(** angle at O between the base and the diagonal *)
Let b2 := acos (num_v v a x / (2 * v * d)).
Let b1 := acos (num_b v a b c x / (2 * b * d)).
Lemma b2_arg : num_v v a x / (2 * v * d) = (v - a * cos x) / d.
Proof. unfold num_v. fold d. unfold d at 1 2. rewrite diag_sq. fold d. field. lra. Qed.
Lemma b2_range : -1 <= num_v v a x / (2 * v * d) <= 1.
Proof.
  rewrite b2_arg. apply quot_iff; [exact PD|].
  assert (E : d * d = (v - a * cos x) * (v - a * cos x) + (a * sin x) * (a * sin x)).
  { unfold d. rewrite diag_sq. pose proof (cs1 x).
    transitivity (v * v - 2 * v * a * cos x + a * a * (cos x * cos x + sin x * sin x)); [rewrite H; ring|ring]. }
  split; nra.
Qed.
Lemma b2_cs : d * cos b2 = v - a * cos x /\ d * sin b2 = a * sin x.
Proof.
  assert (C : cos b2 = (v - a * cos x) / d) by (unfold b2; rewrite cos_acos by apply b2_range; apply b2_arg).
  assert (E1 : d * cos b2 = v - a * cos x) by (rewrite C; field; lra). split; [exact E1|].
  assert (S0 : 0 <= sin b2) by (destruct (acos_bound (num_v v a x / (2 * v * d))); apply sin_ge_0; assumption).
  assert (S1 : 0 <= sin x) by (apply sin_ge_0; lra).
  assert (E : d * d = (v - a * cos x) * (v - a * cos x) + (a * sin x) * (a * sin x)).
  { unfold d. rewrite diag_sq. pose proof (cs1 x).
    transitivity (v * v - 2 * v * a * cos x + a * a * (cos x * cos x + sin x * sin x)); [rewrite H; ring|ring]. }
  pose proof (cs1 b2) as Q.
  assert (E2 : (d * sin b2) * (d * sin b2) = (a * sin x) * (a * sin x)).
  { transitivity (d * d * (cos b2 * cos b2 + sin b2 * sin b2) - (d * cos b2) * (d * cos b2)); [ring|rewrite Q, E1; lra]. }
  assert (0 <= d * sin b2) by nra. assert (0 <= a * sin x) by nra. nra.
Qed.

Hypothesis B1 : -1 <= num_b v a b c x / (2 * b * d) <= 1.
Let y := linkage v a b c x.
Hypothesis PY : y <= PI.
Let e := diag v b y.
Hypothesis PE : 0 < e.
Let a2 := acos (num_v v b y / (2 * v * e)).
Hypothesis A2 : a2 <= x.

Lemma y_nonneg : 0 <= y.
Proof. unfold y, linkage. pose proof (acos_bound (num_b v a b c x / (2 * b * diag v a x))). pose proof (acos_bound (num_v v a x / (2 * v * diag v a x))). lra. Qed.

(** the coupler has length c: the cosine rule at O *)
Lemma coupler : c * c = (v - a * cos x - b * cos y) * (v - a * cos x - b * cos y) + (a * sin x - b * sin y) * (a * sin x - b * sin y).
Proof.
  destruct b2_cs as [C2 S2].
  assert (C1 : cos b1 = num_b v a b c x / (2 * b * d)) by (apply cos_acos; exact B1).
  assert (Y : y = b1 + b2) by reflexivity.
  assert (C1' : 2 * b * (d * cos b1) = - c * c + b * b + d * d).
  { rewrite C1. unfold num_b. fold d. field. lra. }
  assert (P : d * cos b1 = (v - a * cos x) * cos y + (a * sin x) * sin y).
  { rewrite <- C2, <- S2. replace b1 with (y - b2) by (rewrite Y; ring). rewrite cos_minus. ring. }
  assert (D : d * d = (v - a * cos x) * (v - a * cos x) + (a * sin x) * (a * sin x)).
  { rewrite <- C2, <- S2. pose proof (cs1 b2) as Q. transitivity (d * d * (cos b2 * cos b2 + sin b2 * sin b2)); [rewrite Q; ring|ring]. }
  pose proof (cs1 y) as Q. rewrite P, D in C1'.
  transitivity (b * b * (cos y * cos y + sin y * sin y) + ((v - a * cos x) * (v - a * cos x) + a * sin x * (a * sin x))
                - 2 * b * ((v - a * cos x) * cos y + a * sin x * sin y)); [rewrite Q, C1'; ring|ring].
Qed.
End Bar.

Section Back.
Context (v a b c x : R).
Hypothesis PV : 0 < v.
Hypothesis PA : 0 < a.
Hypothesis PB : 0 < b.
Hypothesis PX : 0 <= x <= PI.
Hypothesis PD : 0 < diag v a x.
Hypothesis B1 : -1 <= num_b v a b c x / (2 * b * diag v a x) <= 1.
Let y := linkage v a b c x.
Hypothesis PY : y <= PI.
Hypothesis PE : 0 < diag v b y.
Hypothesis A2 : acos (num_v v b y / (2 * v * diag v b y)) <= x.

Lemma linkage_back : linkage_ok v b a c y /\ linkage v b a c y = x.
Proof.
  assert (Y0 : 0 <= y <= PI) by (split; [apply y_nonneg|exact PY]).
  pose proof (coupler v a b c x PV PA PB PX PD B1) as CP. fold y in CP.
  pose proof (b2_cs v b y PV PB Y0 PE) as [C2 S2]. pose proof (b2_range v b y PV PE) as R2.
  set (e := diag v b y) in *. set (a2 := acos (num_v v b y / (2 * v * e))) in *.
  assert (AB : 0 <= a2) by apply acos_bound.
  assert (E : num_b v b a c y = 2 * a * e * cos (x - a2)).
  { unfold num_b. fold e. rewrite cos_minus.
    assert (D : e * e = (v - b * cos y) * (v - b * cos y) + (b * sin y) * (b * sin y)).
    { rewrite <- C2, <- S2. pose proof (cs1 a2) as Q. transitivity (e * e * (cos a2 * cos a2 + sin a2 * sin a2)); [rewrite Q; ring|ring]. }
    transitivity (2 * a * (cos x * (e * cos a2) + sin x * (e * sin a2))); [|ring].
    rewrite C2, S2, D. replace (- c * c) with (- (c * c)) by ring. rewrite CP. pose proof (cs1 x) as Q.
    transitivity (a * a - a * a * (cos x * cos x + sin x * sin x) + 2 * a * (cos x * (v - b * cos y) + sin x * (b * sin y))); [ring|rewrite Q; ring]. }
  assert (EQ : num_b v b a c y / (2 * a * e) = cos (x - a2)) by (rewrite E; field; lra).
  split.
  - unfold linkage_ok. fold e. split; [lra|]. split; [|exact R2]. rewrite EQ. apply COS_bound.
  - unfold linkage. fold e. rewrite EQ. fold a2. rewrite acos_cos by lra. ring.
Qed.
End Back.

(** ** The numbers of mp-robot-d.h *)
Lemma acos_le_by_cos t x : -1 <= t <= 1 -> 0 <= x <= PI -> cos x <= t -> acos t <= x.
Proof.
  intros T X C. rewrite <- (cos_acos t T) in C. pose proof (acos_bound t).
  destruct (Rle_dec (acos t) x) as [|N]; auto. exfalso.
  assert (cos (acos t) < cos x) by (apply cos_decreasing_1; lra). lra.
Qed.
Lemma acos_sum_le_PI s t : -1 <= s <= 1 -> -1 <= t <= 1 -> 0 <= s + t -> acos s + acos t <= PI.
Proof.
  intros S T H. pose proof (acos_bound t). assert (acos s <= PI - acos t); [|lra].
  apply acos_le_by_cos; [exact S|lra|]. replace (PI - acos t) with (- acos t + PI) by ring.
  rewrite neg_cos, cos_neg, cos_acos by exact T. lra.
Qed.
Lemma sqrt_bounds a lo hi : 0 <= lo -> 0 <= hi -> lo * lo <= a -> a <= hi * hi -> lo <= sqrt a <= hi.
Proof.
  intros L H A B. split.
  - rewrite <- (sqrt_square lo) by exact L. apply sqrt_le_1_alt. exact A.
  - rewrite <- (sqrt_square hi) by exact H. apply sqrt_le_1_alt. exact B.
Qed.
Lemma sqrt3_bounds : 1.73 <= sqrt 3 <= 1.74.
Proof. apply sqrt_bounds; lra. Qed.

Lemma frac_sum_nonneg n k m d : 0 < d -> 0 < k -> 0 <= n / k + m -> 0 <= n / (k * d) + m / d.
Proof.
  intros D K H. replace (n / (k * d) + m / d) with ((n / k + m) / d) by (field; lra).
  apply Rmult_le_pos; [exact H|]. left. now apply Rinv_0_lt_compat.
Qed.

(** from joint 2 to the servo: a = h3, b = h1 *)
Lemma forward_bar x : PI / 3 <= x <= 5 * (PI / 6) ->
  linkage_ok 9.5 3.3 2.619 10.29 x /\ linkage_ok 9.5 2.619 3.3 10.29 (linkage 9.5 3.3 2.619 10.29 x) /\
  linkage 9.5 2.619 3.3 10.29 (linkage 9.5 3.3 2.619 10.29 x) = x.
Proof.
  intros X. pose proof PI_RGT_0 as P. pose proof sqrt3_bounds as Q3.
  assert (CU : cos x <= 0.5).
  { destruct (Req_dec x (PI / 3)) as [->|N]; [rewrite cos_PI3; lra|].
    assert (cos x < cos (PI / 3)) by (apply cos_decreasing_1; lra). rewrite cos_PI3 in *. lra. }
  assert (CL : -0.9 <= cos x).
  { assert (E : cos (5 * (PI / 6)) = - (sqrt 3 / 2)).
    { replace (5 * (PI / 6)) with (- (PI / 6) + PI) by field. rewrite neg_cos, cos_neg, cos_PI6. reflexivity. }
    destruct (Req_dec x (5 * (PI / 6))) as [->|N]; [rewrite E; lra|].
    assert (cos (5 * (PI / 6)) < cos x) by (apply cos_decreasing_1; lra). rewrite E in *. lra. }
  assert (D : 8.3 <= diag 9.5 3.3 x <= 12.6) by (apply sqrt_bounds; lra).
  pose proof (diag_sq 9.5 3.3 x) as DS. set (d := diag 9.5 3.3 x) in *.
  assert (B1 : -1 <= num_b 9.5 3.3 2.619 10.29 x / (2 * 2.619 * d) <= 1).
  { apply quot_iff; [lra|]. unfold num_b. fold d. clear DS. clearbody d. split; nra. }
  assert (B2 : -1 <= num_v 9.5 3.3 x / (2 * 9.5 * d) <= 1) by (apply b2_range; unfold d in *; lra).
  assert (Y : linkage 9.5 3.3 2.619 10.29 x <= PI).
  { unfold linkage. fold d. apply acos_sum_le_PI; [exact B1|exact B2|].
    assert (E2 : num_v 9.5 3.3 x / (2 * 9.5 * d) = (9.5 - 3.3 * cos x) / d) by (apply b2_arg; unfold d in *; lra).
    rewrite E2. unfold num_b. fold d. rewrite DS.
    apply frac_sum_nonneg; lra. }
  pose proof (COS_bound (linkage 9.5 3.3 2.619 10.29 x)) as CB.
  set (y := linkage 9.5 3.3 2.619 10.29 x) in *.
  assert (E : 6.8 <= diag 9.5 2.619 y <= 12.2) by (apply sqrt_bounds; lra).
  pose proof (linkage_back 9.5 3.3 2.619 10.29 x) as LB. cbv zeta in LB. fold d y in LB.
  assert (0 <= x <= PI) by lra.
  split; [unfold linkage_ok; fold d; split; [lra|split; assumption]|].
  apply LB; try lra.
  apply acos_le_by_cos; [apply b2_range; lra|lra|].
  rewrite b2_arg by lra. apply Rle_trans with (1 := CU).
  apply (Rmult_le_reg_r (diag 9.5 2.619 y)); [lra|].
  replace ((9.5 - 2.619 * cos y) / diag 9.5 2.619 y * diag 9.5 2.619 y) with (9.5 - 2.619 * cos y) by (field; lra). lra.
Qed.

(** from the servo to joint 2: a = h1, b = h3 *)
Lemma backward_bar x : PI / 6 <= x <= PI ->
  linkage_ok 9.5 2.619 3.3 10.29 x /\ linkage_ok 9.5 3.3 2.619 10.29 (linkage 9.5 2.619 3.3 10.29 x) /\
  linkage 9.5 3.3 2.619 10.29 (linkage 9.5 2.619 3.3 10.29 x) = x.
Proof.
  intros X. pose proof PI_RGT_0 as P. pose proof sqrt3_bounds as Q3.
  assert (CU : cos x <= 0.87).
  { destruct (Req_dec x (PI / 6)) as [->|N]; [rewrite cos_PI6; lra|].
    assert (cos x < cos (PI / 6)) by (apply cos_decreasing_1; lra). rewrite cos_PI6 in *. lra. }
  pose proof (COS_bound x) as CL.
  assert (D : 7.33 <= diag 9.5 2.619 x <= 12.2) by (apply sqrt_bounds; lra).
  pose proof (diag_sq 9.5 2.619 x) as DS. set (d := diag 9.5 2.619 x) in *.
  assert (B1 : -1 <= num_b 9.5 2.619 3.3 10.29 x / (2 * 3.3 * d) <= 1).
  { apply quot_iff; [lra|]. unfold num_b. fold d. clear DS. clearbody d. split; nra. }
  assert (B2 : -1 <= num_v 9.5 2.619 x / (2 * 9.5 * d) <= 1) by (apply b2_range; unfold d in *; lra).
  assert (Y : linkage 9.5 2.619 3.3 10.29 x <= PI).
  { unfold linkage. fold d. apply acos_sum_le_PI; [exact B1|exact B2|].
    assert (E2 : num_v 9.5 2.619 x / (2 * 9.5 * d) = (9.5 - 2.619 * cos x) / d) by (apply b2_arg; unfold d in *; lra).
    rewrite E2. unfold num_b. fold d. rewrite DS.
    apply frac_sum_nonneg; lra. }
  pose proof (COS_bound (linkage 9.5 2.619 3.3 10.29 x)) as CB.
  set (y := linkage 9.5 2.619 3.3 10.29 x) in *.
  assert (E : 6.1 <= diag 9.5 3.3 y <= 12.9) by (apply sqrt_bounds; lra).
  pose proof (diag_sq 9.5 3.3 y) as ES.
  pose proof (linkage_back 9.5 2.619 3.3 10.29 x) as LB. cbv zeta in LB. fold d y in LB.
  assert (0 <= x <= PI) by lra.
  split; [unfold linkage_ok; fold d; split; [lra|split; assumption]|].
  apply LB; try lra.
  apply acos_le_by_cos; [apply b2_range; lra|lra|].
  rewrite b2_arg by lra. apply Rle_trans with (1 := CU).
  apply (Rmult_le_reg_r (diag 9.5 3.3 y)); [lra|].
  replace ((9.5 - 3.3 * cos y) / diag 9.5 3.3 y * diag 9.5 3.3 y) with (9.5 - 3.3 * cos y) by (field; lra).
  set (e := diag 9.5 3.3 y) in *. set (q := cos y) in *. clearbody e q.
  apply Rsqr_incr_0_var; [|lra]. unfold Rsqr. nra.
Qed.

(** ** The code's expressions *)
Definition link_gen (A : arith) (v a b c x : F A) : F A :=
  let d := fsqrt A (fadd A (fsub A (fmul A v v) (fmul A (fmul A (fmul A (fofz A 2) v) a) (fcos A x))) (fmul A a a)) in
  fadd A
    (facos A (fdiv A (fadd A (fadd A (fmul A (fopp A c) c) (fmul A b b)) (fmul A d d)) (fmul A (fmul A (fofz A 2) b) d)))
    (facos A (fdiv A (fadd A (fadd A (fmul A (fopp A a) a) (fmul A v v)) (fmul A d d)) (fmul A (fmul A (fofz A 2) v) d))).

Lemma link_gen_N v a b c x : 0 < v -> 0 < b -> linkage_ok v a b c x ->
  link_gen NRA (Some v) (Some a) (Some b) (Some c) (Some x) = Some (linkage v a b c x).
Proof.
  intros PV PB (D & B1 & B2). unfold link_gen. cbv zeta.
  cbn [fsqrt fadd fsub fmul fofz fcos NRA lift1 lift2].
  rewrite nsqrt_some.
  2:{ rewrite <- diag_sq. apply Rle_0_sqr. }
  fold (diag v a x). cbn [facos fdiv fopp fmul fadd fofz NRA lift1 lift2].
  rewrite !nacos_div.
  - cbn. f_equal.
  - apply Rmult_integral_contrapositive_currified; [lra|exact D].
  - exact B2.
  - apply Rmult_integral_contrapositive_currified; [lra|exact D].
  - exact B1.
Qed.
Lemma link_gen_R (v a b c x : R) : link_gen RA v a b c x = linkage v a b c x.
Proof. reflexivity. Qed.

Lemma d_l2p_gen A an : d_l2p A an =
  mk6 (v0 an) (v1 an) (fadd A (d2f A (dsub A (half_pi A) (f2d A
     (link_gen A (d_v1 A) (d_h3 A) (d_h1 A) (d_h2 A) (d2f A (dadd A (f2d A (v2 an)) (half_pi A))))))) (v1 an))
    (v3 an) (v4 an) (v5 an).
Proof. reflexivity. Qed.
Lemma d_p2l_gen A an : d_p2l A an =
  mk6 (v0 an) (v1 an) (d2f A (dsub A (f2d A
     (link_gen A (d_v1 A) (d_h1 A) (d_h3 A) (d_h2 A) (d2f A (dsub A (half_pi A) (f2d A (fsub A (v2 an) (v1 an))))))) (half_pi A)))
    (v3 an) (v4 an) (v5 an).
Proof. reflexivity. Qed.

Lemma const_R : d_v1 RA = 9.5 /\ d_h1 RA = 2.619 /\ d_h2 RA = 10.29 /\ d_h3 RA = 3.3.
Proof.
  unfold d_v1, d_h1, d_h2, d_h3. cbn [d2f ddec RA]. unfold rdec, powerRZ.
  replace (Pos.to_nat 1) with 1%nat by reflexivity. replace (Pos.to_nat 2) with 2%nat by reflexivity.
  replace (Pos.to_nat 3) with 3%nat by reflexivity. cbn [pow]. lra.
Qed.
Lemma const_N : d_v1 NRA = Some 9.5 /\ d_h1 NRA = Some 2.619 /\ d_h2 NRA = Some 10.29 /\ d_h3 NRA = Some 3.3.
Proof.
  destruct const_R as (A & B & C & D).
  change (d_v1 NRA) with (Some (d_v1 RA : R)). change (d_h1 NRA) with (Some (d_h1 RA : R)).
  change (d_h2 NRA) with (Some (d_h2 RA : R)). change (d_h3 NRA) with (Some (d_h3 RA : R)).
  rewrite A, B, C, D. auto.
Qed.
Lemma half_pi_RA : half_pi RA = PI / 2.
Proof. unfold half_pi, dnum. cbn [ddiv dpi ddec RA]. now rewrite rdec_int. Qed.

(** joint 2 as the servo sees it, and back *)
Definition to_servo (a2 : R) : R := PI / 2 - linkage 9.5 3.3 2.619 10.29 (a2 + PI / 2).
Definition to_joint (b2 : R) : R := linkage 9.5 2.619 3.3 10.29 (PI / 2 - b2) - PI / 2.

Lemma d_l2p_N (a : V6 R) : linkage_ok 9.5 3.3 2.619 10.29 (v2 a + PI / 2) ->
  d_l2p NRA (some6 a) = some6 (mk6 (v0 a) (v1 a) (to_servo (v2 a) + v1 a) (v3 a) (v4 a) (v5 a)).
Proof.
  intros H. rewrite d_l2p_gen, half_pi_N, half_pi_RA. destruct const_N as (-> & -> & -> & ->).
  change (d2f NRA (dadd NRA (f2d NRA (v2 (some6 a))) (Some (PI / 2)))) with (Some (v2 a + PI / 2)).
  rewrite link_gen_N by (lra || exact H). reflexivity.
Qed.
Lemma d_p2l_N (a : V6 R) : linkage_ok 9.5 2.619 3.3 10.29 (PI / 2 - (v2 a - v1 a)) ->
  d_p2l NRA (some6 a) = some6 (mk6 (v0 a) (v1 a) (to_joint (v2 a - v1 a)) (v3 a) (v4 a) (v5 a)).
Proof.
  intros H. rewrite d_p2l_gen, half_pi_N, half_pi_RA. destruct const_N as (-> & -> & -> & ->).
  change (d2f NRA (dsub NRA (Some (PI / 2)) (f2d NRA (fsub NRA (v2 (some6 a)) (v1 (some6 a)))))) with (Some (PI / 2 - (v2 a - v1 a))).
  rewrite link_gen_N by (lra || exact H). reflexivity.
Qed.
