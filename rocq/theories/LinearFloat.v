(** * The way points of a straight move in IEEE arithmetic: how far from the exact ones, and how far apart. *)
From Coq Require Import Reals Lra Floats.SpecFloat.
From Flocq Require Import Core BinarySingleNaN.
From Verif Require Import Base Arith ServoModel RobotModel RobotSpec FloatBridge ServoFloat.
Open Scope Z_scope.
Set Default Goal Selector "!".

Section Sqrt.
Context (prec emax : Z) {Hp : Prec_gt_0 prec} {Hm : Prec_lt_emax prec emax}.
Lemma sqrt_eq (x : binary_float prec emax) : SFsqrt prec emax (B2SF x) = B2SF (Bsqrt mode_NE x).
Proof.
  destruct x as [sx|sx| |sx mx ex Bx]; [reflexivity|destruct sx; reflexivity|reflexivity|]. destruct sx; [reflexivity|].
  cbn. rewrite B2SF_SF2B. destruct (SFsqrt_core_binary prec emax (Z.pos mx) ex) as [[mz ez] lz]. apply (round_aux_eq prec emax).
Qed.
Lemma fv_sqrt x a : fv prec emax x a -> (0 <= a)%R -> fv prec emax (SFsqrt prec emax x) (rnd prec emax (sqrt a)).
Proof.
  intros (p & <- & Fp & <-) H. destruct (Bsqrt_correct prec emax Hp Hm mode_NE p) as (C1 & C2 & _).
  exists (Bsqrt mode_NE p). rewrite sqrt_eq. split; [reflexivity|]. split; [|exact C1]. rewrite C2.
  destruct p as [s|s| |s m e B]; try reflexivity; try discriminate. destruct s; [|reflexivity].
  exfalso. cbn [B2R] in H. cbn in H. assert (K : (F2R (Float radix2 (Z.neg m) e) < 0)%R) by (apply F2R_lt_0; reflexivity). lra.
Qed.
End Sqrt.

(** ** the number of steps *)
Definition ulp := (/ 16777216)%R.
Lemma r32_rel x : (Rabs (r32 x - x) <= Rabs x * ulp + tiny)%R.
Proof. pose proof (r32_error x). unfold ulp. lra. Qed.
Lemma r64_rel x : (Rabs (r64 x - x) <= Rabs x * ulp + tiny)%R.
Proof. pose proof (r64_error x). unfold ulp. lra. Qed.
Lemma v_double x a : v32 x a -> (Rabs a <= 1000000000000000)%R -> v64 (sf_conv 53 1024 x) (r64 a).
Proof. intros V B. apply (fv_conv 24 128 53 1024); [exact V|now apply r64_bound]. Qed.

Lemma sqrt_between (w D a c : R) : (0 <= D)%R -> (0 <= a <= 1)%R -> (0 <= c)%R -> (0 <= w)%R ->
  (D * D * (1 - a) - c * c <= w <= D * D * (1 + a) + c * c)%R -> (D * (1 - a) - c <= sqrt w <= D * (1 + a) + c)%R.
Proof.
  intros HD Ha Hc Hw [L U]. split.
  - destruct (Rle_dec (D * (1 - a)) c) as [N|N]; [pose proof (sqrt_pos w); lra|].
    rewrite <- (sqrt_square (D * (1 - a) - c)) by lra. apply sqrt_le_1; [apply Rle_0_sqr|exact Hw|]. set (u := (D * (1 - a))%R) in *.
    assert ((u - c) * (u - c) <= u * u - c * c)%R by nra. assert (u * u <= D * D * (1 - a))%R; [|lra].
    unfold u. replace (D * (1 - a) * (D * (1 - a)))%R with (D * D * (1 - a) * (1 - a))%R by ring.
    assert (K : (0 <= D * D * (1 - a))%R) by (apply Rmult_le_pos; [apply Rmult_le_pos; lra|lra]). set (k := (D * D * (1 - a))%R) in *. assert (k * (1 - a) <= k * 1)%R by (apply Rmult_le_compat_l; lra). lra.
  - rewrite <- (sqrt_square (D * (1 + a) + c)) by (apply Rplus_le_le_0_compat; [apply Rmult_le_pos|]; lra). apply sqrt_le_1; [exact Hw|apply Rle_0_sqr|]. eapply Rle_trans; [exact U|].
    assert (0 <= D * D)%R by nra. assert (0 <= D * (1 + a) * c)%R by (apply Rmult_le_pos; [apply Rmult_le_pos|]; lra).
    replace ((D * (1 + a) + c) * (D * (1 + a) + c))%R with (D * D * (1 + a) * (1 + a) + 2 * (D * (1 + a) * c) + c * c)%R by ring.
    assert (K : (0 <= D * D * (1 + a))%R) by (apply Rmult_le_pos; lra). set (k := (D * D * (1 + a))%R) in *. assert (k * 1 <= k * (1 + a))%R by (apply Rmult_le_compat_l; lra). lra.
Qed.

Lemma sq_near (X x e c : R) : (Rabs X <= 2000000)%R -> (0 <= e <= / 1000000)%R -> (0 <= c <= / 1000000000000000000000000000000)%R -> (Rabs (x - X) <= Rabs X * e + c)%R ->
  (Rabs (x * x - X * X) <= X * X * (3 * e) + / 100000000000000000000000)%R.
Proof.
  intros B He Hc H. assert (E : (x * x - X * X = (x - X) * (2 * X + (x - X)))%R) by ring. rewrite E. clear E.
  rewrite Rabs_mult. set (d := (x - X)%R) in *. clearbody d.
  assert (X2 : (X * X = Rabs X * Rabs X)%R) by (rewrite <- Rabs_mult, Rabs_pos_eq; [reflexivity|apply Rle_0_sqr]).
  rewrite X2. assert (T : (Rabs (2 * X + d) <= 2 * Rabs X + Rabs d)%R).
  { eapply Rle_trans; [apply Rabs_triang|]. rewrite Rabs_mult, (Rabs_pos_eq 2) by lra. lra. }
  pose proof (Rabs_pos X) as PX. pose proof (Rabs_pos d) as Pd. pose proof (Rabs_pos (2 * X + d)) as Pt.
  set (a := Rabs X) in *. set (b := Rabs d) in *. set (g := Rabs (2 * X + d)) in *. clearbody a b g. clear X2.
  assert (AE : (0 <= a * e)%R) by (apply Rmult_le_pos; lra).
  assert (AE2 : (a * e <= a * / 1000000)%R) by (apply Rmult_le_compat_l; lra).
  assert (G : (g <= 2 * a + a * / 1000000 + c)%R) by lra.
  assert (P1 : (b * g <= (a * e + c) * (2 * a + a * / 1000000 + c))%R) by (apply Rmult_le_compat; lra).
  eapply Rle_trans; [exact P1|].
  replace ((a * e + c) * (2 * a + a * / 1000000 + c))%R with (a * a * e * (2 + / 1000000) + c * (a * e + 2 * a + a * / 1000000 + c))%R by ring.
  assert (Q : (c * (a * e + 2 * a + a * / 1000000 + c) <= / 1000000000000000000000000000000 * 5000000)%R) by (apply Rmult_le_compat; lra).
  assert (K : (0 <= a * a * e)%R) by (apply Rmult_le_pos; [apply Rmult_le_pos|]; lra).
  replace (a * a * (3 * e))%R with (a * a * e * 3)%R by ring. set (k := (a * a * e)%R) in *.
  assert (Z : (/ 1000000000000000000000000000000 * 5000000 <= / 100000000000000000000000)%R) by lra. lra.
Qed.

Section Steps.
Context (L : libm).
Notation A := (IEEE L).

Lemma square_v x X : v32 x (r32 X) -> (Rabs X <= 2000000)%R ->
  exists q, v64 (dmul A (f2d A x) (f2d A x)) q /\ (0 <= q)%R /\ (Rabs (q - X * X) <= X * X * (9 * ulp) + / 10000000000000000000000)%R.
Proof.
  intros V B. pose proof tiny_pos as T0. assert (T1 : (tiny <= / 1000000000000000000000000000000000000)%R) by (unfold tiny; change (10 ^ 40)%Z with 10000000000000000000000000000000000000000; lra).
  pose proof (r32_rel X) as E1. set (x1 := r32 X) in *. clearbody x1. set (a := Rabs X) in *.
  assert (PA : (0 <= a)%R) by apply Rabs_pos. unfold ulp in *.
  assert (B1 : (Rabs x1 <= a * (1 + / 16777216) + tiny)%R).
  { replace x1 with ((x1 - X) + X)%R by ring. eapply Rle_trans; [apply Rabs_triang|]. fold a. lra. }
  pose proof (r64_rel x1) as E2. pose proof (v_double x x1 V ltac:(lra)) as V2. set (x2 := r64 x1) in *. clearbody x2. unfold ulp in *.
  assert (E3 : (Rabs (x2 - X) <= a * (/ 16777216 * (2 + / 1000)) + 3 * tiny)%R).
  { replace (x2 - X)%R with ((x2 - x1) + (x1 - X))%R by ring. eapply Rle_trans; [apply Rabs_triang|]. lra. }
  assert (B2 : (Rabs x2 <= a * (1 + / 1000000) + 3 * tiny)%R).
  { replace x2 with ((x2 - X) + X)%R by ring. eapply Rle_trans; [apply Rabs_triang|]. fold a. lra. }
  assert (S : (Rabs (x2 * x2 - X * X) <= X * X * (3 * (/ 16777216 * (2 + / 1000))) + / 100000000000000000000000)%R).
  { apply (sq_near X x2 _ (3 * tiny)); [exact B|lra|split; [lra|lra]|exact E3]. }
  assert (PX : (0 <= X * X)%R) by apply Rle_0_sqr. assert (P2 : (0 <= x2 * x2)%R) by apply Rle_0_sqr.
  assert (BX : (X * X <= 4000000000000)%R).
  { replace (X * X)%R with (a * a)%R by (unfold a; rewrite <- Rabs_mult, Rabs_pos_eq; [reflexivity|exact PX]). assert (a * a <= 2000000 * 2000000)%R by (apply Rmult_le_compat; lra). lra. }
  apply Rabs_bounds in S. set (w := (x2 * x2)%R) in *. set (W := (X * X)%R) in *.
  pose proof (r64_rel w) as E4. rewrite (Rabs_pos_eq w P2) in E4. apply Rabs_bounds in E4. unfold ulp in *.
  exists (r64 w). split; [|split; [now apply r64_pos|apply Rabs_le_of; clearbody w W; lra]].
  cbn [dmul f2d IEEE]. unfold w. apply (fv_mul 53 1024); [exact V2|exact V2|]. apply r64_bound. fold w. rewrite (Rabs_pos_eq w P2). clearbody w W. lra.
Qed.

Lemma v_add64 x y a b : v64 x a -> v64 y b -> (Rabs (a + b) <= 1000000000000000)%R -> v64 (SFadd 53 1024 x y) (r64 (a + b)).
Proof. intros H1 H2 B. apply (fv_add 53 1024); [exact H1|exact H2|]. now apply r64_bound. Qed.

(** the distance of a move, with exact differences X, Y, Z of the coordinates *)
Lemma dist3_v x y z X Y Z : v32 x (r32 X) -> v32 y (r32 Y) -> v32 z (r32 Z) -> (Rabs X <= 2000000)%R -> (Rabs Y <= 2000000)%R -> (Rabs Z <= 2000000)%R ->
  let d := sqrt (X * X + Y * Y + Z * Z) in
  exists v, v32 (dist3 A x y z) v /\ (0 <= v)%R /\ (0 <= d <= 4000000)%R /\ (Rabs (v - d) <= d * (16 * ulp) + / 1000000000)%R.
Proof.
  intros Vx Vy Vz Bx By Bz d. destruct (square_v x X Vx Bx) as (p & Vp & Pp & Ep). destruct (square_v y Y Vy By) as (q & Vq & Pq & Eq). destruct (square_v z Z Vz Bz) as (s & Vs & Ps & Es).
  pose proof tiny_pos as T0. assert (T1 : (tiny <= / 1000000000000000000000000000000000000)%R) by (unfold tiny; change (10 ^ 40)%Z with 10000000000000000000000000000000000000000; lra). unfold ulp in *.
  assert (SQ : forall u, (Rabs u <= 2000000)%R -> (0 <= u * u <= 4000000000000)%R).
  { intros u Hu. split; [apply Rle_0_sqr|]. replace (u * u)%R with (Rabs u * Rabs u)%R by (rewrite <- Rabs_mult, Rabs_pos_eq; [reflexivity|apply Rle_0_sqr]).
    pose proof (Rabs_pos u). assert (Rabs u * Rabs u <= 2000000 * 2000000)%R by (apply Rmult_le_compat; lra). lra. }
  pose proof (SQ _ Bx) as BX. pose proof (SQ _ By) as BY. pose proof (SQ _ Bz) as BZ. clear SQ.
  apply Rabs_bounds in Ep, Eq, Es.
  set (W := (X * X + Y * Y + Z * Z)%R) in *. assert (W1 : (0 <= W <= 12000000000000)%R) by (unfold W; lra).
  set (xx := (X * X)%R) in *. set (yy := (Y * Y)%R) in *. set (zz := (Z * Z)%R) in *. clearbody xx yy zz.
  assert (P22 : (/ 10000000000000000000000 <= 1)%R) by lra.
  assert (K1 : (0 <= p + q <= 9000000000000)%R) by lra.
  pose proof (v_add64 _ _ _ _ Vp Vq ltac:(rewrite Rabs_pos_eq; lra)) as V1. pose proof (r64_rel (p + q)) as E1. rewrite (Rabs_pos_eq (p + q)) in E1 by lra. apply Rabs_bounds in E1. pose proof (r64_pos (p + q) ltac:(lra)) as P1.
  set (u1 := r64 (p + q)) in *. clearbody u1. unfold ulp in *.
  assert (K2 : (0 <= u1 + s <= 20000000000000)%R) by lra.
  pose proof (v_add64 _ _ _ _ V1 Vs ltac:(rewrite Rabs_pos_eq; lra)) as V2. pose proof (r64_rel (u1 + s)) as E2. rewrite (Rabs_pos_eq (u1 + s)) in E2 by lra. apply Rabs_bounds in E2. pose proof (r64_pos (u1 + s) ltac:(lra)) as P2.
  set (u2 := r64 (u1 + s)) in *. clearbody u2. unfold ulp in *.
  assert (DD : (d * d = W)%R) by (unfold d; apply sqrt_sqrt; lra). assert (D0 : (0 <= d)%R) by apply sqrt_pos.
  assert (D1 : (d <= 4000000)%R).
  { unfold d. replace 4000000%R with (sqrt (4000000 * 4000000)) by (apply sqrt_square; lra). apply sqrt_le_1; lra. }
  assert (Q : (d * (1 - 12 * / 16777216) - / 10000000000 <= sqrt u2 <= d * (1 + 12 * / 16777216) + / 10000000000)%R).
  { apply sqrt_between; [exact D0|lra|lra|exact P2|]. rewrite DD. unfold W in *. clearbody d. lra. }
  assert (Sp : (0 <= sqrt u2)%R) by apply sqrt_pos.
  pose proof (fv_sqrt 53 1024 _ _ V2 P2) as V3. change (rnd 53 1024 (sqrt u2)) with (r64 (sqrt u2)) in V3.
  set (h := sqrt u2) in *. clearbody h. clearbody d.
  pose proof (r64_rel h) as E3. rewrite (Rabs_pos_eq h Sp) in E3. apply Rabs_bounds in E3. pose proof (r64_pos h Sp) as P3. set (h3 := r64 h) in *. clearbody h3. unfold ulp in *.
  pose proof (r32_rel h3) as E4. rewrite (Rabs_pos_eq h3 P3) in E4. apply Rabs_bounds in E4. pose proof (r32_pos h3 P3) as P4. unfold ulp in *.
  exists (r32 h3). split; [|split; [exact P4|split; [lra|apply Rabs_le_of; lra]]].
  unfold dist3. cbn [d2f dsqrt dadd IEEE]. apply (fv_conv 53 1024 24 128); [exact V3|]. apply r32_bound. rewrite Rabs_pos_eq by exact P3. lra.
Qed.

(** a library whose acosf gives a number between 0 and 4, or no number *)
Definition plain_acos : Prop := forall x, m_facos L x = S754_nan \/ exists a, v32 (m_facos L x) a /\ (0 <= a <= 4)%R.

Lemma half_v : v32 (f_dec A 5 (-1)) (/ 2).
Proof.
  unfold f_dec. cbn [d2f ddec IEEE]. assert (E : sf_conv 24 128 (sf_dec 53 1024 false 5 (-1)) = S754_finite false 8388608 (-24)) by (vm_compute; reflexivity).
  rewrite E. replace (/ 2)%R with (SF2R radix2 (S754_finite false 8388608 (-24))) by (cbn; unfold F2R; cbn; lra).
  apply fv_valid; reflexivity.
Qed.
Lemma int_v z : Z.abs z <= 16777216 -> v32 (fofz A z) (IZR z).
Proof. apply v_int. Qed.
Lemma trunc_int x v : v32 x v -> (0 <= v <= 2000000000)%R -> to_int A x = Ok (rtrunc v).
Proof.
  intros V B. unfold to_int. cbn [ftoz IEEE]. rewrite (fv_trunc 24 128 _ _ V). destruct (rtrunc_pos v) as [[H1 H2] H3]; [lra|].
  assert (H4 : (IZR (rtrunc v) <= IZR 2000000000)%R) by lra. apply le_IZR in H4.
  destruct (Z.leb_spec (-2147483648) (rtrunc v)); [|lia]. destruct (Z.leb_spec (rtrunc v) 2147483647); [reflexivity|lia].
Qed.

(** one step for the rotation *)
Lemma rotation_one w n : w = S754_nan \/ (exists a, v32 w a /\ (0 <= a <= 4)%R) -> to_int A (fadd A (fdiv A w (fofz A 15)) (fofz A 1)) = Ok n -> n = 1.
Proof.
  intros [-> |(a & V & B)] E; [vm_compute in E; discriminate|].
  assert (V1 : v32 (fdiv A w (fofz A 15)) (r32 (a / 15))).
  { apply v_div; [exact V|apply int_v; lia|lra|rewrite Rabs_pos_eq; lra]. }
  pose proof (r32_pos (a / 15) ltac:(lra)) as P1. pose proof (r32_le (a / 15) 1 ltac:(lra)) as P2. rewrite (r32_IZR 1) in P2 by lia.
  pose proof (r32_rel (a / 15)) as P3. rewrite (Rabs_pos_eq (a / 15)) in P3 by lra. apply Rabs_bounds in P3. unfold ulp in P3. pose proof tiny_small as TS.
  set (u := r32 (a / 15)) in *.
  assert (V2 : v32 (fadd A (fdiv A w (fofz A 15)) (fofz A 1)) (r32 (u + 1))).
  { apply v_add; [exact V1|apply int_v; lia|rewrite Rabs_pos_eq; lra]. }
  pose proof (r32_le 1 (u + 1) ltac:(lra)) as Q1. rewrite (r32_IZR 1) in Q1 by lia.
  pose proof (r32_rel (u + 1)) as Q2. rewrite (Rabs_pos_eq (u + 1)) in Q2 by lra. apply Rabs_bounds in Q2. unfold ulp in Q2. set (v := r32 (u + 1)) in *.
  rewrite (trunc_int _ v V2) in E by lra. injection E as <-. destruct (rtrunc_pos v) as [[H1 H2] H3]; [lra|].
  assert (X : (IZR (rtrunc v) < 2)%R) by lra. apply lt_IZR in X. assert (Y : (0 < IZR (rtrunc v))%R) by lra. apply lt_IZR in Y. lia.
Qed.

(** the values of a pose: six numbers, coordinates at most 10^6 *)
Definition pose_at (p : V6 spec_float) (P : V6 R) : Prop :=
  v32 (v0 p) (v0 P) /\ v32 (v1 p) (v1 P) /\ v32 (v2 p) (v2 P) /\ (Rabs (v0 P) <= 1000000)%R /\ (Rabs (v1 P) <= 1000000)%R /\ (Rabs (v2 P) <= 1000000)%R.

(** the steps are at most half a unit and 10^-6 long; there are not more of them than this needs and one *)
Lemma linear_steps_v s t S T n : plain_acos -> pose_at s S -> pose_at t T -> linear_steps A s t = Ok n ->
  1 <= n <= 16777216 /\ (distance S T <= IZR n * (1 / 2 + 1 / 1000000))%R /\ (IZR n <= 2 * distance S T * (1 + 1 / 500000) + 1 + 1 / 1000000)%R.
Proof.
  intros AC (s0 & s1 & s2 & bs0 & bs1 & bs2) (t0 & t1 & t2 & bt0 & bt1 & bt2) E.
  assert (DF : forall x y a b, v32 x a -> v32 y b -> (Rabs a <= 1000000)%R -> (Rabs b <= 1000000)%R -> v32 (fsub A y x) (r32 (b - a)) /\ (Rabs (b - a) <= 2000000)%R).
  { intros x y a b Va Vb Ba Bb. apply Rabs_bounds in Ba, Bb. assert (B : (Rabs (b - a) <= 2000000)%R) by (apply Rabs_le_of; lra). split; [apply v_sub; [assumption|assumption|lra]|exact B]. }
  destruct (DF _ _ _ _ s0 t0 bs0 bt0) as [X0 Y0]. destruct (DF _ _ _ _ s1 t1 bs1 bt1) as [X1 Y1]. destruct (DF _ _ _ _ s2 t2 bs2 bt2) as [X2 Y2]. clear DF.
  destruct (dist3_v _ _ _ _ _ _ X0 X1 X2 Y0 Y1 Y2) as (v & V & P & D & N). fold (distance S T) in D, N. set (d := distance S T) in *. clearbody d.
  apply Rabs_bounds in N. unfold ulp in N. pose proof tiny_pos as T0. pose proof tiny_small as TS. pose proof bs0 as _.
  unfold linear_steps in E. cbv zeta in E. set (dd := dist3 A _ _ _) in *. clearbody dd.
  assert (V1 : v32 (fdiv A dd (f_dec A 5 (-1))) (r32 (v / / 2))).
  { apply v_div; [exact V|exact half_v|lra|]. rewrite Rabs_pos_eq; [|unfold Rdiv; rewrite Rinv_inv; lra]. unfold Rdiv; rewrite Rinv_inv. lra. }
  replace (v / / 2)%R with (2 * v)%R in V1 by field.
  pose proof (r32_rel (2 * v)) as E1. rewrite (Rabs_pos_eq (2 * v)) in E1 by lra. apply Rabs_bounds in E1. unfold ulp in E1. pose proof (r32_pos (2 * v) ltac:(lra)) as P1. set (q := r32 (2 * v)) in *. clearbody q.
  assert (N9 : (/ 1000000000 <= / 1000000000)%R) by lra.
  assert (V2 : v32 (fadd A (fdiv A dd (f_dec A 5 (-1))) (fofz A 1)) (r32 (q + 1))).
  { apply v_add; [exact V1|apply int_v; lia|rewrite Rabs_pos_eq; lra]. }
  pose proof (r32_rel (q + 1)) as E2. rewrite (Rabs_pos_eq (q + 1)) in E2 by lra. apply Rabs_bounds in E2. unfold ulp in E2.
  pose proof (r32_le 1 (q + 1) ltac:(lra)) as Q1. rewrite (r32_IZR 1) in Q1 by lia. set (x := r32 (q + 1)) in *. clearbody x.
  rewrite (trunc_int _ x V2) in E by lra. cbn [bind] in E.
  destruct (to_int A (fadd A (fdiv A (rotation_angle A s t) (fofz A 15)) (fofz A 1))) as [n2|] eqn:R2; [cbn [bind] in E|discriminate].
  apply rotation_one in R2; [|unfold rotation_angle; destruct (norm3 A (orient A s)) as [[? ?] ?], (norm3 A (orient A t)) as [[? ?] ?]; apply AC]. subst n2.
  destruct (rtrunc_pos x) as [[H1 H2] H3]; [lra|]. set (N0 := rtrunc x) in *. clearbody N0.
  assert (N1 : 1 <= N0) by (assert (X : (0 < IZR N0)%R) by lra; apply lt_IZR in X; lia).
  assert (N2 : N0 <= 16777216) by (apply le_IZR; lra).
  assert (n = N0) as ->. { destruct (Z.ltb_spec 1 N0); [|assert (N0 = 1) as -> by lia]; rewrite u32_small in E by lia; congruence. }
  split; [lia|]. assert (I1 : (1 <= IZR N0)%R) by (apply IZR_le; lia). set (m := IZR N0) in *. clearbody m. split; lra.
Qed.

(** ** a way point *)
Lemma coordinate_v s t S T k n : v32 s S -> v32 t T -> (Rabs S <= 1000000)%R -> (Rabs T <= 1000000)%R -> 0 <= k <= n -> 1 <= n <= 16777216 ->
  exists w, v32 (fadd A s (fmul A (fsub A t s) (fdiv A (fofz A k) (fofz A n)))) w /\
    (Rabs (w - (S + (T - S) * (IZR k / IZR n))) <= (Rabs S + Rabs T) / 1000000 + / 1000000000000000000000000000000)%R.
Proof.
  intros Vs Vt Bs Bt Hk Hn. pose proof tiny_pos as T0. assert (T1 : (tiny <= / 1000000000000000000000000000000000000)%R) by (unfold tiny; change (10 ^ 40)%Z with 10000000000000000000000000000000000000000; lra).
  assert (I1 : (1 <= IZR n)%R) by (apply IZR_le; lia). assert (I2 : (0 <= IZR k <= IZR n)%R) by (split; apply IZR_le; lia).
  assert (F0 : (0 <= IZR k / IZR n <= 1)%R).
  { split; [apply Rmult_le_pos; [lra|left; apply Rinv_0_lt_compat; lra]|]. apply (Rmult_le_reg_r (IZR n)); [lra|]. unfold Rdiv. rewrite Rmult_assoc, Rinv_l by lra. lra. }
  assert (V1 : v32 (fdiv A (fofz A k) (fofz A n)) (r32 (IZR k / IZR n))).
  { apply v_div; [apply int_v; lia|apply int_v; lia|lra|rewrite Rabs_pos_eq; lra]. }
  set (f := (IZR k / IZR n)%R) in *. clearbody f. clear I1 I2.
  pose proof (r32_rel f) as E1. rewrite (Rabs_pos_eq f) in E1 by lra. unfold ulp in E1. pose proof (r32_pos f ltac:(lra)) as P1. pose proof (r32_le f 1 ltac:(lra)) as P2. rewrite (r32_IZR 1) in P2 by lia.
  set (g := r32 f) in *. clearbody g. set (M := (Rabs S + Rabs T)%R). pose proof (Rabs_pos S) as PS. pose proof (Rabs_pos T) as PT.
  assert (MB : (0 <= M <= 2000000)%R) by (unfold M; lra).
  assert (D1 : (Rabs (T - S) <= M)%R). { unfold M. eapply Rle_trans; [apply Rabs_triang|]. rewrite Rabs_Ropp. lra. }
  assert (V2 : v32 (fsub A t s) (r32 (T - S))) by (apply v_sub; [assumption|assumption|lra]).
  pose proof (r32_rel (T - S)) as E2. unfold ulp in E2. set (d := (T - S)%R) in *. set (d' := r32 d) in *. clearbody d'.
  assert (B2 : (Rabs (d' - d) <= M * / 16777216 + tiny)%R) by lra.
  assert (B3 : (Rabs d' <= M * (1 + / 16777216) + tiny)%R). { replace d' with (d' - d + d)%R by ring. eapply Rle_trans; [apply Rabs_triang|]. lra. }
  assert (B4 : (Rabs (d' * g) <= M * (1 + / 16777216) + tiny)%R).
  { rewrite Rabs_mult, (Rabs_pos_eq g) by lra. assert (Rabs d' * g <= Rabs d' * 1)%R by (apply Rmult_le_compat_l; [apply Rabs_pos|lra]). lra. }
  assert (V3 : v32 (fmul A (fsub A t s) (fdiv A (fofz A k) (fofz A n))) (r32 (d' * g))) by (apply v_mul; [assumption|assumption|lra]).
  assert (B5 : (Rabs (d' * g - d * f) <= M * (2 * / 16777216) + tiny + M * tiny)%R).
  { replace (d' * g - d * f)%R with ((d' - d) * g + d * (g - f))%R by ring. eapply Rle_trans; [apply Rabs_triang|]. rewrite !Rabs_mult, (Rabs_pos_eq g) by lra.
    assert (Rabs (d' - d) * g <= Rabs (d' - d) * 1)%R by (apply Rmult_le_compat_l; [apply Rabs_pos|lra]).
    assert (Rabs d * Rabs (g - f) <= M * (/ 16777216 + tiny))%R by (apply Rmult_le_compat; try apply Rabs_pos; lra). lra. }
  assert (MT : (M * tiny <= / 100000000000000000000000000000000)%R). { apply Rle_trans with (2000000 * / 1000000000000000000000000000000000000000)%R; [|lra]. apply Rmult_le_compat; try lra. unfold tiny. change (10 ^ 40)%Z with 10000000000000000000000000000000000000000. lra. }
  pose proof (r32_rel (d' * g)) as E3. unfold ulp in E3. set (p := (d' * g)%R) in *. set (p' := r32 p) in *. clearbody p'.
  assert (B6 : (Rabs (p' - d * f) <= M * (3 * / 16777216 + / 100000000000000) + 4 * tiny + M * tiny)%R).
  { replace (p' - d * f)%R with ((p' - p) + (p - d * f))%R by ring. eapply Rle_trans; [apply Rabs_triang|]. lra. }
  assert (B7 : (Rabs (d * f) <= M)%R). { rewrite Rabs_mult, (Rabs_pos_eq f) by lra. assert (Rabs d * f <= Rabs d * 1)%R by (apply Rmult_le_compat_l; [apply Rabs_pos|lra]). lra. }
  assert (B8 : (Rabs (S + p') <= 2 * M * (1 + / 1000000) + 4 * tiny + M * tiny)%R).
  { replace (S + p')%R with ((p' - d * f) + (S + d * f))%R by ring. eapply Rle_trans; [apply Rabs_triang|].
    assert (Rabs (S + d * f) <= Rabs S + M)%R by (eapply Rle_trans; [apply Rabs_triang|]; lra). unfold M in *. lra. }
  assert (SM : (/ 100000000000000000000000000000000 <= / 1000000)%R) by lra. assert (SM2 : (/ 1000000000000000000000000000000000000 <= / 1000000)%R) by lra.
  assert (V4 : v32 (fadd A s (fmul A (fsub A t s) (fdiv A (fofz A k) (fofz A n)))) (r32 (S + p'))) by (apply v_add; [assumption|assumption|lra]).
  pose proof (r32_rel (S + p')) as E4. unfold ulp in E4. exists (r32 (S + p')). split; [exact V4|].
  replace (r32 (S + p') - (S + d * f))%R with ((r32 (S + p') - (S + p')) + (p' - d * f))%R by ring. eapply Rle_trans; [apply Rabs_triang|].
  assert (SM3 : (/ 100000000000000000000000000000000 * 10 <= / 1000000000000000000000000000000)%R) by lra. assert (SM4 : (tiny * 20 <= / 100000000000000000000000000000000)%R) by (unfold tiny; change (10 ^ 40)%Z with 10000000000000000000000000000000000000000; lra).
  fold M. lra.
Qed.

(** where the way point is *)
Definition near_point (w : V6 spec_float) (S T : V6 R) (f : R) : Prop :=
  let close (x : spec_float) a b := exists v, v32 x v /\ (Rabs (v - (a + (b - a) * f)) <= (Rabs a + Rabs b) / 1000000 + / 1000000000000000000000000000000)%R in
  close (v0 w) (v0 S) (v0 T) /\ close (v1 w) (v1 S) (v1 T) /\ close (v2 w) (v2 S) (v2 T).
Lemma waypoint_v s t S T k n : pose_at s S -> pose_at t T -> 0 <= k <= n -> 1 <= n <= 16777216 ->
  near_point (waypoint A s t k n) S T (IZR k / IZR n) /\
  v3 (waypoint A s t k n) = v3 t /\ v4 (waypoint A s t k n) = v4 t /\ v5 (waypoint A s t k n) = v5 t.
Proof.
  intros (s0 & s1 & s2 & bs0 & bs1 & bs2) (t0 & t1 & t2 & bt0 & bt1 & bt2) Hk Hn. split; [|auto].
  unfold near_point, waypoint. cbn [v0 v1 v2]. split; [now apply coordinate_v|]. split; now apply coordinate_v.
Qed.
End Steps.
