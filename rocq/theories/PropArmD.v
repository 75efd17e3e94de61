(** * PropArmD: the working range of the robot arm of config/mp-robot-d.h (C81).

    config/mp-robot-d.h with config/servodata.h and RobotController: which joint targets that arm
    carries out, with the numbers of the two tables written out.  Its joint 2 is driven over a
    four-bar linkage. *)
From Coq Require Import Reals Lra Psatz.
From Verif Require Import Base Arith ServoModel ServoSpec ServoProofs RobotModel RobotSpec RobotProofs RobotExact
  PropServo PropRobot KinModel KinSpec KinProofs ConfigModel ConfigProofs PropConfig PropKit DecFloat Crank.
Set Default Goal Selector "!".
Open Scope Z_scope.

(** ** Specification *)
(** The linkage.  The two fixed pivots are 9.5 apart.  The servo's crank is 2.619 long and turns
    about one of them by [beta]; the joint's lever is 3.3 long and turns about the other by
    [alpha]; a rod of 10.29 joins their ends.  [alpha] and [beta] belong together if the rod
    fits, and the crank is not folded over to the other side. *)
Definition bar (alpha beta : R) : Prop :=
  let px := (9.5 + 3.3 * sin alpha)%R in let py := (3.3 * cos alpha)%R in
  let qx := (2.619 * sin beta)%R in let qy := (2.619 * cos beta)%R in
  (- (PI / 2) <= beta <= PI / 2)%R /\
  ((px - qx) * (px - qx) + (py - qy) * (py - qy) = 10.29 * 10.29)%R /\
  (0 <= px * qy - py * qx)%R.

(** the joint angles this arm can take: each joint in its own range; and the servo that drives
    joint 2, which must also make up for joint 1, in its range *)
Definition d_working_range (a : V6 R) : Prop :=
  in_degrees (-90) 90 (v0 a) /\
  in_degrees (-70) 90 (v1 a) /\
  in_degrees (-25) 48 (v2 a) /\ (exists beta, bar (v2 a) beta /\ in_degrees (-89) 134 (beta + v1 a)%R) /\
  in_degrees (-90) 75 (v3 a) /\
  in_degrees (-127) 14 (v4 a) /\
  in_degrees (-75) 86 (v5 a).
(** the shaft angles its six servos may take *)
Definition d_shaft_range (a : V6 R) : Prop :=
  in_degrees (-90) 90 (v0 a) /\ in_degrees (-70) 90 (v1 a) /\ in_degrees (-89) 134 (v2 a) /\
  in_degrees (-90) 75 (v3 a) /\ in_degrees (-127) 14 (v4 a) /\ in_degrees (-75) 86 (v5 a).

(** ** The tables *)
Section Tables.
Context (A : arith).
(** mp-robot-d.h:13-26, logicAngleLimits: columns 4 and 5 of servoConfig, but -25 and 48 degrees
    for joint 2 *)
Definition d_limits : V6 (F A * F A) :=
  mk6 (deg A (-90), deg A 90) (deg A (-70), deg A 90) (d_limit2 A)
      (deg A (-90), deg A 75) (deg A (-127), deg A 14) (deg A (-75), deg A 86).
(** the servos made by setup() (main.cpp:86-97) from servoConfig, servodata.h:9-16, with the pins of
    servoports.h:4-9; the home position is 0.  The pulse the constructor puts out is in
    ServoModel. *)
Definition d_servo (pin minF maxF mn mx : Z) : servo A :=
  let z := fofz A 0 in
  mkServo A pin (pin <? 0) z minF maxF 0 z z z (deg A mn) (deg A mx) (deg A 150) (deg A 150).
Definition d_servos : V6 (servo A) :=
  mk6 (d_servo 3 852 2091 (-90) 90) (d_servo 4 710 1780 (-70) 90) (d_servo 5 2099 571 (-89) 134)
      (d_servo 6 650 2370 (-90) 75) (d_servo 9 2370 860 (-127) 14) (d_servo 10 2290 570 (-75) 86).
End Tables.

Definition d_run (fwd : V6 R -> V6 R) (inv : V6 R -> option (V6 R)) :=
  r_run RA fwd inv (d_l2p RA) (d_p2l RA) (d_limits RA).
Definition d_on (fwd : V6 R -> V6 R) : robot RA := robot_new RA fwd (d_p2l RA) (d_servos RA).

(** ** The linkage *)
Lemma half_turn x : cos (x + PI / 2) = (- sin x)%R /\ sin (x + PI / 2) = cos x.
Proof. rewrite cos_plus, sin_plus, cos_PI2, sin_PI2. split; ring. Qed.
Lemma from_half x : cos (PI / 2 - x) = sin x /\ sin (PI / 2 - x) = cos x.
Proof. split; [apply cos_shift|apply sin_shift]. Qed.


(** what the proof of [forward_bar] establishes on its way *)
Lemma triangle x : (PI / 3 <= x <= 5 * (PI / 6))%R ->
  (0 < diag 9.5 3.3 x)%R /\ (0 < 9.5 - 3.3 * cos x)%R /\
  (-1 <= num_b 9.5 3.3 2.619 10.29 x / (2 * 2.619 * diag 9.5 3.3 x) <= 1)%R /\
  (linkage 9.5 3.3 2.619 10.29 x <= PI)%R.
Proof.
  intros X. pose proof PI_RGT_0 as P. pose proof sqrt3_bounds as Q3.
  assert (CU : (cos x <= 0.5)%R).
  { destruct (Req_dec x (PI / 3)) as [->|N]; [rewrite cos_PI3; lra|].
    assert (cos x < cos (PI / 3))%R by (apply cos_decreasing_1; lra). rewrite cos_PI3 in *. lra. }
  pose proof (COS_bound x) as CL.
  assert (D : (8.3 <= diag 9.5 3.3 x <= 12.8)%R) by (apply sqrt_bounds; lra).
  pose proof (forward_bar x X) as ((_ & B1 & _) & _ & _).
  split; [lra|]. split; [lra|]. split; [exact B1|].
  assert (B2 : (-1 <= num_v 9.5 3.3 x / (2 * 9.5 * diag 9.5 3.3 x) <= 1)%R) by (apply b2_range; lra).
  unfold linkage. apply acos_sum_le_PI; [exact B1|exact B2|].
  assert (E2 : (num_v 9.5 3.3 x / (2 * 9.5 * diag 9.5 3.3 x) = (9.5 - 3.3 * cos x) / diag 9.5 3.3 x)%R) by (apply b2_arg; lra).
  rewrite E2. unfold num_b. rewrite diag_sq. apply frac_sum_nonneg; lra.
Qed.

(** the code's angle is the one and only solution of the linkage *)
Theorem C81_bar : forall alpha beta : R, (- (PI / 6) <= alpha <= PI / 3)%R -> bar alpha beta <-> beta = to_servo alpha.
Proof.
  intros alpha beta H. pose proof PI_RGT_0 as P.
  assert (X : (PI / 3 <= alpha + PI / 2 <= 5 * (PI / 6))%R) by lra.
  assert (XP : (0 <= alpha + PI / 2 <= PI)%R) by lra.
  destruct (triangle _ X) as (D & PX & B1 & YP). destruct (half_turn alpha) as [CX SX].
  unfold to_servo. set (x := (alpha + PI / 2)%R) in *.
  destruct (b2_cs 9.5 3.3 x ltac:(lra) ltac:(lra) XP D) as [C2 S2].
  pose proof (acos_bound (num_v 9.5 3.3 x / (2 * 9.5 * diag 9.5 3.3 x))) as AB.
  set (b2 := acos (num_v 9.5 3.3 x / (2 * 9.5 * diag 9.5 3.3 x))) in *.
  pose proof (y_nonneg 9.5 3.3 2.619 10.29 x) as Y0.
  set (b1 := acos (num_b 9.5 3.3 2.619 10.29 x / (2 * 2.619 * diag 9.5 3.3 x))).
  assert (LY : linkage 9.5 3.3 2.619 10.29 x = (b1 + b2)%R) by reflexivity.
  pose proof (cos_acos _ B1) as CB1. fold b1 in CB1.
  pose proof (acos_bound (num_b 9.5 3.3 2.619 10.29 x / (2 * 2.619 * diag 9.5 3.3 x))) as AB1. fold b1 in AB1.
  set (d := diag 9.5 3.3 x) in *.
  split.
  - intros ((R1 & R2) & E & O). cbv zeta in *.
    destruct (from_half beta) as [CY SY]. set (y := (PI / 2 - beta)%R) in *.
    rewrite <- CY, <- SY, <- SX in *. replace (sin alpha) with (- cos x)%R in * by (rewrite CX; ring).
    assert (YR : (0 <= y <= PI)%R) by (unfold y; lra).
    assert (PXE : (9.5 + 3.3 * - cos x = d * cos b2)%R) by (rewrite C2; ring).
    rewrite PXE, <- S2 in E, O.
    assert (DD : (d * d = num_b 9.5 3.3 2.619 10.29 x + 10.29 * 10.29 - 2.619 * 2.619)%R) by (unfold num_b; fold d; ring).
    pose proof (cs1 y) as Q. pose proof (cs1 b2) as Q2.
    assert (K : (2 * 2.619 * d * cos (y - b2) = num_b 9.5 3.3 2.619 10.29 x)%R).
    { rewrite cos_minus. nra. }
    assert (CE : cos (y - b2) = cos b1).
    { rewrite CB1. rewrite <- K. field. lra. }
    assert (SP : (0 <= sin (y - b2))%R).
    { rewrite sin_minus. apply (Rmult_le_reg_l (2.619 * d)); [nra|]. nra. }
    assert (DIF : (0 <= y - b2)%R).
    { destruct (Rle_dec 0 (y - b2)) as [|N]; [assumption|]. exfalso.
      destruct (Rle_dec (y - b2) (- PI)) as [L|L].
      - assert (b2 = PI) by lra. rewrite H0, cos_PI in C2. lra.
      - assert (0 < sin (- (y - b2)))%R by (apply sin_gt_0; lra). rewrite sin_neg in H0. lra. }
    assert (y - b2 = b1)%R.
    { rewrite <- (acos_cos (y - b2)) by lra. rewrite CE. apply acos_cos. lra. }
    rewrite LY. unfold y in *. lra.
  - intros ->. unfold bar. cbv zeta. rewrite LY in *.
    pose proof (coupler 9.5 3.3 2.619 10.29 x ltac:(lra) ltac:(lra) ltac:(lra) XP D B1) as C. rewrite LY in C.
    destruct (from_half (PI / 2 - (b1 + b2))) as [CY SY]. rewrite <- CY, <- SY, <- SX.
    replace (PI / 2 - (PI / 2 - (b1 + b2)))%R with (b1 + b2)%R by ring.
    replace (sin alpha) with (- cos x)%R by (rewrite CX; ring).
    split; [lra|]. split; [lra|].
    replace (9.5 + 3.3 * - cos x)%R with (d * cos b2)%R by (rewrite C2; ring). rewrite <- S2.
    rewrite sin_plus, cos_plus.
    replace (d * cos b2 * (2.619 * (sin b1 * cos b2 + cos b1 * sin b2)) - d * sin b2 * (2.619 * (cos b1 * cos b2 - sin b1 * sin b2)))%R
      with (2.619 * d * sin b1 * (cos b2 * cos b2 + sin b2 * sin b2))%R by ring.
    rewrite (cs1 b2), Rmult_1_r. assert (0 <= sin b1)%R by (apply sin_ge_0; lra). nra.
Qed.
Print Assumptions C81_bar.

(** ** The robot *)
Lemma degree_near : (0.01745 <= degree <= 0.01746)%R.
Proof. pose proof DEG_bounds as B. pose proof (PropConfig.deg_RA 1) as E1. pose proof (deg_RA 1) as E2. rewrite E1 in E2. lra. Qed.

(** where joint 2 has an angle it may have, the shafts' angles are those of the linkage *)
Lemma d_shafts (a : V6 R) : d_l2p RA a = mk6 (v0 a) (v1 a) (to_servo (v2 a) + v1 a)%R (v3 a) (v4 a) (v5 a).
Proof.
  rewrite d_l2p_gen, half_pi_RA. destruct const_R as (-> & -> & -> & ->). rewrite link_gen_R. reflexivity.
Qed.
Lemma in_bar_range x : in_degrees (-25) 48 x -> (- (PI / 6) <= x <= PI / 3)%R.
Proof. unfold in_degrees. pose proof degree_near. pose proof PI2_3_2. lra. Qed.

Lemma d_on_RR fwd : RR (d_on fwd).
Proof.
  pose proof degree_big.
  unfold RR, d_on, axes, SR, sane, ServoProofs.in_range. cbn [r_servos robot_new with_targets at6].
  unfold d_servos, d_servo. cbn [v0 v1 v2 v3 v4 v5 s_min s_max s_minF s_maxF s_start s_cur s_target s_maxvel s_vel].
  rewrite !deg_RA. cbn [fofz RA]. splits; try lia; lra.
Qed.

Lemma within_d (r : robot RA) (t : V6 R) : same_limits RA (d_servos RA) (r_servos r) ->
  (within (A:=RA) (d_l2p RA) (d_limits RA) (r_servos r) t <-> d_working_range t).
Proof.
  intros L. unfold within. rewrite d_shafts. unfold same_limits, axes in L. cbn [at6] in L.
  destruct L as ((L0 & K0) & (L1 & K1) & (L2 & K2) & (L3 & K3) & (L4 & K4) & (L5 & K5)).
  unfold axes. cbn [at6]. rewrite L0, K0, L1, K1, L2, K2, L3, K3, L4, K4, L5, K5.
  unfold not_outside, d_working_range, d_limits, d_limit2, d_servos, d_servo.
  cbn [v0 v1 v2 v3 v4 v5 fst snd s_min s_max]. rewrite !deg_RA. cbn [flt RA]. rewrite !rltb_false.
  fold (in_degrees (-25) 48 (v2 t)).
  assert (B : in_degrees (-25) 48 (v2 t) ->
    ((exists beta, bar (v2 t) beta /\ in_degrees (-89) 134 (beta + v1 t)%R) <-> in_degrees (-89) 134 (to_servo (v2 t) + v1 t)%R)).
  { intros J. apply in_bar_range in J. split.
    - intros (b & Hb & I). apply C81_bar in Hb; [|exact J]. subst b. exact I.
    - intros I. exists (to_servo (v2 t)). split; [|exact I]. now apply C81_bar. }
  unfold in_degrees in *. pose proof degree_pos. tauto.
Qed.
Lemma classic_d_range t : d_working_range t \/ ~ d_working_range t.
Proof.
  assert (D : forall lo hi x, in_degrees lo hi x \/ ~ in_degrees lo hi x).
  { intros lo hi x. unfold in_degrees. apply classic_and.
    - destruct (Rle_dec (IZR lo * degree) x); auto.
    - destruct (Rle_dec x (IZR hi * degree)); auto. }
  unfold d_working_range. apply classic_and; [apply D|]. apply classic_and; [apply D|].
  destruct (D (-25) 48 (v2 t)) as [J|J]; [|tauto].
  apply in_bar_range in J as J'. apply classic_and; [apply D|]. apply classic_and.
  - destruct (D (-89) 134 (to_servo (v2 t) + v1 t)%R) as [Y|N].
    + left. exists (to_servo (v2 t)). split; [now apply C81_bar|exact Y].
    + right. intros (b & B & I). apply C81_bar in B; [|exact J']. subst b. contradiction.
  - repeat (apply classic_and; [apply D|]). apply D.
Qed.

(** ** The crank *)
Lemma cos_low x : (1 - x * x / 2 <= cos x)%R.
Proof.
  replace x with (2 * (x / 2))%R at 3 by field. rewrite cos_2a_sin.
  assert (sin (x / 2) * sin (x / 2) <= (x / 2) * (x / 2))%R; [|nra].
  assert (B : forall t, (0 <= t -> Rabs (sin t) <= t)%R).
  { intros t T. destruct (Req_dec t 0) as [->|N]; [rewrite sin_0, Rabs_R0; lra|].
    apply Rabs_le. pose proof (SIN_bound t). destruct (Rle_dec t 1) as [L|L].
    - pose proof PI2_3_2. pose proof (sin_lt_x t ltac:(lra)). assert (0 <= sin t)%R by (apply sin_ge_0; lra). lra.
    - lra. }
  destruct (Rle_dec 0 (x / 2)) as [P|P].
  - specialize (B _ P). pose proof (Rabs_pos (sin (x / 2))).
    rewrite <- (Rabs_right (sin (x / 2) * sin (x / 2))) by nra. rewrite Rabs_mult. nra.
  - specialize (B (- (x / 2))%R ltac:(lra)). rewrite sin_neg, Rabs_Ropp in B. pose proof (Rabs_pos (sin (x / 2))).
    rewrite <- (Rabs_right (sin (x / 2) * sin (x / 2))) by nra. rewrite Rabs_mult. nra.
Qed.
Lemma crank_low alpha : in_degrees (-25) 48 alpha -> (- (PI / 2) <= to_servo alpha <= PI / 3)%R.
Proof.
  intros J. pose proof (in_bar_range _ J) as H. pose proof (proj2 (C81_bar alpha (to_servo alpha) H) eq_refl) as ((B0 & B1) & E & _).
  cbv zeta in E. split; [exact B0|]. set (b := to_servo alpha) in *. clearbody b.
  destruct (Rle_dec b (PI / 3)) as [|N]; [assumption|]. exfalso. pose proof PI_digits as PD. pose proof degree_near as DN.
  pose proof (cs1 alpha) as QA. pose proof (cs1 b) as QB.
  assert (S1 : (sin alpha <= 0.75)%R).
  { unfold in_degrees in J. destruct (Rle_dec alpha 0) as [Y|Y].
    - assert (sin alpha <= 0)%R; [|lra]. replace (sin alpha) with (- sin (- alpha))%R by (rewrite sin_neg; ring).
      assert (0 <= sin (- alpha))%R by (apply sin_ge_0; lra). lra.
    - apply Rle_trans with (sin (48 * 0.01746))%R; [apply sin_incr_1; lra|].
      destruct (sin_bound (48 * 0.01746) 0 ltac:(lra) ltac:(lra)) as [_ K]. unfold sin_approx, sin_term in K. cbn in K. lra. }
  assert (S0 : (-0.5 <= sin alpha)%R).
  { pose proof (sin_incr_1 (- (PI / 6)) alpha ltac:(lra) ltac:(lra) ltac:(lra) ltac:(lra) ltac:(lra)) as K. rewrite sin_neg, sin_PI6 in K. lra. }
  assert (CA : (0 <= cos alpha)%R) by (apply cos_ge_0; lra).
  assert (SB : (0.86 <= sin b)%R).
  { pose proof (sin_incr_1 (PI / 3) b ltac:(lra) ltac:(lra) ltac:(lra) ltac:(lra) ltac:(lra)) as K. rewrite sin_PI3 in K. pose proof sqrt3_bounds. lra. }
  assert (CB : (0 <= cos b)%R) by (apply cos_ge_0; lra).
  set (s := sin alpha) in *. set (c := cos alpha) in *. set (sb := sin b) in *. set (cb := cos b) in *.
  assert (K : (2 * 2.619 * ((9.5 + 3.3 * s) * sb + 3.3 * c * cb) = 90.25 + 62.7 * s + 10.89 + 6.859161 - 105.8841)%R) by nra.
  assert (P : (0 <= c * cb)%R) by (apply Rmult_le_pos; assumption).
  assert (P2 : ((9.5 + 3.3 * s) * 0.86 <= (9.5 + 3.3 * s) * sb)%R) by (apply Rmult_le_compat_l; lra).
  lra.
Qed.
Lemma d_limits_crank (tl : V6 R) : axes (fun i => not_outside RA (at6 tl i) (fst (at6 (d_limits RA) i)) (snd (at6 (d_limits RA) i))) ->
  inside (- (PI / 2)) (PI / 3) (v2 (d_l2p RA tl) - v1 (d_l2p RA tl)).
Proof.
  unfold axes. cbn [at6]. intros (_ & _ & H & _). unfold d_limits, d_limit2, not_outside in H. cbn [v2 fst snd] in H. rewrite !deg_RA in H.
  cbn [flt RA] in H. rewrite !rltb_false in H. rewrite d_shafts. cbn [v1 v2]. unfold inside.
  match goal with |- (_ <= ?x <= _)%R => replace x with (to_servo (v2 tl)) by ring end. apply crank_low. unfold in_degrees. tauto.
Qed.

Section ArmD.
Context (fwd : V6 R -> V6 R) (inv : V6 R -> option (V6 R)).
Notation run := (d_run fwd inv).

(** C81: over every history since power-on the crank - the angle of the servo that drives joint
    2, less joint 1's - stays between -90 and 60 degrees.  There the way from the shafts to the
    joints and back is defined (in arithmetic with NaN) and loses nothing. *)
Theorem C81_crank (os : list (RobotModel.rop RA)) (r : robot RA) evs :
  run (d_on fwd) os = Ok (r, evs) ->
  let shafts := map6 s_cur (r_servos r) in
  (- (PI / 2) <= v2 shafts - v1 shafts <= PI / 3)%R /\
  exists joints : V6 R, d_p2l NRA (some6 shafts) = some6 joints /\ d_l2p NRA (some6 joints) = some6 shafts.
Proof.
  intros E. cbv zeta.
  assert (I : (- (PI / 2) <= v2 (map6 s_cur (r_servos r)) - v1 (map6 s_cur (r_servos r)) <= PI / 3)%R).
  { refine (difference_inside (- (PI / 2)) (PI / 3) fwd inv (d_l2p RA) (d_p2l RA) (d_limits RA) d_limits_crank os (d_on fwd) r evs (d_on_RR fwd) _ E).
    pose proof PI_RGT_0. unfold Step12, in_step, inside, timed. cbn [d_on robot_new with_targets r_servos d_servos d_servo v1 v2 s_elapsed s_start s_target s_cur s_vel fofz RA].
    rewrite Rminus_0_r. split; [reflexivity|]. split; [lra|]. split; [lra|]. split; [lra|]. exists 1%R. split; [lra|]. split; right; reflexivity. }
  split; [exact I|]. apply C40_d_physical. exact I.
Qed.

(** C81: the arm carries out exactly the joint targets of its working range.

    After any history [os] of calls and ticks since power-on: a new joint target, which is
    not where the arm already is, is carried out if it lies in the working range -- the six
    servos are sent to its angles, the one of joint 2 to the angle of the linkage, plus joint
    1's -- and moves nothing if it does not. *)
Theorem C81_working_range (os : list (RobotModel.rop RA)) (r : robot RA) evs0 (target : V6 R) :
  run (d_on fwd) os = Ok (r, evs0) ->
  r_method r = P2P -> (0 < r_maxvel r)%R -> r_trans r = false -> r_pchg r = false ->
  ~ close (current_logical RA (d_p2l RA) r) target ->
  exists r1 evs, run r [OSetAngles (A:=RA) target; OProcess] = Ok (r1, evs) /\
    (d_working_range target -> is_moving r1 = true /\
       forall beta, bar (v2 target) beta -> exists vels, servo_cmds evs = all_six (A:=RA) vels
         (mk6 (v0 target) (v1 target) (beta + v1 target)%R (v3 target) (v4 target) (v5 target))) /\
    (~ d_working_range target ->
       servo_cmds evs = [] /\ r_servos r1 = r_servos r /\ is_moving r1 = false).
Proof.
  intros E M V TR PC N.
  pose proof (RR_run fwd inv _ _ _ os _ _ _ (d_on_RR fwd) E) as H.
  pose proof (run_limits RA fwd inv _ _ _ os _ _ _ E) as L. cbn [r_servos d_on robot_new with_targets] in L.
  pose proof (within_d r target L) as W.
  destruct (classic_d_range target) as [I|O].
  - destruct (C35_legal_target_is_executed fwd inv _ _ _ r target H M V TR PC (proj2 W I) N) as (r1 & evs & vels & X & C & MV).
    exists r1, evs. split; [exact X|]. split; [|contradiction]. intros _. split; [exact MV|].
    intros beta B. destruct I as (_ & _ & J & _). apply C81_bar in B; [|now apply in_bar_range]. subst beta.
    exists vels. rewrite C. rewrite d_shafts. reflexivity.
  - assert (NW : ~ within (A:=RA) (d_l2p RA) (d_limits RA) (r_servos r) target) by (intros K; apply O, W; exact K).
    unfold d_run. cbn [r_run r_step bind]. unfold r_process, set_angles6. cbn [r_state with_state].
    unfold r_prepare. cbn [r_trans r_achg r_pchg with_state with_flags with_targets]. rewrite TR, PC. cbn [andb]. cbv zeta.
    match goal with |- context [angles_equal RA ?x ?y] =>
      change (angles_equal RA x y) with (angles_equal RA (current_logical RA (d_p2l RA) r) target) end.
    destruct (angles_equal RA (current_logical RA (d_p2l RA) r) target) eqn:AE; [exfalso; apply N; apply angles_equal_RA; exact AE|].
    cbn [r_method with_state with_flags with_targets with_starts]. rewrite M. cbn [bind].
    match goal with |- context [r_start_move _ _ _ _ _ _ ?x] => set (rs := x) in * end.
    assert (MS : r_method rs = P2P) by exact M.
    unfold r_start_move, r_plan. cbn [r_method with_steps]. rewrite MS. cbv zeta. cbn [bind].
    cbn [r_targetA r_servos r_startA r_maxvel with_steps].
    change (r_targetA rs) with target. change (r_servos rs) with (r_servos r).
    destruct (outside RA target (map6 fst (d_limits RA)) (map6 snd (d_limits RA))) eqn:O1.
    + cbn [bind]. eexists; eexists. split; [reflexivity|]. split; [contradiction|]. intros _. split; [reflexivity|]. split; reflexivity.
    + destruct (outside RA (d_l2p RA target) (map6 s_min (r_servos r)) (map6 s_max (r_servos r))) eqn:O2.
      * cbn [bind]. eexists; eexists. split; [reflexivity|]. split; [contradiction|]. intros _. split; [reflexivity|]. split; reflexivity.
      * exfalso. apply NW. split.
        -- apply (outside_false RA fwd inv (d_l2p RA) (d_p2l RA)) in O1. exact O1.
        -- apply (outside_false RA fwd inv (d_l2p RA) (d_p2l RA)) in O2. exact O2.
Qed.

(** whatever is asked of the arm, in every history since power-on, the six shafts stay in
    their ranges *)
Theorem C81_shafts_stay_in_range (os : list (RobotModel.rop RA)) (r : robot RA) evs :
  run (d_on fwd) os = Ok (r, evs) -> d_shaft_range (map6 s_cur (r_servos r)).
Proof.
  intros E.
  pose proof (C32_servos_stay_inside fwd inv (d_l2p RA) (d_p2l RA) (d_limits RA) (d_servos RA) os r evs) as K.
  pose proof degree_big as DB.
  destruct K as [K _]; [|exact E|].
  - unfold axes. cbn [at6]. unfold d_servos, d_servo.
    cbn [v0 v1 v2 v3 v4 v5 s_min s_max s_minF s_maxF s_start s_cur s_target s_maxvel s_vel].
    rewrite !deg_RA. cbn [fofz RA]. splits; try lia; lra.
  - unfold axes in K. cbn [at6] in K. unfold d_shaft_range, in_degrees, map6. cbn [v0 v1 v2 v3 v4 v5].
    unfold d_servos, d_servo in K. cbn [v0 v1 v2 v3 v4 v5 s_min s_max] in K. rewrite !deg_RA in K.
    cbn [fle RA] in K. tauto.
Qed.
End ArmD.

(** in any arithmetic, IEEE floats included: no command ever names an angle below the lower or
    above the upper end of its servo's range *)
Theorem C81_commands_in_range (A : arith) fwd inv (os : list (RobotModel.rop A)) (r : robot A) evs i v a :
  r_run A fwd inv (d_l2p A) (d_p2l A) (d_limits A) (robot_new A fwd (d_p2l A) (d_servos A)) os = Ok (r, evs) ->
  In (i, v, a) (servo_cmds evs) ->
  exists lo hi, In (i, lo, hi) [(0, -90, 90); (1, -70, 90); (2, -89, 134); (3, -90, 75); (4, -127, 14); (5, -75, 86)] /\
    flt A a (deg A lo) = false /\ flt A (deg A hi) a = false.
Proof.
  intros E I. destruct (C32_never_outside A fwd inv _ _ _ os _ _ _ i v a E I) as [R N].
  cbn [r_servos robot_new with_targets] in N. unfold not_outside in N.
  assert (Q : i = 0 \/ i = 1 \/ i = 2 \/ i = 3 \/ i = 4 \/ i = 5) by lia.
  destruct Q as [->|[->|[->|[->|[->| ->]]]]]; cbn [at6] in N; unfold d_servos, d_servo in N;
    cbn [v0 v1 v2 v3 v4 v5 s_min s_max] in N; do 2 eexists; (split; [|exact N]); cbn [In]; tauto.
Qed.

(** ** the pulses *)
(** config/servodata.h: at lo degrees the servo gets the first pulse width, at hi degrees the second
    (microseconds) *)
Definition d_calibration : V6 (Z * Z * Z * Z) :=
  mk6 (-90, 852, 90, 2091) (-70, 710, 90, 1780) (-89, 2099, 134, 571)
      (-90, 650, 75, 2370) (-127, 2370, 14, 860) (-75, 2290, 86, 570).
(** in every history since power-on, what the pins 3, 4, 5, 6, 9 and 10 carry is the pulse of the
    configured line at the shaft's angle *)
Theorem C81_pulses fwd inv (os : list (RobotModel.rop RA)) (r : robot RA) evs :
  d_run fwd inv (d_on fwd) os = Ok (r, evs) ->
  map6 s_pin (r_servos r) = mk6 3 4 5 6 9 10 /\
  axes (fun i => exists p, servo_move RA (at6 (r_servos r) i) = Ok p /\ servo_written RA (at6 (r_servos r) i) p = Some p /\
                           on_line (at6 d_calibration i) (s_cur (at6 (r_servos r) i)) p).
Proof.
  intros E. pose proof degree_big as DB.
  pose proof (C81_shafts_stay_in_range fwd inv os r evs E) as S.
  pose proof (run_wiring _ _ _ _ _ _ os _ _ _ E) as W.
  pose proof (run_limits RA fwd inv _ _ _ os _ _ _ E) as L.
  unfold d_on in W, L. cbn [r_servos robot_new with_targets] in W, L.
  unfold same_wiring, same_limits, axes in W, L. cbn [at6] in W, L.
  unfold d_servos, d_servo, wiring in W, L. cbn [v0 v1 v2 v3 v4 v5 s_min s_max s_pin s_virtual s_minF s_maxF] in W, L. rewrite !deg_RA in L.
  destruct W as (W0 & W1 & W2 & W3 & W4 & W5). destruct L as ((L0 & K0) & (L1 & K1) & (L2 & K2) & (L3 & K3) & (L4 & K4) & (L5 & K5)).
  destruct S as (S0 & S1 & S2 & S3 & S4 & S5). unfold map6 in S0, S1, S2, S3, S4, S5. cbn [v0 v1 v2 v3 v4 v5] in S0, S1, S2, S3, S4, S5.
  split; [unfold map6; congruence|]. unfold axes. cbn [at6]. unfold d_calibration. cbn [v0 v1 v2 v3 v4 v5].
  split; [|split; [|split; [|split; [|split]]]]; (eapply kit_pulse; [eassumption|eassumption|eassumption|assumption|lia|lia|lia]).
Qed.
Print Assumptions C81_working_range.
Print Assumptions C81_commands_in_range.

(** ** The hypotheses are met: just powered on.  Joint 1 at 30 degrees and joint 2 at 20 are in
    the working range and are carried out.  Joint 1 at -70 degrees with joint 2 at -0.1 radians: each is
    in its own range, but the servo of joint 2 would have to go below -89 degrees, and nothing
    moves. *)
Definition pose12 (x y : R) : V6 R := mk6 0%R x y 0%R 0%R 0%R.
Lemma pose12_away x y fwd : (1 / 10 <= Rabs x)%R -> ~ close (current_logical RA (d_p2l RA) (d_on fwd)) (pose12 x y).
Proof.
  intros X (_ & H & _). cbn [at6 pose12 v1] in H.
  match type of H with (Rabs ?e < _)%R => assert (Q : e = (- x)%R) by (change (IZR 0 - x = - x)%R; lra) end.
  rewrite Q, Rabs_Ropp in H. lra.
Qed.
Lemma crank_folds beta : bar (- (1 / 10)) beta -> (beta < -19 * degree)%R.
Proof.
  intros ((B0 & B1) & E & _). cbv zeta in E.
  destruct (Rlt_dec beta (-19 * degree)) as [|N]; [assumption|]. exfalso. pose proof degree_near as DN. pose proof PI2_3_2.
  rewrite sin_neg, cos_neg in E. set (s := sin (1 / 10)) in *. set (c := cos (1 / 10)) in *.
  assert (Q : (c * c + s * s = 1)%R) by apply cs1.
  assert (C1 : (0.995 <= c)%R) by (pose proof (cos_low (1 / 10)) as K; fold c in K; lra).
  assert (S1 : (0.05 <= s)%R).
  { destruct (sin_bound (1 / 10) 0 ltac:(lra) ltac:(lra)) as [K _]. fold s in K. unfold sin_approx, sin_term in K. cbn in K. lra. }
  assert (S2 : (s <= 0.1)%R) by (pose proof (sin_lt_x (1 / 10) ltac:(lra)) as K; fold s in K; lra).
  pose proof (cs1 beta) as QB. set (sb := sin beta) in *. set (cb := cos beta) in *.
  assert (K : (2 * 2.619 * ((9.5 - 3.3 * s) * sb + 3.3 * c * cb) = 90.25 - 62.7 * s + 10.89 + 6.859161 - 105.8841)%R) by nra.
  assert (P : (0 <= (9.5 - 3.3 * s) * sb + 3.3 * c * cb)%R).
  { destruct (Rle_dec 0 beta) as [Y|Y].
    - assert (0 <= sb)%R by (apply sin_ge_0; lra). assert (0 <= cb)%R by (apply cos_ge_0; lra). nra.
    - assert (- sb < - beta)%R by (pose proof (sin_lt_x (- beta) ltac:(lra)) as Z0; rewrite sin_neg in Z0; exact Z0).
      assert (1 - beta * beta / 2 <= cb)%R by apply cos_low.
      assert (0.94 <= cb)%R by nra. assert (-0.332 <= sb)%R by lra. nra. }
  nra.
Qed.
Example C81_example fwd inv :
  (exists r1 evs, d_run fwd inv (d_on fwd) [OSetAngles (A:=RA) (pose12 (30 * degree) (20 * degree)); OProcess] = Ok (r1, evs) /\
     is_moving r1 = true /\ length (servo_cmds evs) = 6%nat) /\
  (exists r1 evs, d_run fwd inv (d_on fwd) [OSetAngles (A:=RA) (pose12 (-70 * degree) (- (1 / 10))); OProcess] = Ok (r1, evs) /\
     is_moving r1 = false /\ servo_cmds evs = []).
Proof.
  pose proof degree_near as DN. pose proof PI2_3_2.
  split.
  - destruct (C81_working_range fwd inv [] (d_on fwd) [] (pose12 (30 * degree) (20 * degree))) as (r1 & evs & E & Y & _);
      [reflexivity|reflexivity|cbn; lra|reflexivity|reflexivity|apply pose12_away; rewrite Rabs_right; lra|].
    exists r1, evs. split; [exact E|].
    assert (A : (- (PI / 6) <= 20 * degree <= PI / 3)%R) by lra.
    pose proof (proj2 (C81_bar (20 * degree) (to_servo (20 * degree)) A) eq_refl) as BAR.
    destruct Y as [M C].
    + unfold d_working_range, in_degrees, pose12. cbn [v0 v1 v2 v3 v4 v5]. splits; try lra.
      exists (to_servo (20 * degree)). split; [exact BAR|]. destruct BAR as ((L & U) & BE & _).
      pose proof PI_digits. lra.
    + split; [exact M|]. destruct (C _ BAR) as [vels ->]. reflexivity.
  - destruct (C81_working_range fwd inv [] (d_on fwd) [] (pose12 (-70 * degree) (- (1 / 10)))) as (r1 & evs & E & _ & Y);
      [reflexivity|reflexivity|cbn; lra|reflexivity|reflexivity|apply pose12_away; rewrite Rabs_left; lra|].
    exists r1, evs. split; [exact E|]. destruct Y as (C & _ & M); [|auto].
    intros (_ & _ & _ & (beta & B & [I _]) & _). unfold pose12 in B, I. cbn [v1 v2] in B, I. apply crank_folds in B. lra.
Qed.
