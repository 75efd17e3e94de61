(** * PropKit: the working range of the robot kit (C64).

    config/mp-robot-kit.h with RobotController: which joint targets the kit carries out,
    stated with the numbers of the configuration's table written out. *)
From Coq Require Import Reals Lra.
From Verif Require Import Base Arith ServoModel ServoSpec ServoProofs RobotModel RobotSpec RobotProofs RobotExact
  PropServo PropRobot KinModel ConfigModel.
Set Default Goal Selector "!".

(** ** Specification *)
(** n degrees, in radians: the literal of Arduino's DEG_TO_RAD *)
Definition degree : R := (17453292519943295769236907684886 / 10 ^ 33)%R.
Definition in_degrees (lo hi : Z) (x : R) : Prop := (IZR lo * degree <= x <= IZR hi * degree)%R.

(** the joint angles the kit can take: each joint in its own range and, because the forearm is
    driven over a parallelogram by a servo on the base, joints 1 and 2 together in the range
    of that servo *)
Definition working_range (a : V6 R) : Prop :=
  in_degrees (-90) 90 (v0 a) /\
  in_degrees (-45) 90 (v1 a) /\
  in_degrees (-45) 135 (v2 a) /\ in_degrees (-45) 135 (v1 a + v2 a)%R /\
  in_degrees (-90) 85 (v3 a) /\
  in_degrees (-140) 15 (v4 a) /\
  in_degrees (-90) 60 (v5 a).

(** the shaft angles the six servos of the kit may take *)
Definition shaft_range (a : V6 R) : Prop :=
  in_degrees (-90) 90 (v0 a) /\ in_degrees (-45) 90 (v1 a) /\ in_degrees (-45) 135 (v2 a) /\
  in_degrees (-90) 85 (v3 a) /\ in_degrees (-140) 15 (v4 a) /\ in_degrees (-90) 60 (v5 a).

(** the shafts' angles for given joint angles *)
Definition shafts_for (a : V6 R) : V6 R := mk6 (v0 a) (v1 a) (v1 a + v2 a)%R (v3 a) (v4 a) (v5 a).

Definition kit_run (fwd : V6 R -> V6 R) (inv : V6 R -> option (V6 R)) :=
  r_run RA fwd inv (kit_l2p RA) (kit_p2l RA) (kit_limits RA).
Definition kit_on (fwd : V6 R -> V6 R) : robot RA := robot_new RA fwd (kit_p2l RA) (kit_servos RA).

(** ** Proofs *)
Lemma deg_RA n : deg RA n = (IZR n * degree)%R.
Proof.
  assert (D : @eq R (DEG_TO_RAD RA) degree).
  { unfold DEG_TO_RAD, degree. cbn [ddec RA]. unfold rdec. cbv iota.
    change (powerRZ 10 (-33)) with (/ 10 ^ Pos.to_nat 33)%R.
    replace (Pos.to_nat 33) with 33%nat by reflexivity. unfold Rdiv. ring. }
  unfold deg. rewrite D. unfold dnum. cbn [d2f dmul dopp RA].
  destruct (n <? 0) eqn:N.
  - rewrite rdec_int, opp_IZR. lra.
  - rewrite rdec_int. reflexivity.
Qed.

Lemma kit_shafts (a : V6 R) : kit_l2p RA a = shafts_for a.
Proof. unfold kit_l2p, shafts_for. cbn [fadd RA]. rewrite Rplus_comm. reflexivity. Qed.

Lemma degree_pos : (0 < degree)%R.
Proof. unfold degree. apply Rdiv_lt_0_compat; [lra|apply pow_lt; lra]. Qed.

Lemma degree_big : (1 / 100 < degree)%R.
Proof. unfold degree. apply (Rmult_lt_reg_r (10 ^ 33)); [apply pow_lt; lra|]. unfold Rdiv at 2. rewrite Rmult_assoc, Rinv_l, Rmult_1_r; [lra|apply pow_nonzero; lra]. Qed.

Lemma kit_on_RR fwd : RR (kit_on fwd).
Proof.
  pose proof degree_big.
  unfold RR, kit_on, axes, SR, sane, ServoProofs.in_range. cbn [r_servos robot_new with_targets at6].
  unfold kit_servos, kit_servo. cbn [v0 v1 v2 v3 v4 v5 s_min s_max s_minF s_maxF s_start s_cur s_target s_maxvel s_vel].
  rewrite !deg_RA. cbn [fofz RA]. splits; try lia; lra.
Qed.

Lemma within_kit (r : robot RA) (t : V6 R) : same_limits RA (kit_servos RA) (r_servos r) ->
  (within (A:=RA) (kit_l2p RA) (kit_limits RA) (r_servos r) t <-> working_range t).
Proof.
  intros L. unfold within. rewrite kit_shafts. unfold same_limits, axes in L. cbn [at6] in L.
  destruct L as ((L0 & K0) & (L1 & K1) & (L2 & K2) & (L3 & K3) & (L4 & K4) & (L5 & K5)).
  unfold axes. cbn [at6]. rewrite L0, K0, L1, K1, L2, K2, L3, K3, L4, K4, L5, K5.
  unfold not_outside, working_range, in_degrees, kit_limits, kit_servos, kit_servo, shafts_for.
  cbn [v0 v1 v2 v3 v4 v5 fst snd s_min s_max]. rewrite !deg_RA. cbn [flt RA]. rewrite !rltb_false.
  pose proof degree_pos. tauto.
Qed.

Lemma classic_and (P Q : Prop) : P \/ ~ P -> Q \/ ~ Q -> (P /\ Q) \/ ~ (P /\ Q).
Proof. tauto. Qed.
Lemma classic_range t : working_range t \/ ~ working_range t.
Proof.
  assert (D : forall lo hi x, in_degrees lo hi x \/ ~ in_degrees lo hi x).
  { intros lo hi x. unfold in_degrees. apply classic_and.
    - destruct (Rle_dec (IZR lo * degree) x); auto.
    - destruct (Rle_dec x (IZR hi * degree)); auto. }
  unfold working_range. repeat (apply classic_and; [apply D|]). apply D.
Qed.

Section Kit.
Context (fwd : V6 R -> V6 R) (inv : V6 R -> option (V6 R)).
Notation run := (kit_run fwd inv).
Notation step_of := (r_start_move RA fwd inv (kit_l2p RA) (kit_p2l RA) (kit_limits RA)).

(** ** C64 the kit carries out exactly the joint targets of its working range.

    After any history [os] of calls and ticks since power-on: a new joint target, which is not
    where the arm already is, is carried out if it lies in the working range, and moves
    nothing if it does not. *)
Theorem C64_working_range (os : list (RobotModel.rop RA)) (r : robot RA) evs0 (target : V6 R) :
  run (kit_on fwd) os = Ok (r, evs0) ->
  r_method r = P2P -> (0 < r_maxvel r)%R -> r_trans r = false -> r_pchg r = false ->
  ~ close (current_logical RA (kit_p2l RA) r) target ->
  exists r1 evs, run r [OSetAngles (A:=RA) target; OProcess] = Ok (r1, evs) /\
    (working_range target ->
       (exists vels, servo_cmds evs = all_six (A:=RA) vels (shafts_for target)) /\ is_moving r1 = true) /\
    (~ working_range target ->
       servo_cmds evs = [] /\ r_servos r1 = r_servos r /\ is_moving r1 = false).
Proof.
  intros E M V TR PC N.
  pose proof (RR_run fwd inv _ _ _ os _ _ _ (kit_on_RR fwd) E) as H.
  pose proof (run_limits RA fwd inv _ _ _ os _ _ _ E) as L. cbn [r_servos kit_on robot_new with_targets] in L.
  pose proof (within_kit r target L) as W.
  destruct (classic_range target) as [I|O].
  - destruct (C35_legal_target_is_executed fwd inv _ _ _ r target H M V TR PC (proj2 W I) N) as (r1 & evs & vels & X & C & MV).
    exists r1, evs. split; [exact X|]. split; [|contradiction]. intros _. split; [|exact MV].
    exists vels. rewrite C. rewrite kit_shafts. reflexivity.
  - assert (NW : ~ within (A:=RA) (kit_l2p RA) (kit_limits RA) (r_servos r) target) by (intros K; apply O, W; exact K).
    unfold kit_run. cbn [r_run r_step bind]. unfold r_process, set_angles6. cbn [r_state with_state].
    unfold r_prepare. cbn [r_trans r_achg r_pchg with_state with_flags with_targets]. rewrite TR, PC. cbn [andb]. cbv zeta.
    match goal with |- context [angles_equal RA ?x ?y] =>
      change (angles_equal RA x y) with (angles_equal RA (current_logical RA (kit_p2l RA) r) target) end.
    destruct (angles_equal RA (current_logical RA (kit_p2l RA) r) target) eqn:AE; [exfalso; apply N; apply angles_equal_RA; exact AE|].
    cbn [r_method with_state with_flags with_targets with_starts]. rewrite M. cbn [bind].
    match goal with |- context [r_start_move _ _ _ _ _ _ ?x] => set (rs := x) in * end.
    assert (MS : r_method rs = P2P) by exact M.
    unfold r_start_move, r_plan. cbn [r_method with_steps]. rewrite MS. cbv zeta. cbn [bind].
    cbn [r_targetA r_servos r_startA r_maxvel with_steps].
    change (r_targetA rs) with target. change (r_servos rs) with (r_servos r).
    destruct (outside RA target (map6 fst (kit_limits RA)) (map6 snd (kit_limits RA))) eqn:O1.
    + cbn [bind]. eexists; eexists. split; [reflexivity|]. split; [contradiction|]. intros _. split; [reflexivity|]. split; reflexivity.
    + destruct (outside RA (kit_l2p RA target) (map6 s_min (r_servos r)) (map6 s_max (r_servos r))) eqn:O2.
      * cbn [bind]. eexists; eexists. split; [reflexivity|]. split; [contradiction|]. intros _. split; [reflexivity|]. split; reflexivity.
      * exfalso. apply NW. split.
        -- apply (outside_false RA fwd inv (kit_l2p RA) (kit_p2l RA)) in O1. exact O1.
        -- apply (outside_false RA fwd inv (kit_l2p RA) (kit_p2l RA)) in O2. exact O2.
Qed.

(** whatever is asked of the kit, in every history since power-on, the six shafts stay in
    their ranges *)
Theorem C64_shafts_stay_in_range (os : list (RobotModel.rop RA)) (r : robot RA) evs :
  run (kit_on fwd) os = Ok (r, evs) -> shaft_range (map6 s_cur (r_servos r)).
Proof.
  intros E.
  pose proof (C32_servos_stay_inside fwd inv (kit_l2p RA) (kit_p2l RA) (kit_limits RA) (kit_servos RA) os r evs) as K.
  pose proof degree_big as DB.
  destruct K as [K _]; [|exact E|].
  - unfold axes. cbn [at6]. unfold kit_servos, kit_servo.
    cbn [v0 v1 v2 v3 v4 v5 s_min s_max s_minF s_maxF s_start s_cur s_target s_maxvel s_vel].
    rewrite !deg_RA. cbn [fofz RA]. splits; try lia; lra.
  - unfold axes in K. cbn [at6] in K. unfold shaft_range, in_degrees, map6. cbn [v0 v1 v2 v3 v4 v5].
    unfold kit_servos, kit_servo in K. cbn [v0 v1 v2 v3 v4 v5 s_min s_max] in K. rewrite !deg_RA in K.
    cbn [fle RA] in K. tauto.
Qed.
End Kit.

(** in any arithmetic, IEEE floats included: no command ever names an angle below the lower or
    above the upper end of its servo's range *)
Theorem C64_commands_in_range (A : arith) fwd inv (os : list (RobotModel.rop A)) (r : robot A) evs i v a :
  r_run A fwd inv (kit_l2p A) (kit_p2l A) (kit_limits A) (robot_new A fwd (kit_p2l A) (kit_servos A)) os = Ok (r, evs) ->
  In (i, v, a) (servo_cmds evs) ->
  exists lo hi, In (i, lo, hi) [(0, -90, 90); (1, -45, 90); (2, -45, 135); (3, -90, 85); (4, -140, 15); (5, -90, 60)] /\
    flt A a (deg A lo) = false /\ flt A (deg A hi) a = false.
Proof.
  intros E I. destruct (C32_never_outside A fwd inv _ _ _ os _ _ _ i v a E I) as [R N].
  cbn [r_servos robot_new with_targets] in N. unfold not_outside in N.
  assert (Q : i = 0 \/ i = 1 \/ i = 2 \/ i = 3 \/ i = 4 \/ i = 5) by lia.
  destruct Q as [->|[->|[->|[->|[->| ->]]]]]; cbn [at6] in N; unfold kit_servos, kit_servo in N;
    cbn [v0 v1 v2 v3 v4 v5 s_min s_max] in N; do 2 eexists; split; [cbn [In]| exact N | cbn [In]| exact N | cbn [In]| exact N | cbn [In]| exact N | cbn [In]| exact N | cbn [In]| exact N]; tauto.
Qed.

(** ** The hypotheses are met: just powered on, with the arm at 0.  Joints 1 and 2 at 45 and 90
    degrees are in the working range and are carried out; at 60 and 90 degrees each is in its
    own range, but not both together, and nothing moves. *)
Definition elbow (x y : Z) : V6 R := mk6 0%R (IZR x * degree)%R (IZR y * degree)%R 0%R 0%R 0%R.
Lemma elbow_away x y fwd : (1 <= x) -> ~ close (current_logical RA (kit_p2l RA) (kit_on fwd)) (elbow x y).
Proof.
  intros X (_ & H & _). pose proof degree_big as DB. apply IZR_le in X.
  cbn [at6 elbow v1] in H. cbn [current_logical kit_on robot_new with_targets r_servos kit_servos kit_servo kit_p2l v1 map6 s_cur fofz RA] in H.
  assert (1 * degree <= IZR x * degree)%R by (apply Rmult_le_compat_r; lra).
  match type of H with (Rabs ?e < _)%R => assert (Q : e = (- (IZR x * degree))%R) by (change (IZR 0 - IZR x * degree = - (IZR x * degree))%R; lra) end.
  rewrite Q, Rabs_Ropp in H. rewrite Rabs_right in H; [lra|]. lra.
Qed.
Example C64_example fwd inv :
  (exists r1 evs, kit_run fwd inv (kit_on fwd) [OSetAngles (A:=RA) (elbow 45 90); OProcess] = Ok (r1, evs) /\
     is_moving r1 = true /\ length (servo_cmds evs) = 6%nat) /\
  (exists r1 evs, kit_run fwd inv (kit_on fwd) [OSetAngles (A:=RA) (elbow 60 90); OProcess] = Ok (r1, evs) /\
     is_moving r1 = false /\ servo_cmds evs = []).
Proof.
  pose proof degree_big as DB.
  split.
  - destruct (C64_working_range fwd inv [] (kit_on fwd) [] (elbow 45 90)) as (r1 & evs & E & Y & _);
      [reflexivity|reflexivity|cbn; lra|reflexivity|reflexivity|apply elbow_away; lia|].
    exists r1, evs. split; [exact E|]. destruct Y as [[vels C] M]; [unfold working_range, in_degrees, elbow; cbn [v0 v1 v2 v3 v4 v5]; splits; lra|].
    split; [exact M|]. rewrite C. reflexivity.
  - destruct (C64_working_range fwd inv [] (kit_on fwd) [] (elbow 60 90)) as (r1 & evs & E & _ & Y);
      [reflexivity|reflexivity|cbn; lra|reflexivity|reflexivity|apply elbow_away; lia|].
    exists r1, evs. split; [exact E|]. destruct Y as (C & _ & M); [|auto].
    intros (_ & _ & _ & [_ K] & _). unfold elbow in K. cbn [v1 v2] in K. lra.
Qed.

(** ** the pulses *)
(** config/mp-robot-kit.h, servoConfig: at lo degrees the servo gets the first pulse width, at hi degrees the
    second (microseconds) *)
Definition calibration : V6 (Z * Z * Z * Z) :=
  mk6 (-90, 700, 90, 2380) (-45, 710, 90, 1909) (-45, 2290, 135, 650)
      (-90, 740, 85, 2260) (-140, 730, 15, 2340) (-90, 740, 60, 2200).
(** the pulse is on the straight line between the two, rounded down to a whole microsecond *)
Definition on_line (c : Z * Z * Z * Z) (x : R) (p : Z) : Prop :=
  let '(lo, a, hi, b) := c in
  let line := (IZR a + (x - IZR lo * degree) / (IZR hi * degree - IZR lo * degree) * (IZR b - IZR a))%R in
  (IZR p <= line < IZR p + 1)%R.

Section Wiring.
Context (A : arith) (fwd : V6 (F A) -> V6 (F A)) (inv : V6 (F A) -> option (V6 (F A))).
Context (l2p p2l : V6 (F A) -> V6 (F A)) (limits : V6 (F A * F A)).
Definition wiring (s : servo A) : Z * bool * Z * Z := (s_pin s, s_virtual s, s_minF s, s_maxF s).
Definition same_wiring (s s' : V6 (servo A)) : Prop := axes (fun i => wiring (at6 s' i) = wiring (at6 s i)).
Lemma same_wiring_refl s : same_wiring s s.
Proof. unfold same_wiring, axes. splits; reflexivity. Qed.
Lemma process_wiring (s s' : servo A) dt p : servo_process A s dt = Ok (s', p) -> wiring s' = wiring s.
Proof.
  unfold servo_process. destruct (servo_move A _); [|discriminate]. cbn [bind]. intros H; inversion H; subst.
  unfold servo_advance. cbv zeta. repeat match goal with |- context [if ?b then _ else _] => destruct b end; reflexivity.
Qed.
Lemma tick_wiring (r r' : robot A) dt : r_tick A r dt = Ok r' -> same_wiring (r_servos r) (r_servos r').
Proof.
  unfold r_tick. intros H.
  repeat match type of H with
  | bind (bind ?x _) _ = _ => let E := fresh "E" in destruct x as [[? ?]|] eqn:E; cbn [bind] in H; [|discriminate];
       apply process_wiring in E
  end.
  inversion H. unfold same_wiring, axes. cbn [at6 r_servos with_servos v0 v1 v2 v3 v4 v5]. splits; assumption.
Qed.
Lemma command_wiring (s : servo A) v a : wiring (servo_set_target A (servo_set_vel A s v) a) = wiring s.
Proof. unfold servo_set_vel. repeat match goal with |- context [if ?b then _ else _] => destruct b end; reflexivity. Qed.
Lemma step_wiring (r r' : robot A) o e : r_step A fwd inv l2p p2l limits r o = Ok (r', e) -> same_wiring (r_servos r) (r_servos r').
Proof.
  intros H. destruct o.
  1-2,4-5,6-9: cbn in H; inversion H; subst; cbn; apply same_wiring_refl.
  - cbn in H. unfold set_angle in H. destruct ((0 <=? i) && (i <? 6)); [|discriminate].
    cbn in H; inversion H; subst; cbn; apply same_wiring_refl.
  - cbn [r_step] in H. apply process_cases in H as [[_ ->]|(rs & H & <- & _)].
    + apply same_wiring_refl.
    + apply start_move_commands in H as [[_ ->]|(tl & vels & _ & _ & _ & ->)].
      * apply same_wiring_refl.
      * unfold same_wiring, axes. cbn [at6 zip6 v0 v1 v2 v3 v4 v5 fst snd]. splits; apply command_wiring.
  - apply step_tick in H as [H ->]. eapply tick_wiring; eauto.
Qed.
Lemma run_wiring os : forall (r r' : robot A) e, r_run A fwd inv l2p p2l limits r os = Ok (r', e) -> same_wiring (r_servos r) (r_servos r').
Proof.
  induction os as [|o os IH]; intros r r' e H; cbn [r_run] in H.
  - inversion H; subst. apply same_wiring_refl.
  - destruct (r_step A fwd inv l2p p2l limits r o) as [[r1 e1]|] eqn:E1; [|discriminate]. cbn [bind] in H.
    destruct (r_run A fwd inv l2p p2l limits r1 os) as [[r2 e2]|] eqn:E2; [|discriminate]. cbn [bind] in H. inversion H; subst.
    apply step_wiring in E1. apply IH in E2. unfold same_wiring, axes in *. splits; intuition congruence.
Qed.
End Wiring.

Lemma kit_pulse (s : servo RA) pin a b lo hi : wiring RA s = (pin, false, a, b) ->
  @eq R (s_min s) (IZR lo * degree)%R -> @eq R (s_max s) (IZR hi * degree)%R -> in_degrees lo hi (s_cur s) ->
  lo < hi -> 0 <= a <= 2147483647 -> 0 <= b <= 2147483647 ->
  exists p, servo_move RA s = Ok p /\ servo_written RA s p = Some p /\ on_line (lo, a, hi, b) (s_cur s) p.
Proof.
  intros W L K S O HA HB. unfold wiring in W. injection W as _ V WA WB.
  assert (D : (IZR lo * degree < IZR hi * degree)%R) by (apply Rmult_lt_compat_r; [apply degree_pos|apply IZR_lt; exact O]).
  destruct (C30_pulse_in_calibration s) as (p & M & _ & B & _); try (rewrite WA || rewrite WB); auto.
  - rewrite L, K. exact D.
  - rewrite L, K. exact S.
  - exists p. split; [exact M|]. split; [unfold servo_written; now rewrite V|].
    unfold on_line. rewrite L, K, WA, WB in B. unfold calibrated in B. exact B.
Qed.

(** in every history since power-on, what the six pins of the kit (3, 4, 5, 6, 9, 10) carry is the pulse of the
    configured line at the shaft's angle *)
Theorem C64_pulses fwd inv (os : list (RobotModel.rop RA)) (r : robot RA) evs :
  kit_run fwd inv (kit_on fwd) os = Ok (r, evs) ->
  map6 s_pin (r_servos r) = mk6 3 4 5 6 9 10 /\
  axes (fun i => exists p, servo_move RA (at6 (r_servos r) i) = Ok p /\ servo_written RA (at6 (r_servos r) i) p = Some p /\
                           on_line (at6 calibration i) (s_cur (at6 (r_servos r) i)) p).
Proof.
  intros E. pose proof degree_big as DB.
  pose proof (C64_shafts_stay_in_range fwd inv os r evs E) as S.
  pose proof (run_wiring _ _ _ _ _ _ os _ _ _ E) as W.
  pose proof (run_limits RA fwd inv _ _ _ os _ _ _ E) as L.
  unfold kit_on in W, L. cbn [r_servos robot_new with_targets] in W, L.
  unfold same_wiring, same_limits, axes in W, L. cbn [at6] in W, L.
  unfold kit_servos, kit_servo, wiring in W, L. cbn [v0 v1 v2 v3 v4 v5 s_min s_max s_pin s_virtual s_minF s_maxF] in W, L. rewrite !deg_RA in L.
  destruct W as (W0 & W1 & W2 & W3 & W4 & W5). destruct L as ((L0 & K0) & (L1 & K1) & (L2 & K2) & (L3 & K3) & (L4 & K4) & (L5 & K5)).
  destruct S as (S0 & S1 & S2 & S3 & S4 & S5). unfold map6 in S0, S1, S2, S3, S4, S5. cbn [v0 v1 v2 v3 v4 v5] in S0, S1, S2, S3, S4, S5.
  split; [unfold map6; congruence|]. unfold axes. cbn [at6]. unfold calibration. cbn [v0 v1 v2 v3 v4 v5].
  split; [|split; [|split; [|split; [|split]]]]; (eapply kit_pulse; [eassumption|eassumption|eassumption|assumption|lia|lia|lia]).
Qed.
(** the gripper of the kit (axis 6, pin 20): 0 is 1888 microseconds, 1 degree is 1122 *)
Theorem C64_gripper (s : servo RA) : wiring RA s = wiring RA (hd s (kit_axis_servos RA)) ->
  s_min s = s_min (hd s (kit_axis_servos RA)) -> s_max s = s_max (hd s (kit_axis_servos RA)) -> in_degrees 0 1 (s_cur s) ->
  s_pin s = 20 /\ exists p, servo_move RA s = Ok p /\ servo_written RA s p = Some p /\ on_line (0, 1888, 1, 1122) (s_cur s) p.
Proof.
  unfold kit_axis_servos, wiring. cbn [hd s_min s_max s_pin s_virtual s_minF s_maxF]. rewrite !deg_RA. intros W L K S.
  split; [congruence|]. eapply kit_pulse; [eassumption|eassumption|eassumption|assumption|lia|lia|lia].
Qed.
(** a case: at power-on the base servo stands at 0 degrees and gets 1540 microseconds *)
Example C64_pulse_case fwd : servo_move RA (at6 (r_servos (kit_on fwd)) 0) = Ok 1540.
Proof.
  destruct (C64_pulses fwd (fun _ => None) [] (kit_on fwd) [] eq_refl) as [_ ((p & M & _ & O) & _)].
  rewrite M. f_equal. pose proof degree_big as DB. unfold on_line, calibration in O. cbn [at6 v0] in O.
  cbn [kit_on robot_new with_targets r_servos kit_servos kit_servo s_cur v0 fofz RA] in O.
  replace ((0 - -90 * degree) / (90 * degree - -90 * degree))%R with (1 / 2)%R in O by (field; lra).
  assert (IZR p <= 1540)%R by lra. assert (1540 < IZR p + 1)%R by lra. rewrite <- plus_IZR in H0. apply le_IZR in H. apply lt_IZR in H0. lia.
Qed.
