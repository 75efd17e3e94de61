(** * C32-C39, C51: the robot controller.

    Everything is stated for arbitrary kinematics [fwd]/[inv], joint coupling [l2p]/[p2l]
    and logical limits; where nothing is said about the arithmetic [A], also for IEEE floats. *)
From Verif Require Import Base Arith ServoModel ServoSpec ServoProofs PropServo.
From Verif Require Import RobotModel RobotSpec RobotProofs RobotExact.
From Coq Require Import Reals Lra Floats.SpecFloat.
Open Scope Z_scope.

Section Generic.
Context (A : arith) (fwd : V6 (F A) -> V6 (F A)) (inv : V6 (F A) -> option (V6 (F A))).
Context (l2p p2l : V6 (F A) -> V6 (F A)) (limits : V6 (F A * F A)).
Notation step := (r_step A fwd inv l2p p2l limits).
Notation run := (r_run A fwd inv l2p p2l limits).
Notation process := (r_process A fwd inv l2p p2l limits).

(** ** C32 no servo is commanded outside its limits *)

(** one call commands either no servo or all six, and then all limits are respected *)
Theorem C32_all_or_none (r r' : robot A) o evs : step r o = Ok (r', evs) ->
  servo_cmds evs = [] \/
  exists logical speeds, servo_cmds evs = all_six speeds (l2p logical) /\
                         within l2p limits (r_servos r) logical.
Proof.
  intros H. destruct o.
  1-2,4-5,6-9: cbn in H; inversion H; subst; auto.
  - cbn in H. unfold set_angle in H. destruct ((0 <=? i) && (i <? 6)); [|discriminate].
    cbn in H; inversion H; subst; auto.
  - cbn [r_step] in H. apply process_cases in H as [[-> _]|(rs & H & X & _)]; auto.
    apply start_move_commands in H as [[H _]|(tl & vels & L1 & L2 & H & _)]; auto.
    right. exists tl, vels. split; [exact H|]. split; [exact L1|]. rewrite X in L2. exact L2.
  - apply step_tick in H as [_ ->]. auto.
Qed.

(** over every history: whatever is requested, an angle outside a servo's limits is never
    commanded *)
Theorem C32_never_outside (os : list (rop A)) : forall (r r' : robot A) evs i v a,
  run r os = Ok (r', evs) -> In (i, v, a) (servo_cmds evs) ->
  0 <= i < 6 /\ not_outside A a (s_min (at6 (r_servos r) i)) (s_max (at6 (r_servos r) i)).
Proof.
  induction os as [|o os IH]; intros r r' evs i v a H I; cbn [r_run] in H.
  - inversion H; subst. contradiction.
  - destruct (step r o) as [[r1 e1]|] eqn:E1; [|discriminate]. cbn [bind] in H.
    destruct (run r1 os) as [[r2 e2]|] eqn:E2; [|discriminate]. cbn [bind] in H. inversion H; subst.
    rewrite servo_cmds_app in I. apply in_app_iff in I as [I|I].
    + apply C32_all_or_none in E1 as [E1|(tl & vels & E1 & _ & W)]; rewrite E1 in I; [contradiction|].
      unfold axes in W. cbn [at6] in W. destruct W as (W0 & W1 & W2 & W3 & W4 & W5).
      cbn [all_six In] in I.
      repeat destruct I as [I|I]; try contradiction; inversion I; subst; split; try lia; assumption.
    + apply step_limits in E1. specialize (IH _ _ _ _ _ _ E2 I) as [R N]. split; [exact R|].
      unfold same_limits, axes in E1. cbn [at6] in E1.
      destruct E1 as ((L0 & K0) & (L1 & K1) & (L2 & K2) & (L3 & K3) & (L4 & K4) & (L5 & K5)).
      assert (i = 0 \/ i = 1 \/ i = 2 \/ i = 3 \/ i = 4 \/ i = 5) as Q by lia.
      destruct Q as [->|[->|[->|[->|[->| ->]]]]]; cbn [at6] in *; unfold not_outside in *;
        rewrite ?L0, ?K0, ?L1, ?K1, ?L2, ?K2, ?L3, ?K3, ?L4, ?K4, ?L5, ?K5 in N; exact N.
Qed.

(** ** C33 transactions *)

(** with a transaction open, after a target has been set, nothing is commanded, whatever
    is called (other than endTransaction) *)
Theorem C33_nothing_moves_inside (r r' : robot A) o os evs :
  r_trans r = true -> is_set o -> Forall (fun o => ~ is_end o) os ->
  run r (o :: os) = Ok (r', evs) -> evs = [] /\ r_trans r' = true.
Proof.
  intros T S N H. cbn [r_run] in H.
  destruct (step r o) as [[r1 e1]|] eqn:E1; [|discriminate]. cbn [bind] in H.
  destruct (run r1 os) as [[r2 e2]|] eqn:E2; [|discriminate]. cbn [bind] in H. inversion H; subst.
  assert (X : e1 = [] /\ r_trans r1 = true /\ r_state r1 = PREPARE_MOVE).
  { destruct o; unfold is_set in S; cbn in S; try (exfalso; tauto);
      try (cbn in E1; inversion E1; subst; cbn; auto; fail).
    cbn in E1. unfold set_angle in E1. destruct ((0 <=? i) && (i <? 6)); [|discriminate].
    cbn in E1; inversion E1; subst; cbn; auto. }
  destruct X as (-> & T1 & S1).
  apply quiet_run in E2 as (-> & T2 & _); auto.
Qed.

Lemma robot_new_clean servos : clean A (robot_new A fwd p2l servos).
Proof. unfold clean; cbn; auto. Qed.

Lemma undisturbed_inside (os : list (rop A)) : Forall not_stop os ->
  undisturbed true os /\ open_after true os = true.
Proof.
  induction 1 as [|o os [H1 H2] _ [U O]]; cbn; auto.
  destruct o; cbn in *; auto; exfalso; auto.
Qed.

Lemma run_commit (r0 r1 : robot A) os e1 : Forall not_stop os -> r_state r0 = IDLE ->
  run r0 (OStart :: os ++ [OEnd]) = Ok (r1, e1) -> Exists is_set os ->
  e1 = [] /\ r_trans r1 = false /\ r_state r1 = PREPARE_MOVE /\
  r_targetP r1 = last_pose (r_targetP r0) os /\ r_targetA r1 = last_angles (r_targetA r0) os /\
  (r_pchg r1 = true <-> r_pchg r0 = true \/ Exists is_pose_set os) /\
  (r_achg r1 = true <-> r_achg r0 = true \/ Exists is_angle_set os).
Proof.
  intros N S H X. cbn [r_run r_step bind] in H. rewrite run_app in H.
  destruct (run (with_trans A r0 true) os) as [[ra ea]|] eqn:Ea; cbn [bind] in H; [|discriminate].
  cbn in H. inversion H; subst. destruct (undisturbed_inside os N) as [U O].
  apply pending_run in Ea as (-> & T & [S1|(_ & _ & S1)] & P & Q & C & D); cbn; auto; try contradiction.
  splits; auto.
Qed.

(** The first process() after endTransaction uses the last value set for each pose
    coordinate (untouched coordinates keep the previous target's value). *)
Theorem C33_commit_pose servos pre (r0 r1 r2 : robot A) e0 e1 e2 os :
  run (robot_new A fwd p2l servos) pre = Ok (r0, e0) -> Forall (fun o => ~ is_stop o) pre ->
  is_moving r0 = false ->
  Forall not_stop os -> Exists is_pose_set os -> ~ Exists is_angle_set os ->
  run r0 (OStart :: os ++ [OEnd]) = Ok (r1, e1) ->
  process r1 = Ok (r2, e2) ->
  let t := last_pose (r_targetP r0) os in
  e1 = [] /\
  (r_method r1 = P2P -> forall a, inv t = Some a ->
     servo_cmds e2 = [] \/ exists vels, servo_cmds e2 = all_six vels (l2p a)) /\
  (r_method r1 = LINEAR ->
     waypoints e2 = [] \/ exists n, waypoints e2 = [waypoint A (current_pose A fwd p2l r1) t 1 n]) /\
  (is_moving r2 = true -> r_targetP r2 = t).
Proof.
  intros Hpre Np M N Xp Xa Hr Hp. cbv zeta.
  assert (S0 : r_state r0 = IDLE) by (unfold is_moving in M; destruct (r_state r0); congruence).
  assert (C0 : clean A r0) by (eapply clean_run; [apply robot_new_clean|exact Np|exact Hpre]).
  unfold clean in C0. rewrite S0 in C0. destruct C0 as [CA CP].
  apply run_commit in Hr as (-> & T1 & S1 & P1 & A1 & C1 & D1); auto.
  2:{ eapply Exists_impl; [|exact Xp]. intros o Ho; now left. }
  assert (PC : r_pchg r1 = true) by tauto.
  assert (AC : r_achg r1 = false).
  { destruct (r_achg r1); auto. exfalso. rewrite CA in D1. destruct (proj1 D1 eq_refl); [discriminate|auto]. }
  split; auto. unfold r_process in Hp. rewrite S1 in Hp.
  apply prepare_cases in Hp as [(X & _) | [(_ & X & _) | (_ & _ & [(_ & -> & ->) | (_ & n & Hn & H)])]]; try congruence.
  { splits; auto. intros X; discriminate X. }
  assert (PT : r_targetP (prepared A fwd inv p2l r1) = r_targetP r1)
    by (unfold prepared; rewrite AC, PC; reflexivity).
  assert (PM := prepared_method A fwd inv p2l r1).
  split; [|split].
  - intros M1 a Ea. pose proof (start_move_cases _ _ _ _ _ _ _ _ _ H) as (p & es & P & K). cbv zeta in K.
    pose proof (plan_events _ _ _ _ _ P) as [P2 _].
    destruct K as [[_ ->] | (tl & time & -> & _ & _ & [(_ & _ & ->) | (_ & _ & ->)])]; auto.
    right. eexists. rewrite servo_cmds_app, P2. cbn [app command_servos snd servo_cmds].
    assert (tl = a) as ->; [|reflexivity].
    apply plan_p2p in P; [|cbn [r_method with_steps with_state]; now rewrite PM, M1].
    rewrite P. cbn [r_targetA with_steps with_state]. unfold prepared. rewrite AC, PC, P1, Ea. reflexivity.
  - intros M1. pose proof (start_move_waypoints _ _ _ _ _ _ _ _ _ H) as W.
    cbn [r_method with_steps with_state r_startP r_targetP r_cur r_total] in W. rewrite PM, M1, PT, P1 in W.
    rewrite (proj2 (prepared_start A fwd inv p2l r1)) in W. right. exists n. exact W.
  - intros MV. apply start_move_frame in H as (_ & _ & _ & _ & _ & _ & _ & _ & _ & [(_ & _ & X) | (X & _)]).
    + rewrite X. cbn [r_targetP with_steps with_state]. now rewrite PT.
    + unfold is_moving in MV. rewrite X in MV. discriminate.
Qed.

(** and the same for joint angles *)
Theorem C33_commit_angles servos pre (r0 r1 r2 : robot A) e0 e1 e2 os :
  run (robot_new A fwd p2l servos) pre = Ok (r0, e0) -> Forall (fun o => ~ is_stop o) pre ->
  is_moving r0 = false ->
  Forall not_stop os -> ~ Exists is_pose_set os -> Exists is_angle_set os ->
  run r0 (OStart :: os ++ [OEnd]) = Ok (r1, e1) ->
  process r1 = Ok (r2, e2) ->
  let a := last_angles (r_targetA r0) os in
  e1 = [] /\
  (r_method r1 = P2P ->
     servo_cmds e2 = [] \/ exists vels, servo_cmds e2 = all_six vels (l2p a)) /\
  (r_method r1 = LINEAR ->
     waypoints e2 = [] \/ exists n, waypoints e2 = [waypoint A (current_pose A fwd p2l r1) (fwd a) 1 n]) /\
  (is_moving r2 = true -> r_targetA r2 = a).
Proof.
  intros Hpre Np M N Xp Xa Hr Hp. cbv zeta.
  assert (S0 : r_state r0 = IDLE) by (unfold is_moving in M; destruct (r_state r0); congruence).
  assert (C0 : clean A r0) by (eapply clean_run; [apply robot_new_clean|exact Np|exact Hpre]).
  unfold clean in C0. rewrite S0 in C0. destruct C0 as [CA CP].
  apply run_commit in Hr as (-> & T1 & S1 & P1 & A1 & C1 & D1); auto.
  2:{ eapply Exists_impl; [|exact Xa]. intros o Ho; now right. }
  assert (AC : r_achg r1 = true) by tauto.
  assert (PC : r_pchg r1 = false).
  { destruct (r_pchg r1); auto. exfalso. rewrite CP in C1. destruct (proj1 C1 eq_refl); [discriminate|auto]. }
  split; auto. unfold r_process in Hp. rewrite S1 in Hp.
  apply prepare_cases in Hp as [(X & _) | [(_ & _ & X & _) | (_ & _ & [(_ & -> & ->) | (_ & n & Hn & H)])]]; try congruence.
  { splits; auto. intros X; discriminate X. }
  assert (PT : r_targetP (prepared A fwd inv p2l r1) = fwd (r_targetA r1))
    by (unfold prepared; rewrite AC; reflexivity).
  assert (PA : r_targetA (prepared A fwd inv p2l r1) = r_targetA r1)
    by (unfold prepared; rewrite AC; reflexivity).
  assert (PM := prepared_method A fwd inv p2l r1).
  split; [|split].
  - intros M1. pose proof (start_move_cases _ _ _ _ _ _ _ _ _ H) as (p & es & P & K). cbv zeta in K.
    pose proof (plan_events _ _ _ _ _ P) as [P2 _].
    destruct K as [[_ ->] | (tl & time & -> & _ & _ & [(_ & _ & ->) | (_ & _ & ->)])]; auto.
    right. eexists. rewrite servo_cmds_app, P2. cbn [app command_servos snd servo_cmds].
    assert (tl = last_angles (r_targetA r0) os) as ->; [|reflexivity].
    apply plan_p2p in P; [|cbn [r_method with_steps with_state]; now rewrite PM, M1].
    rewrite P. cbn [r_targetA with_steps with_state]. now rewrite PA.
  - intros M1. pose proof (start_move_waypoints _ _ _ _ _ _ _ _ _ H) as W.
    cbn [r_method with_steps with_state r_startP r_targetP r_cur r_total] in W. rewrite PM, M1, PT, A1 in W.
    rewrite (proj2 (prepared_start A fwd inv p2l r1)) in W. right. exists n. exact W.
  - intros MV. apply start_move_frame in H as (_ & _ & _ & _ & _ & _ & _ & _ & _ & [(_ & X & _) | (X & _)]).
    + rewrite X. cbn [r_targetA with_steps with_state]. now rewrite PA.
    + unfold is_moving in MV. rewrite X in MV. discriminate.
Qed.

(** ** C34 a pose and a joint angle set for the same move: nothing moves *)
Theorem C34_mixed_targets_move_nothing (r r1 r2 : robot A) o os e1 e2 :
  is_set o -> undisturbed (r_trans r) os -> open_after (r_trans r) os = false ->
  Exists is_pose_set (o :: os) -> Exists is_angle_set (o :: os) ->
  run r (o :: os) = Ok (r1, e1) -> process r1 = Ok (r2, e2) ->
  e1 = [] /\ e2 = [] /\ is_moving r2 = false /\ r_servos r2 = r_servos r1 /\
  r_achg r2 = false /\ r_pchg r2 = false.
Proof.
  intros So U O Xp Xa H Hp. cbn [r_run] in H.
  destruct (step r o) as [[ra ea]|] eqn:E1; [|discriminate]. cbn [bind] in H.
  destruct (run ra os) as [[rb eb]|] eqn:E2; [|discriminate]. cbn [bind] in H. inversion H; subst.
  assert (X : ea = [] /\ r_trans ra = r_trans r /\ r_state ra = PREPARE_MOVE /\
              (is_pose_set o -> r_pchg ra = true) /\ (is_angle_set o -> r_achg ra = true)).
  { destruct o; unfold is_set in So; cbn in So; try (exfalso; tauto);
      try (cbn in E1; inversion E1; subst; cbn; auto; fail).
    - cbn in E1. inversion E1; subst; cbn. tauto.
    - cbn in E1. inversion E1; subst; cbn. tauto.
    - cbn in E1. unfold set_angle in E1. destruct ((0 <=? i) && (i <? 6)); [|discriminate].
      cbn in E1; inversion E1; subst; cbn; tauto.
    - cbn in E1. inversion E1; subst; cbn. tauto. }
  destruct X as (-> & T1 & S1 & F1 & F2). rewrite <- T1 in U, O.
  apply pending_run in E2 as (-> & T2 & [S2|(_ & S2 & _)] & _ & _ & C & D); auto; try congruence.
  assert (PC : r_pchg r1 = true) by (apply C; apply Exists_cons in Xp as [Xp|Xp]; auto).
  assert (AC : r_achg r1 = true) by (apply D; apply Exists_cons in Xa as [Xa|Xa]; auto).
  unfold r_process in Hp. rewrite S2 in Hp.
  apply prepare_cases in Hp as [(X & _) | [(_ & _ & _ & -> & X & Y & Z & W) | (_ & X & _)]].
  - congruence.
  - unfold is_moving. rewrite X. splits; auto.
  - rewrite PC, AC in X. discriminate.
Qed.

(** ** C38 stop *)
Theorem C38_quiet_after_stop (r r' : robot A) os evs :
  Forall (fun o => ~ is_set o) os -> run r (OStop :: os) = Ok (r', evs) ->
  evs = [] /\ is_moving r' = false.
Proof.
  intros N H. cbn [r_run r_step bind] in H.
  destruct (run (r_stop A r) os) as [[rb eb]|] eqn:E2; [|discriminate]. cbn [bind] in H. inversion H; subst.
  apply idle_run in E2 as [-> S]; auto. unfold is_moving. rewrite S. auto.
Qed.

(** the servos do not notice: with or without stop() they do exactly the same *)
Theorem C38_servos_do_not_stop_refuted (r : robot A) dts :
  run (r_stop A r) (map OTick dts) =
  do (r', e) <- run r (map OTick dts); Ok (r_stop A r', e).
Proof.
  revert r. induction dts as [|d l IH]; intros r; cbn [map r_run]; [reflexivity|].
  cbn [r_step].
  assert (X : r_tick A (r_stop A r) d = do r' <- r_tick A r d; Ok (r_stop A r')).
  { unfold r_tick. cbn [r_servos r_stop with_state].
    repeat match goal with
    | |- context [servo_process A ?s d] => destruct (servo_process A s d) as [[? ?]|]; cbn [bind]; [|reflexivity]
    end. reflexivity. }
  rewrite X. destruct (r_tick A r d) as [r1|]; cbn [bind]; [|reflexivity].
  rewrite IH. destruct (run r1 (map OTick l)) as [[r2 e2]|]; reflexivity.
Qed.

(** ** C39 unreachable poses *)

(** what holds: nothing is commanded if the robot rests where it was last sent, *)
Theorem C39_at_rest_partial (r : robot A) (t : V6 (F A)) :
  inv t = None -> r_trans r = false -> r_achg r = false ->
  angles_equal A (current_logical A p2l r) (r_targetA r) = true ->
  exists r', run r [OSetPose6 t; OProcess] = Ok (r', []) /\ is_moving r' = false /\
             r_servos r' = r_servos r.
Proof.
  intros I T F E. cbn [r_run r_step bind]. unfold r_process, set_pose6. cbn [r_state with_state].
  unfold r_prepare. cbn [r_trans r_achg r_pchg with_state with_flags with_targets]. rewrite T, F. cbn [andb].
  cbn [r_targetP r_targetA with_targets with_flags with_starts with_state r_startA]. rewrite I.
  cbv zeta. cbn [r_targetP r_targetA with_targets with_flags with_starts with_state r_startA].
  match goal with |- context [angles_equal A ?x ?y] => change (angles_equal A x y) with (angles_equal A (current_logical A p2l r) (r_targetA r)) end.
  rewrite E. cbn [bind]. eexists; splits; reflexivity.
Qed.

(** and a linear move stops before a waypoint that cannot be reached *)
Theorem C39_waypoint_partial (r r' : robot A) evs :
  process r = Ok (r', evs) -> r_method r = LINEAR -> waypoints evs <> [] ->
  (forall p, In p (waypoints evs) -> inv p = None) ->
  servo_cmds evs = [] /\ is_moving r' = false /\
  r_targetA r' = current_logical A p2l r' /\ r_servos r' = r_servos r.
Proof.
  intros H M W N. apply process_cases in H as [[-> _]|(rs & H & X & Y)]; [now destruct W|].
  pose proof (start_move_waypoints _ _ _ _ _ _ _ _ _ H) as E. rewrite Y, M in E. rewrite E in N.
  specialize (N _ (or_introl eq_refl)).
  apply start_move_cases in H as (p & es & P & K). cbv zeta in K.
  pose proof (plan_events _ _ _ _ _ P) as [P2 _].
  apply plan_linear_fail in P; [|cbn [r_method with_steps]; now rewrite Y, M|exact N]. subst p.
  destruct K as [[-> ->] | (tl & time & K & _)]; [|discriminate].
  unfold r_reject. splits; auto.
Qed.

(** What fails: in point-to-point mode a failed inverse is ignored, and the robot is sent
    to the joint target in force before, whatever pose was requested. *)
Theorem C39_p2p_goes_elsewhere_refuted (r r' : robot A) (t : V6 (F A)) evs :
  inv t = None -> r_trans r = false -> r_achg r = false -> r_method r = P2P ->
  run r [OSetPose6 t; OProcess] = Ok (r', evs) -> servo_cmds evs <> [] ->
  exists vels, servo_cmds evs = all_six vels (l2p (r_targetA r)).
Proof.
  intros I T F M H W. cbn [r_run r_step bind] in H.
  destruct (process (set_pose6 A r t)) as [[r1 e1]|] eqn:E; [|discriminate]. cbn in H. inversion H; subst.
  rewrite app_nil_r in *.
  unfold r_process, set_pose6 in E. cbn [r_state with_state] in E.
  apply prepare_cases in E as [(_ & _ & ->) | [(_ & X & _) | (_ & _ & [(_ & _ & ->) | (_ & n & _ & K)])]];
    try (now destruct W); [cbn in X; congruence|].
  apply start_move_cases in K as (p & es & P & K). cbv zeta in K.
  pose proof (plan_events _ _ _ _ _ P) as [P2 _].
  destruct K as [[_ ->] | (tl & time & -> & _ & _ & [(_ & _ & ->) | (_ & _ & ->)])]; try contradiction.
  eexists. rewrite servo_cmds_app, P2. cbn [app command_servos snd servo_cmds].
  assert (tl = r_targetA r) as ->; [|reflexivity].
  apply plan_p2p in P; [|cbn [r_method with_steps with_state]; rewrite prepared_method; exact M].
  rewrite P. cbn [r_targetA with_steps with_state]. unfold prepared.
  cbn [r_achg r_pchg r_targetP r_targetA with_state with_flags with_targets with_starts]. rewrite F, I. reflexivity.
Qed.

(** ** C51 the last target wins *)

(** Fails when the new target is where the robot happens to be: the controller goes idle
    and the servos run on to the previous target. *)
Theorem C51_current_position_ignored_refuted (r : robot A) :
  angles_equal A (current_logical A p2l r) (current_logical A p2l r) = true ->
  r_trans r = false -> r_pchg r = false ->
  exists r', run r [OSetAngles (current_logical A p2l r); OProcess] = Ok (r', []) /\
             is_moving r' = false /\ r_servos r' = r_servos r.
Proof.
  intros E T F. cbn [r_run r_step bind]. unfold r_process, set_angles6. cbn [r_state with_state].
  unfold r_prepare. cbn [r_trans r_achg r_pchg with_state with_flags with_targets]. rewrite T, F. cbn [andb].
  cbv zeta. cbn [r_targetP r_targetA with_targets with_flags with_starts with_state r_startA].
  match goal with |- context [angles_equal A ?x ?y] => change (angles_equal A x y) with
    (angles_equal A (current_logical A p2l r) (current_logical A p2l r)) end.
  rewrite E. cbn [bind]. eexists; splits; reflexivity.
Qed.

End Generic.

Section Exact.
Context (fwd : V6 R -> V6 R) (inv : V6 R -> option (V6 R)) (l2p p2l : V6 R -> V6 R) (limits : V6 (R * R)).
Notation run := (r_run RA fwd inv l2p p2l limits).
Notation process := (r_process RA fwd inv l2p p2l limits).

(** ** C32 in exact arithmetic: over every history of calls and ticks every servo stays
    inside its limits, so every pulse is inside the calibration interval, and no tick is
    undefined. *)
Theorem C32_servos_stay_inside (servos : V6 (servo RA)) os r' evs :
  axes (fun i => let s := at6 servos i in
    (s_min s < s_max s)%R /\ 0 <= s_minF s <= 2147483647 /\ 0 <= s_maxF s <= 2147483647 /\
    (s_min s <= s_start s <= s_max s)%R /\ (s_min s <= s_cur s <= s_max s)%R /\
    (s_min s <= s_target s <= s_max s)%R /\ (1 / 10 <= s_maxvel s)%R /\ (0 < s_vel s <= s_maxvel s)%R) ->
  run (robot_new RA fwd p2l servos) os = Ok (r', evs) ->
  axes (fun i => let s := at6 (r_servos r') i in
    (s_min (at6 servos i) <= s_cur s <= s_max (at6 servos i))%R /\
    (s_min (at6 servos i) <= s_target s <= s_max (at6 servos i))%R /\
    (0 < s_vel s <= s_maxvel s)%R) /\
  forall dt, exists r'', r_tick RA r' dt = Ok r''.
Proof.
  intros H E.
  assert (R0 : RR (robot_new RA fwd p2l servos)).
  { unfold RR, SR, sane, in_range, axes in *. cbn [r_servos robot_new with_targets]. cbv zeta in H. tauto. }
  pose proof (RR_run fwd inv l2p p2l limits os _ _ _ R0 E) as R1.
  apply run_limits in E. cbn [r_servos robot_new with_targets] in E.
  split.
  - unfold RR, SR, in_range, same_limits, axes in *. cbn [at6] in *. cbv zeta.
    destruct E as ((L0 & K0) & (L1 & K1) & (L2 & K2) & (L3 & K3) & (L4 & K4) & (L5 & K5)).
    rewrite <- L0, <- K0, <- L1, <- K1, <- L2, <- K2, <- L3, <- K3, <- L4, <- K4, <- L5, <- K5. tauto.
  - intros dt. destruct (RR_tick r' dt R1) as (x & X & _). eauto.
Qed.

(** ** C35 all joints arrive together, within their own speed limits, and as early as those limits and the programmed speed allow *)
Theorem C35_synchronised (r r1 : robot RA) evs :
  RR r -> r_method r = P2P -> (0 < r_maxvel r)%R ->
  r_trans r = false -> r_pchg r = false ->
  forall target : V6 R, run r [OSetAngles (A:=RA) target; OProcess] = Ok (r1, evs) -> servo_cmds evs <> [] ->
  exists (T : R) (vels : V6 R),
    let a := l2p target in
    let cur i := s_cur (at6 (r_servos r) i) in
    servo_cmds evs = all_six (A:=RA) vels a /\ (0 < T)%R /\
    axes (fun i => Rabs (at6 a i - cur i) = at6 vels i * T /\ at6 vels i <= s_maxvel (at6 (r_servos r) i))%R /\
    axes (fun i => Rabs (at6 (current_logical RA p2l r) i - at6 target i) * RAD_TO_DEG RA <= r_maxvel r * T)%R /\
    (forall T' : R, (0 <= T')%R -> axes (fun i => Rabs (at6 a i - cur i) <= s_maxvel (at6 (r_servos r) i) * T')%R ->
       axes (fun i => Rabs (at6 (current_logical RA p2l r) i - at6 target i) * RAD_TO_DEG RA <= r_maxvel r * T')%R -> (T <= T')%R) /\
    forall dts r2 e2, Forall (fun d => 0 <= d) dts -> total dts < 4294967296 ->
      run r1 (map OTick dts) = Ok (r2, e2) ->
      axes (fun i => s_cur (at6 (r_servos r2) i) =
                     cur i + (at6 a i - cur i) * progress T (IZR (total dts)))%R.
Proof.
  intros H M V TR PC target E N. cbn [r_run r_step bind] in E.
  destruct (process (set_angles6 RA r target)) as [[rx ex]|] eqn:Ep; [|discriminate].
  cbn [bind] in E. rewrite app_nil_r in E. injection E as -> ->.
  unfold r_process, set_angles6 in Ep. cbn [r_state with_state] in Ep.
  apply prepare_cases in Ep as [(_ & _ & ->) | [(_ & _ & X & _) | (_ & _ & [(_ & _ & ->) | (_ & n & _ & K)])]];
    try (now destruct N); [cbn in X; congruence|].
  match type of K with r_start_move _ _ _ _ _ _ ?x = _ => set (rs := x) in * end.
  assert (Ss : r_servos rs = r_servos r) by reflexivity.
  assert (Hs : RR rs) by (unfold RR; rewrite Ss; exact H).
  destruct (start_move_timing fwd inv l2p p2l limits rs r1 evs Hs K N)
    as (p & es & tl & time & T & P & -> & TP & TL & SP & CM & SV & LST).
  cbv zeta in P.
  assert (ME : r_method rs = P2P) by exact M.
  pose proof (plan_p2p _ _ _ _ _ _ P ME) as E1. pose proof (plan_p2p_time _ _ _ _ _ _ P ME) as E2.
  assert (tl = target) as -> by exact E1. clear E1 P.
  exists T, (map6 (fun d => d / T)%R (travel RA rs (l2p target))). cbv zeta.
  split; [exact CM|]. split; [exact TP|]. rewrite Ss in SP, SV, LST. split; [|split; [|split]].
  - unfold axes in *. cbn [at6 map6 travel zip6 v0 v1 v2 v3 v4 v5 servo_angles fsub fabsf RA] in *.
    rewrite Ss. unfold servo_angles.
    destruct SP as (S0 & S1 & S2 & S3 & S4 & S5).
    split; [|split; [|split; [|split; [|split]]]]; (split; [|assumption];
      symmetry; unfold Rdiv; rewrite Rmult_assoc, Rinv_l, Rmult_1_r by lra; reflexivity).
  - assert (B := fold_max (list6 (map6 (fabsf RA) (zip6 (fsub RA) (current_logical RA p2l r) target))) 0%R).
    cbv zeta in B. destruct B as [_ B].
    change (fold_left (fun m x : F RA => if flt RA m x then x else m)
             (list6 (map6 (fabsf RA) (zip6 (fsub RA) (current_logical RA p2l r) target))) 0%R)
      with (max_change RA (current_logical RA p2l r) target) in B.
    assert (E3 : time = (max_change RA (current_logical RA p2l r) target / r_maxvel r * RAD_TO_DEG RA)%R)
      by exact E2.
    set (mc := max_change RA (current_logical RA p2l r) target) in *. clearbody mc.
    assert (RP : (0 < RAD_TO_DEG RA)%R) by (apply rdec_pos; lia).
    assert (U : (mc * RAD_TO_DEG RA <= r_maxvel r * T)%R).
    { rewrite E3 in TL. apply (Rmult_le_compat_l (r_maxvel r)) in TL; [|lra].
      replace (r_maxvel r * (mc / r_maxvel r * RAD_TO_DEG RA))%R with (mc * RAD_TO_DEG RA)%R in TL by (field; lra).
      exact TL. }
    unfold list6 in B. cbn [map6 zip6 v0 v1 v2 v3 v4 v5 fsub fabsf RA] in B.
    apply Forall_cons_iff in B as [B0 B]. apply Forall_cons_iff in B as [B1 B].
    apply Forall_cons_iff in B as [B2 B]. apply Forall_cons_iff in B as [B3 B].
    apply Forall_cons_iff in B as [B4 B]. apply Forall_cons_iff in B as [B5 _].
    unfold axes. cbn [at6]. split; [|split; [|split; [|split; [|split]]]];
      (eapply Rle_trans; [apply Rmult_le_compat_r; [lra|eassumption]|exact U]).
  - intros b Hb S1 S2. unfold RR, axes in H. cbn [at6] in H. apply LST.
    + assert (E3 : time = (max_change RA (current_logical RA p2l r) target / r_maxvel r * RAD_TO_DEG RA)%R) by exact E2. rewrite E3.
      assert (RP : (0 < RAD_TO_DEG RA)%R) by (apply rdec_pos; lia).
      assert (B : (max_change RA (current_logical RA p2l r) target <= r_maxvel r * b / RAD_TO_DEG RA)%R).
      { apply fold_least; [apply Rmult_le_pos; [apply Rmult_le_pos; lra|left; now apply Rinv_0_lt_compat]|].
        assert (X : forall x, (x * RAD_TO_DEG RA <= r_maxvel r * b)%R -> (x <= r_maxvel r * b / RAD_TO_DEG RA)%R).
        { intros x Hx. apply (Rmult_le_reg_r (RAD_TO_DEG RA)); [exact RP|]. unfold Rdiv. rewrite Rmult_assoc, Rinv_l, Rmult_1_r by lra. exact Hx. }
        unfold list6. cbn [map6 zip6 v0 v1 v2 v3 v4 v5 fsub fabsf RA]. unfold axes in S2. cbn [at6] in S2. destruct S2 as (Y0 & Y1 & Y2 & Y3 & Y4 & Y5).
        repeat (apply Forall_cons; [apply X; assumption|]). apply Forall_nil. }
      set (mc := max_change RA (current_logical RA p2l r) target) in *. clearbody mc.
      apply (Rmult_le_compat_r (RAD_TO_DEG RA)) in B; [|lra]. unfold Rdiv in B. rewrite (Rmult_assoc _ (/ _)), Rinv_l, Rmult_1_r in B by lra.
      apply (Rmult_le_compat_r (/ r_maxvel r)) in B; [|left; now apply Rinv_0_lt_compat].
      replace (r_maxvel r * b * / r_maxvel r)%R with b in B by (field; lra). unfold Rdiv. lra.
    + assert (X : forall (s : servo RA) d, SR s -> (d <= s_maxvel s * b)%R -> (d / s_maxvel s <= b)%R).
      { intros s d S Hx. assert (P0 : (0 < s_maxvel s)%R) by (destruct S as (_ & _ & _ & _ & M' & _); lra).
        apply (Rmult_le_reg_r (s_maxvel s)); [exact P0|]. unfold Rdiv. rewrite Rmult_assoc, Rinv_l, Rmult_1_r by lra. lra. }
      unfold axes in *. cbn [at6] in *. destruct S1 as (Y0 & Y1 & Y2 & Y3 & Y4 & Y5), H as (H0 & H1 & H2 & H3 & H4 & H5).
      split; [now apply X|]. split; [now apply X|]. split; [now apply X|]. split; [now apply X|]. split; now apply X.
  - intros dts r2 e2 Hd Ht Hr.
    pose proof (step_progress fwd inv l2p p2l limits r r1 (l2p target) T dts r2 e2 H TP SV Hd Ht Hr) as X.
    unfold axes in *. tauto.
Qed.

(** a target inside all limits that differs from the current angles is always executed *)
Theorem C35_legal_target_is_executed (r : robot RA) (target : V6 R) :
  RR r -> r_method r = P2P -> (0 < r_maxvel r)%R -> r_trans r = false -> r_pchg r = false ->
  within (A:=RA) l2p limits (r_servos r) target -> ~ close (current_logical RA p2l r) target ->
  exists r1 evs vels, run r [OSetAngles (A:=RA) target; OProcess] = Ok (r1, evs) /\
    servo_cmds evs = all_six (A:=RA) vels (l2p target) /\ is_moving r1 = true.
Proof.
  intros H M V TR PC [W1 W2] N.
  cbn [r_run r_step bind]. unfold r_process, set_angles6. cbn [r_state with_state].
  unfold r_prepare. cbn [r_trans r_achg r_pchg with_state with_flags with_targets]. rewrite TR, PC. cbn [andb].
  cbv zeta.
  match goal with |- context [angles_equal RA ?x ?y] =>
    change (angles_equal RA x y) with (angles_equal RA (current_logical RA p2l r) target) end.
  destruct (angles_equal RA (current_logical RA p2l r) target) eqn:AE; [exfalso; apply N; apply angles_equal_RA; exact AE|].
  cbn [r_method with_state with_flags with_targets with_starts]. rewrite M. cbn [bind].
  match goal with |- context [r_start_move _ _ _ _ _ _ ?x] => set (rs := x) in * end.
  assert (MS : r_method rs = P2P) by exact M.
  set (time := (max_change RA (current_logical RA p2l r) target / r_maxvel r * RAD_TO_DEG RA)%R).
  destruct (start_move_p2p_accept RA fwd inv l2p p2l limits rs time MS) as (r1 & evs & vels & E & C & S).
  - apply outside_iff. exact W1.
  - apply outside_iff. exact W2.
  - reflexivity.
  - change (r_targetA rs) with target.
    destruct (feq RA (min_time RA rs (l2p target) time) (fofz RA 0)) eqn:Q; [|reflexivity].
    exfalso. apply reqb_true in Q. apply N. unfold close.
    assert (B := fold_max (list6 (zip6 (fdiv RA) (travel RA rs (l2p target)) (map6 s_maxvel (r_servos rs)))) time).
    cbv zeta in B. destruct B as [B _]. fold (min_time RA rs (l2p target) time) in B. rewrite Q in B. change (fofz RA 0) with 0%R in B.
    unfold time in B.
    assert (B2 := fold_max (list6 (map6 (fabsf RA) (zip6 (fsub RA) (current_logical RA p2l r) target))) 0%R).
    cbv zeta in B2. destruct B2 as [B1 B2].
    change (fold_left (fun m x : F RA => if flt RA m x then x else m)
             (list6 (map6 (fabsf RA) (zip6 (fsub RA) (current_logical RA p2l r) target))) 0%R)
      with (max_change RA (current_logical RA p2l r) target) in B1, B2.
    set (mc := max_change RA (current_logical RA p2l r) target) in *. clearbody mc.
    assert (RP : (0 < RAD_TO_DEG RA)%R) by (apply rdec_pos; lia).
    assert (IV : (0 < / r_maxvel r)%R) by (apply Rinv_0_lt_compat; auto).
    assert (Z : mc = 0%R).
    { destruct (Rle_lt_or_eq_dec 0 mc B1) as [X|X]; auto. exfalso.
      assert (0 < mc / r_maxvel r)%R by (unfold Rdiv; apply Rmult_lt_0_compat; auto).
      assert (0 < mc / r_maxvel r * RAD_TO_DEG RA)%R by (apply Rmult_lt_0_compat; auto). lra. }
    rewrite Z in B2. unfold list6 in B2. cbn [map6 zip6 v0 v1 v2 v3 v4 v5 fsub fabsf RA] in B2.
    apply Forall_cons_iff in B2 as [C0 B2]. apply Forall_cons_iff in B2 as [C1 B2].
    apply Forall_cons_iff in B2 as [C2 B2]. apply Forall_cons_iff in B2 as [C3 B2].
    apply Forall_cons_iff in B2 as [C4 B2]. apply Forall_cons_iff in B2 as [C5 _].
    unfold axes; cbn [at6]. splits; (eapply Rle_lt_trans; [eassumption|lra]).
  - rewrite E. cbn [bind]. exists r1, (evs ++ []), vels. rewrite app_nil_r.
    split; [reflexivity|]. split; [exact C|]. unfold is_moving. now rewrite S.
Qed.

(** ** C36 straight lines *)
Theorem C36_straight_line (r r' : robot RA) (t : V6 R) os e :
  r_trans r = false -> r_achg r = false -> r_method r = LINEAR ->
  let s := current_pose RA fwd p2l r in
  let N := segments s t in
  (distance s t <= 1000000000)%R ->
  Forall is_poll os ->
  run r (OSetPose6 (A:=RA) t :: OProcess :: os) = Ok (r', e) ->
  exists m : nat, Z.of_nat m <= N /\
    (* the k-th waypoint is at the fraction k/N of the segment *)
    waypoints e = map (fun k => on_segment s t (IZR k / IZR N)) (upto m) /\
    (* no waypoint at all: unreachable, or already there *)
    (m = O -> inv t = None \/ exists a, inv t = Some a /\ close (current_logical RA p2l r) a) /\
    (* the move is complete when it ends, unless the last waypoint is impossible *)
    (m <> O -> is_moving r' = false ->
       Z.of_nat m = N \/ impossible (A:=RA) inv l2p limits (r_servos r) (on_segment s t (IZR (Z.of_nat m) / IZR N))).
Proof.
  intros TR AC M s N D Po H. cbn [r_run r_step bind] in H.
  destruct (process (set_pose6 RA r t)) as [[r1 e1]|] eqn:Ep; [|discriminate]. cbn [bind] in H.
  destruct (run r1 os) as [[r2 e2]|] eqn:Er; [|discriminate]. cbn [bind] in H. cbn [app] in H. inversion H; subst r2 e; clear H.
  destruct (linear_steps_RA s t D) as [LS NB]. fold N in LS, NB.
  assert (Ep0 := Ep). unfold r_process, set_pose6 in Ep. cbn [r_state with_state] in Ep.
  set (rp := with_state RA (with_flags RA (with_targets RA r (r_targetA r) t) (r_achg r) true) PREPARE_MOVE) in *.
  apply prepare_cases in Ep as [(X & _) | [(_ & X & _) | (_ & _ & [(AE & -> & ->) | (_ & n & Hn & K)])]];
    [cbn in X; congruence | cbn in X; congruence | |].
  - apply idle_run in Er as [-> S]; auto using poll_not_set. exists O. cbn. splits; auto; try lia.
    intros _. unfold prepared in AE. cbn in AE. rewrite AC in AE. cbn in AE.
    destruct (inv t) as [a|] eqn:I; [|left; auto]. right. exists a. split; auto.
    apply angles_equal_RA. exact AE.
  - assert (PT : r_targetP (prepared RA fwd inv p2l rp) = t)
      by (unfold prepared; cbn; rewrite AC; reflexivity).
    assert (PS : r_startP (prepared RA fwd inv p2l rp) = s).
    { rewrite (proj2 (prepared_start RA fwd inv p2l rp)). reflexivity. }
    assert (PM : r_method (prepared RA fwd inv p2l rp) = LINEAR).
    { rewrite prepared_method. exact M. }
    assert (PV : r_servos (prepared RA fwd inv p2l rp) = r_servos r).
    { rewrite prepared_servos. reflexivity. }
    assert (MR : r_method rp = LINEAR) by exact M.
    rewrite MR, PS, PT in Hn. rewrite LS in Hn. assert (n = N) as -> by congruence. clear Hn.
    pose proof (start_move_waypoints _ _ _ _ _ _ _ _ _ K) as W.
    pose proof (start_move_reject _ _ _ _ _ _ _ _ _ K) as J.
    pose proof (start_move_limits _ _ _ _ _ _ _ _ _ K) as LL.
    cbn [r_method r_startP r_targetP r_cur r_total r_servos with_steps with_state] in W, J, LL.
    rewrite PM, PS, PT in W. rewrite PM, PS, PT, PV in J. rewrite PV in LL. change (u32 (0 + 1)) with 1 in W, J.
    apply start_move_frame in K as (M1 & _ & P1 & T1 & C1 & _ & _ & _ & _ & [(S1 & _ & Q1) | (S1 & _)]).
    + cbn [r_method r_startP r_targetP r_cur r_total with_steps with_state] in *.
      change (u32 (0 + 1)) with 1 in C1.
      apply moving_run in Er as (m & W2 & L & Fin); try congruence; try lia; auto.
      rewrite P1, Q1, PS, PT, T1, C1 in *.
      exists (Datatypes.S m). rewrite waypoints_app, W, W2. split; [lia|]. split; [|split].
      * rewrite points_upto. unfold upto. cbn [seq map app].
        f_equal. rewrite map_map. rewrite <- (seq_shift m 1), !map_map.
        apply map_ext. intros x. replace (Z.of_nat x + (1 + 1 - 1)) with (Z.of_nat (Datatypes.S x)) by lia. reflexivity.
      * intros; discriminate.
      * intros _ MV. destruct Fin as [[Z _]|(_ & [Z|Z])].
        -- unfold is_moving in MV. rewrite Z in MV. discriminate.
        -- left. lia.
        -- right. replace (1 + Z.of_nat m) with (Z.of_nat (Datatypes.S m)) in Z by lia.
           eapply impossible_limits; [exact LL|exact Z].
    + apply idle_run in Er as [-> S]; auto using poll_not_set. rewrite app_nil_r.
      exists 1%nat. rewrite W. split; [lia|]. split; [reflexivity|]. split; [discriminate|].
      intros _ _. right. apply (J eq_refl S1).
Qed.

(** the geometry: waypoints less than half a unit apart, the last one is the target *)
Theorem C36_spacing (s t : V6 R) :
  let N := segments s t in
  1 <= N /\
  on_segment s t (IZR N / IZR N) = t /\
  on_segment s t 0 = mk6 (v0 s) (v1 s) (v2 s) (v3 t) (v4 t) (v5 t) /\
  forall k, distance (on_segment s t (IZR k / IZR N)) (on_segment s t (IZR (k + 1) / IZR N)) = (distance s t / IZR N)%R /\
            (distance s t / IZR N < 1 / 2)%R.
Proof.
  cbv zeta. destruct (segments_spacing s t) as [[S1 S2] S3].
  assert (0 < IZR (segments s t))%R by (apply IZR_lt; lia).
  set (n := IZR (segments s t)) in *. split; [exact S3|]. split; [|split].
  - unfold on_segment. replace (n / n)%R with 1%R by (field; lra). destruct t; cbn. f_equal; ring.
  - unfold on_segment. f_equal; ring.
  - intros k. split; [|exact S2]. rewrite on_segment_distance, plus_IZR.
    replace ((IZR k + 1) / n - IZR k / n)%R with (/ n)%R by (field; lra).
    rewrite Rabs_pos_eq; [reflexivity|]. left. apply Rinv_0_lt_compat; lra.
Qed.

(** a linear move whose first waypoint is possible is started *)
Theorem C36_possible_move_is_started (r : robot RA) (t : V6 R) :
  r_trans r = false -> r_achg r = false -> r_method r = LINEAR ->
  let s := current_pose RA fwd p2l r in
  (distance s t <= 1000000000)%R ->
  (exists a, inv t = Some a /\ ~ close (current_logical RA p2l r) a) ->
  ~ impossible (A:=RA) inv l2p limits (r_servos r) (on_segment s t (1 / IZR (segments s t))) ->
  exists r1 evs, run r [OSetPose6 (A:=RA) t; OProcess] = Ok (r1, evs) /\ is_moving r1 = true /\
    waypoints evs = [on_segment s t (1 / IZR (segments s t))].
Proof.
  intros TR AC M s D (b & Eb & NC) NI. destruct (linear_steps_RA s t D) as [LS NB].
  cbn [r_run r_step bind]. unfold r_process, set_pose6. cbn [r_state with_state].
  unfold r_prepare. cbn [r_trans r_achg r_pchg with_state with_flags with_targets]. rewrite TR, AC. cbn [andb].
  cbn [r_targetP r_targetA with_targets with_flags with_starts with_state r_startA]. rewrite Eb. cbv zeta.
  match goal with |- context [angles_equal RA ?x ?y] =>
    change (angles_equal RA x y) with (angles_equal RA (current_logical RA p2l r) b) end.
  destruct (angles_equal RA (current_logical RA p2l r) b) eqn:AE; [exfalso; apply NC; apply angles_equal_RA; exact AE|].
  cbn [r_method with_state with_flags with_targets with_starts]. rewrite M.
  match goal with |- context [linear_steps RA ?x ?y] =>
    change (linear_steps RA x y) with (linear_steps RA s t) end.
  rewrite LS. cbn [bind].
  match goal with |- context [r_start_move _ _ _ _ _ _ ?x] => set (rs := x) in * end.
  assert (MS : r_method rs = LINEAR) by exact M.
  destruct (r_start_move RA fwd inv l2p p2l limits rs) as [[r1 evs]|] eqn:E.
  - cbn [bind]. exists r1, (evs ++ []). split; [reflexivity|]. rewrite app_nil_r.
    pose proof (start_move_waypoints _ _ _ _ _ _ _ _ _ E) as W. rewrite MS in W. split; [|exact W].
    pose proof (start_move_reject _ _ _ _ _ _ _ _ _ E MS) as J.
    apply start_move_frame in E as (_ & _ & _ & _ & _ & _ & _ & _ & _ & [(S1 & _) | (S1 & _)]).
    + unfold is_moving. now rewrite S1.
    + exfalso. apply NI. exact (J S1).
  - exfalso. unfold r_start_move, r_plan in E. cbn [r_method with_steps] in E. rewrite MS in E.
    cbv zeta in E.
    repeat match type of E with
    | context [match inv ?x with _ => _ end] => destruct (inv x); cbn [bind] in E
    | context [if ?x then _ else _] => destruct x; cbn [bind] in E
    end; try discriminate; destruct (command_servos RA _ _ _) in E; discriminate.
Qed.

(** ** C37 every accepted move ends *)
Theorem C37_linear_move_ends (r r1 r' : robot RA) (t : V6 R) e1 n :
  r_trans r = false -> r_achg r = false -> r_method r = LINEAR ->
  let s := current_pose RA fwd p2l r in
  let N := segments s t in
  (distance s t <= 1000000000)%R ->
  run r [OSetPose6 (A:=RA) t; OProcess] = Ok (r1, e1) -> is_moving r1 = true ->
  polls RA fwd inv l2p p2l limits r1 n r' ->
  (N <= Z.of_nat n -> is_moving r' = false) /\
  (Z.of_nat n < N -> is_moving r' = true \/
     exists k, 1 < k <= Z.of_nat n + 1 /\ impossible (A:=RA) inv l2p limits (r_servos r) (on_segment s t (IZR k / IZR N))).
Proof.
  intros TR AC M s N D H MV Pl. cbn [r_run r_step bind] in H.
  destruct (process (set_pose6 RA r t)) as [[rx ex]|] eqn:Ep; [|discriminate]. cbn [bind] in H. inversion H; subst rx e1; clear H.
  destruct (linear_steps_RA s t D) as [LS NB]. fold N in LS, NB.
  unfold r_process, set_pose6 in Ep. cbn [r_state with_state] in Ep.
  set (rp := with_state RA (with_flags RA (with_targets RA r (r_targetA r) t) (r_achg r) true) PREPARE_MOVE) in *.
  apply prepare_cases in Ep as [(X & _) | [(_ & X & _) | (_ & _ & [(AE & -> & _) | (_ & k & Hn & K)])]];
    [cbn in X; congruence | cbn in X; congruence | discriminate |].
  assert (PT : r_targetP (prepared RA fwd inv p2l rp) = t)
      by (unfold prepared; cbn; rewrite AC; reflexivity).
  assert (PS : r_startP (prepared RA fwd inv p2l rp) = s).
  { rewrite (proj2 (prepared_start RA fwd inv p2l rp)). reflexivity. }
  assert (PM : r_method (prepared RA fwd inv p2l rp) = LINEAR).
  { rewrite prepared_method. exact M. }
  assert (PV : r_servos (prepared RA fwd inv p2l rp) = r_servos r).
  { rewrite prepared_servos. reflexivity. }
  assert (MR : r_method rp = LINEAR) by exact M.
  rewrite MR, PS, PT in Hn. rewrite LS in Hn. assert (k = N) as -> by congruence. clear Hn.
  pose proof (start_move_limits _ _ _ _ _ _ _ _ _ K) as LL.
  cbn [r_servos with_steps with_state] in LL. rewrite PV in LL.
  apply start_move_frame in K as (M1 & _ & P1 & T1 & C1 & _ & _ & _ & _ & [(S1 & _ & Q1) | (S1 & _)]).
  2:{ unfold is_moving in MV. rewrite S1 in MV. discriminate. }
  cbn [r_method r_startP r_targetP r_cur r_total with_steps with_state] in *.
  change (u32 (0 + 1)) with 1 in C1.
  apply polls_moving in Pl as [A B]; try congruence; try lia.
  rewrite P1, Q1, PS, PT, T1, C1 in *.
  split.
  - intros L. unfold is_moving. rewrite A by lia. reflexivity.
  - intros L. destruct B as [[B _]|(B & j & J & I)]; [lia| |].
    + left. unfold is_moving. now rewrite B.
    + right. exists j. split; [lia|]. eapply impossible_limits; [exact LL|exact I].
Qed.

Theorem C37_p2p_move_ends (r r1 r' : robot RA) (a : V6 R) e1 n :
  r_trans r = false -> r_pchg r = false -> r_method r = P2P ->
  run r [OSetAngles (A:=RA) a; OProcess] = Ok (r1, e1) -> is_moving r1 = true ->
  polls RA fwd inv l2p p2l limits r1 n r' -> (1 <= n)%nat -> is_moving r' = false.
Proof.
  intros TR AC M H MV Pl L. cbn [r_run r_step bind] in H.
  destruct (process (set_angles6 RA r a)) as [[rx ex]|] eqn:Ep; [|discriminate]. cbn [bind] in H. inversion H; subst rx e1; clear H.
  unfold r_process, set_angles6 in Ep. cbn [r_state with_state] in Ep.
  apply prepare_cases in Ep as [(X & _) | [(_ & _ & X & _) | (_ & _ & [(AE & -> & _) | (_ & k & Hn & K)])]];
    [cbn in X; congruence | cbn in X; congruence | discriminate |].
  cbn [r_method with_state with_flags with_targets] in Hn. rewrite M in Hn. assert (k = 1) as -> by congruence.
  apply start_move_frame in K as (_ & _ & _ & T1 & C1 & _ & _ & _ & _ & [(S1 & _ & Q1) | (S1 & _)]).
  2:{ unfold is_moving in MV. rewrite S1 in MV. discriminate. }
  cbn in T1, C1. change (u32 (0 + 1)) with 1 in C1.
  destruct Pl as [|r1 ts rt et r2 e2 n r3 Ht Hr Ha Hp Hq]; [lia|].
  apply ticks_frame in Hr as [s ->]; auto.
  unfold r_process in Hp. cbn [r_state with_servos] in Hp. rewrite S1, Ha in Hp.
  cbn [r_cur r_total with_servos] in Hp. rewrite C1, T1 in Hp. cbn in Hp. inversion Hp; subst.
  unfold is_moving. erewrite polls_idle; [reflexivity|exact Hq|reflexivity].
Qed.

(** and the servos do arrive, in the time planned for the step *)
Theorem C37_servos_arrive (r r1 : robot RA) evs :
  RR r -> process r = Ok (r1, evs) -> servo_cmds evs <> [] ->
  exists T, (0 < T)%R /\
    forall dts, Forall (fun d => 0 <= d) dts -> total dts < 4294967296 -> (1000 * T <= IZR (total dts))%R ->
    exists r2, run r1 (map OTick dts) = Ok (r2, []) /\ all_at_target RA r2 = true.
Proof.
  intros H E N. apply process_cases in E as [[-> _]|(rs & E & Ss & _)]; [now destruct N|].
  assert (Hs : RR rs) by (unfold RR; rewrite Ss; exact H).
  assert (H1 : RR r1) by (eapply RR_start_move; eauto).
  destruct (start_move_timing fwd inv l2p p2l limits rs r1 evs Hs E N)
    as (p & es & tl & time & T & P & -> & TP & TL & SP & CM & SV & LST).
  exists T. split; [exact TP|]. intros dts Hd Ht HT.
  assert (RT : forall l r, RR r -> exists r2, run r (map OTick l) = Ok (r2, []) /\ RR r2).
  { clear. induction l as [|d l IH]; intros r H; [exists r; auto|].
    destruct (RR_tick r d H) as (x & Ex & Hx). destruct (IH x Hx) as (y & Ey & Hy).
    exists y. split; auto. cbn [map r_run r_step]. rewrite Ex. cbn [bind]. rewrite Ey. reflexivity. }
  destruct (RT dts r1 H1) as (r2 & E2 & H2). exists r2. split; [exact E2|].
  pose proof (step_progress fwd inv l2p p2l limits rs r1 (l2p tl) T dts r2 _ Hs TP SV Hd Ht E2) as X.
  assert (PR : progress T (IZR (total dts)) = 1%R).
  { unfold progress. apply Rmin_left. apply (Rmult_le_reg_r (1000 * T)); [lra|].
    unfold Rdiv. rewrite Rmult_assoc, Rinv_l by lra. lra. }
  rewrite PR in X.
  assert (at_target : forall (s : servo RA) (c a : R), s_cur s = (c + (a - c) * 1)%R /\ s_target s = a -> servo_at_target RA s = true).
  { intros s c a [A B]. unfold servo_at_target. cbn [dlt f2d fabsf fsub ddec RA]. rewrite A, B.
    replace (c + (a - c) * 1 - a)%R with 0%R by ring. rewrite Rabs_R0. apply rltb_true. apply rdec_pos. lia. }
  unfold axes in X. cbn [at6] in X. destruct X as (X0 & X1 & X2 & X3 & X4 & X5).
  unfold all_at_target, list6. cbn [forallb].
  rewrite (at_target _ _ _ X0), (at_target _ _ _ X1), (at_target _ _ _ X2), (at_target _ _ _ X3),
          (at_target _ _ _ X4), (at_target _ _ _ X5). reflexivity.
Qed.

(** ** C38, the part that fails: the servos run on to the commanded angles after stop() *)
Theorem C38_runs_on_refuted (r r1 : robot RA) evs vels (a : V6 R) :
  RR r -> process r = Ok (r1, evs) -> servo_cmds evs = all_six (A:=RA) vels a ->
  exists T, (0 < T)%R /\
    forall dts, Forall (fun d => 0 <= d) dts -> total dts < 4294967296 -> (1000 * T <= IZR (total dts))%R ->
    exists r2, run r1 (OStop :: map OTick dts) = Ok (r2, []) /\
               axes (fun i => s_cur (at6 (r_servos r2) i) = at6 a i).
Proof.
  intros H E CMD. apply process_cases in E as [[-> _]|(rs & E & Ss & _)]; [discriminate|].
  assert (Hs : RR rs) by (unfold RR; rewrite Ss; exact H).
  assert (H1 : RR r1) by (eapply RR_start_move; eauto).
  destruct (start_move_timing fwd inv l2p p2l limits rs r1 evs Hs E)
    as (p & es & tl & time & T & P & -> & TP & TL & SP & CM & SV & LST); [rewrite CMD; discriminate|].
  assert (AA : l2p tl = a).
  { rewrite CMD in CM. unfold all_six in CM. inversion CM. destruct a, (l2p tl); cbn in *. congruence. }
  exists T. split; [exact TP|]. intros dts Hd Ht HT.
  assert (RT : forall l r, RR r -> exists r2, run r (map OTick l) = Ok (r2, []) /\ RR r2).
  { clear. induction l as [|d l IH]; intros r H; [exists r; auto|].
    destruct (RR_tick r d H) as (x & Ex & Hx). destruct (IH x Hx) as (y & Ey & Hy).
    exists y. split; auto. cbn [map r_run r_step]. rewrite Ex. cbn [bind]. rewrite Ey. reflexivity. }
  destruct (RT dts r1 H1) as (r2 & E2 & H2). exists (r_stop RA r2). split.
  - cbn [r_run r_step bind]. rewrite C38_servos_do_not_stop_refuted, E2. reflexivity.
  - pose proof (step_progress fwd inv l2p p2l limits rs r1 (l2p tl) T dts r2 _ Hs TP SV Hd Ht E2) as X.
    assert (PR : progress T (IZR (total dts)) = 1%R).
    { unfold progress. apply Rmin_left. apply (Rmult_le_reg_r (1000 * T)); [lra|].
      unfold Rdiv. rewrite Rmult_assoc, Rinv_l by lra. lra. }
    rewrite PR, AA in X. unfold axes in *. cbn [at6 r_servos r_stop with_state] in *.
    destruct X as ((X0 & _) & (X1 & _) & (X2 & _) & (X3 & _) & (X4 & _) & (X5 & _)).
    rewrite X0, X1, X2, X3, X4, X5.
    splits; (match goal with |- @eq _ ?x ?y => change (@eq R x y) end); ring.
Qed.

(** ** C51, what holds: whenever the controller commands the servos they end up at the new
    target, whatever they were doing before *)
Theorem C51_new_command_wins_partial (r r1 : robot RA) evs vels (a : V6 R) :
  RR r -> process r = Ok (r1, evs) -> servo_cmds evs = all_six (A:=RA) vels a ->
  exists T, (0 < T)%R /\
    forall dts, Forall (fun d => 0 <= d) dts -> total dts < 4294967296 -> (1000 * T <= IZR (total dts))%R ->
    exists r2, run r1 (map OTick dts) = Ok (r2, []) /\
               axes (fun i => s_cur (at6 (r_servos r2) i) = at6 a i).
Proof.
  intros H E CMD. destruct (C38_runs_on_refuted _ _ _ _ _ H E CMD) as (T & TP & K).
  exists T. split; auto. intros dts Hd Ht HT. destruct (K dts Hd Ht HT) as (r2 & E2 & X).
  cbn [r_run r_step bind] in E2. rewrite C38_servos_do_not_stop_refuted in E2.
  destruct (run r1 (map OTick dts)) as [[rn en]|] eqn:En; [|discriminate]. cbn in E2. inversion E2; subst.
  exists rn. split; auto.
Qed.

End Exact.

(** ** Concrete cases *)

(** A small robot computed with IEEE floats: six servos of +-3 rad, 5 rad/s; kinematics
    identity, defined for x <= 1.  [flat_libm] gives the correct values of cos, sin at 0 and
    of acos at 1, the only ones the cases below use. *)
Definition flat_libm : libm :=
  let one := binary_normalize 24 128 1 0 false in
  let z := fun _ : spec_float => S754_zero false in let z2 := fun _ _ : spec_float => S754_zero false in
  mkLibm z (fun _ => one) z z z2 z (fun _ => one) z z2 z2.
Definition IF : arith := IEEE flat_libm.
Definition fi (n : Z) : F IF := fofz IF n.
Definition i6 (a b c d e f : Z) : V6 (F IF) := mk6 (fi a) (fi b) (fi c) (fi d) (fi e) (fi f).
Definition demo_s : servo IF :=
  mkServo IF 3 false (fi 0) 700 2380 0 (fi 0) (fi 0) (fi 0) (fi (-3)) (fi 3) (fi 5) (fi 5).
Definition demo_servos : V6 (servo IF) := mk6 demo_s demo_s demo_s demo_s demo_s demo_s.
Definition demo_inv (p : V6 (F IF)) : option (V6 (F IF)) := if fle IF (v0 p) (fi 1) then Some p else None.
Definition demo_limits : V6 (F IF * F IF) :=
  let l := (fi (-2), fi 2) in mk6 l l l l l l.
Definition demo_run := r_run IF (fun a => a) demo_inv (fun a => a) (fun a => a) demo_limits
                         (robot_new IF (fun a => a) (fun a => a) demo_servos).
Definition cmd_angles (x : res (robot IF * list (rev IF))) : list spec_float :=
  match x with Ok (_, e) => map (fun c => snd c) (servo_cmds e) | Ub _ => [] end.
Definition cmd_poses (x : res (robot IF * list (rev IF))) : list spec_float :=
  match x with Ok (_, e) => map v0 (waypoints e) | Ub _ => [] end.
Definition faulted (x : res (robot IF * list (rev IF))) : option fault :=
  match x with Ok _ => None | Ub f => Some f end.
Definition pos0 (x : res (robot IF * list (rev IF))) : spec_float :=
  match x with Ok (r, _) => s_cur (v0 (r_servos r)) | Ub _ => S754_nan end.
Definition moving (x : res (robot IF * list (rev IF))) : option bool :=
  match x with Ok (r, _) => Some (is_moving r) | Ub _ => None end.

(** C32 with IEEE floats: a NaN is not outside any limit, and is sent to the servo; the next
    timer tick then converts it to an integer *)
Theorem C32_nan_refuted :
  let ops := [OSetAngles (mk6 S754_nan (fi 1) (fi 0) (fi 0) (fi 0) (fi 0) : V6 (F IF)); OProcess] in
  cmd_angles (demo_run ops) = [S754_nan; fi 1; fi 0; fi 0; fi 0; fi 0] /\
  faulted (demo_run (ops ++ [OTick 20])) = Some BadConv.
Proof. cbv zeta. splits; vm_compute; reflexivity. Qed.

(** a rejected and an accepted target *)
Example C32_reachable :
  cmd_angles (demo_run [OSetAngles (i6 1 (-2) 0 0 2 0); OProcess]) = list6 (i6 1 (-2) 0 0 2 0) /\
  cmd_angles (demo_run [OSetAngles (i6 1 (-2) 0 0 3 0); OProcess]) = [].
Proof. cbv zeta. splits; vm_compute; reflexivity. Qed.

(** C33: two coordinates set in a transaction, with polls between; one move *)
Example C33_reachable :
  let ops := [OStart; OSetPose 0 (fi 1); OProcess; OTick 20; OSetPose 1 (fi 1); OSetPose 1 (fi 2); OProcess; OEnd] in
  cmd_angles (demo_run ops) = [] /\
  cmd_angles (demo_run (ops ++ [OProcess])) = list6 (i6 1 2 0 0 0 0) /\
  moving (demo_run (ops ++ [OProcess])) = Some true.
Proof. cbv zeta. splits; vm_compute; reflexivity. Qed.

Example C34_reachable :
  let ops := [OSetPose 0 (fi 1); OStart; OSetAngle 1 (fi 1); OProcess; OEnd] in
  moving (demo_run ops) = Some true /\
  cmd_angles (demo_run (ops ++ [OProcess])) = [] /\ moving (demo_run (ops ++ [OProcess])) = Some false.
Proof. cbv zeta. splits; vm_compute; reflexivity. Qed.

(** C36, C37: the straight move from 0 to (1,0,0): N = 3, waypoints 1/3, 2/3, 1 *)
Fixpoint reps {T} (n : nat) (l : list T) : list T := match n with O => [] | S m => l ++ reps m l end.
Definition linear_demo := [OMethod LINEAR; OSetPose6 (i6 1 0 0 0 0 0)] ++ reps 4 [OProcess; OTick 300; OTick 300].
Example C36_reachable :
  cmd_poses (demo_run linear_demo) =
    [fdiv IF (fi 1) (fi 3); fdiv IF (fi 2) (fi 3); fi 1] /\
  moving (demo_run (firstn 11 linear_demo)) = Some true /\ moving (demo_run linear_demo) = Some false.
Proof. cbv zeta. splits; vm_compute; reflexivity. Qed.

(** C38: the servos go on after stop() *)
Example C38_reachable :
  let ops := [OSetAngles (i6 1 0 0 0 0 0); OProcess; OTick 20; OStop] in
  flt IF (pos0 (demo_run ops)) (fdiv IF (fi 1) (fi 10)) = true /\ moving (demo_run ops) = Some false /\
  pos0 (demo_run (ops ++ [OProcess; OTick 1000])) = fi 1.
Proof. cbv zeta. splits; vm_compute; reflexivity. Qed.

(** C39: a joint target (1,1,1,..) is dropped because a pose was set with it; then an
    unreachable pose (x = 2) is requested, and the robot moves to the dropped joint target *)
Example C39_p2p_reachable :
  let ops := [OSetAngles (i6 1 1 1 0 0 0); OSetPose 1 (fi 2); OProcess] in
  cmd_angles (demo_run ops) = [] /\ moving (demo_run ops) = Some false /\
  cmd_angles (demo_run (ops ++ [OSetPose6 (i6 2 0 0 0 0 0); OProcess])) = list6 (i6 1 1 1 0 0 0).
Proof. cbv zeta. splits; vm_compute; reflexivity. Qed.

(** and in linear mode it drives towards the unreachable pose as far as it gets *)
Theorem C39_linear_drives_off_refuted :
  let ops := [OSetAngles (i6 1 1 1 0 0 0); OSetPose 1 (fi 2); OProcess; OMethod LINEAR;
              OSetPose6 (i6 2 0 0 0 0 0)] ++ reps 5 [OProcess; OTick 300; OTick 300] in
  match demo_inv (i6 2 0 0 0 0 0) with None => True | Some _ => False end /\
  cmd_poses (demo_run ops) = [fdiv IF (fi 2) (fi 5); fdiv IF (fi 4) (fi 5); fmul IF (fi 2) (fdiv IF (fi 3) (fi 5))] /\
  flt IF (fdiv IF (fi 3) (fi 4)) (pos0 (demo_run ops)) = true.
Proof. cbv zeta. split; [vm_compute; exact I|]. split; vm_compute; reflexivity. Qed.

Definition here (x : res (robot IF * list (rev IF))) : V6 spec_float :=
  match x with Ok (r, _) => current_logical IF (fun a => a) r | Ub _ => i6 0 0 0 0 0 0 end.
Example C51_reachable :
  let ops := [OSetAngles (i6 1 0 0 0 0 0); OProcess; OTick 100] in
  flt IF (v0 (here (demo_run ops))) (fdiv IF (fi 1) (fi 2)) = true /\
  pos0 (demo_run (ops ++ [OSetAngles (here (demo_run ops) : V6 (F IF)); OProcess; OTick 1000])) = fi 1.
Proof. cbv zeta. splits; vm_compute; reflexivity. Qed.

(** ** A concrete robot in exact arithmetic: the hypotheses of C35, C36, C37, C38, C51 hold *)
Definition ex_s : servo RA := mkServo RA 3 false 0%R 700 2380 0 0%R 0%R 0%R (-2)%R 2%R 5%R 5%R.
Definition ex_servos : V6 (servo RA) := mk6 ex_s ex_s ex_s ex_s ex_s ex_s.
Definition ex_limits : V6 (R * R) := let l := ((-2)%R, 2%R) in mk6 l l l l l l.
Definition ex_id (a : V6 R) : V6 R := a.
Definition ex_inv (p : V6 R) : option (V6 R) := Some p.
Definition ex_robot : robot RA := robot_new RA ex_id ex_id ex_servos.
Definition ex_t : V6 R := mk6 1%R 0%R 0%R 0%R 0%R 0%R.
Definition ex_run := r_run RA ex_id ex_inv ex_id ex_id ex_limits.

Lemma ex_RR : RR ex_robot.
Proof.
  unfold RR, axes, SR, sane, in_range. cbn. unfold in_range. cbn. splits; try lia; lra.
Qed.
Lemma ex_lin_RR : RR (with_method RA ex_robot LINEAR).
Proof. exact ex_RR. Qed.
Lemma ex_within (x : R) : (-2 <= x <= 2)%R ->
  within (A:=RA) ex_id ex_limits ex_servos (mk6 x 0 0 0 0 0)%R.
Proof.
  intros H. unfold within, axes, not_outside. cbn. splits; apply rltb_false; lra.
Qed.
Lemma ex_not_close : ~ close (current_logical RA ex_id ex_robot) ex_t.
Proof.
  intros [H _]. cbn in H. unfold Rabs in H. destruct Rcase_abs in H; lra.
Qed.

Example C35_reachable :
  RR ex_robot /\ (0 < r_maxvel ex_robot)%R /\
  exists r1 evs vels, ex_run ex_robot [OSetAngles (A:=RA) ex_t; OProcess] = Ok (r1, evs) /\
    servo_cmds evs = all_six (A:=RA) vels ex_t /\ is_moving r1 = true.
Proof.
  split; [exact ex_RR|]. split; [cbn; lra|].
  apply C35_legal_target_is_executed; try reflexivity.
  - exact ex_RR.
  - cbn; lra.
  - apply ex_within. lra.
  - exact ex_not_close.
Qed.

Lemma ex_distance : distance (current_pose RA ex_id ex_id (with_method RA ex_robot LINEAR)) ex_t = 1%R.
Proof.
  unfold distance. cbn. replace ((1 - 0) * (1 - 0) + (0 - 0) * (0 - 0) + (0 - 0) * (0 - 0))%R with (1 * 1)%R by ring.
  apply sqrt_square. lra.
Qed.
Lemma ex_segments : segments (current_pose RA ex_id ex_id (with_method RA ex_robot LINEAR)) ex_t = 3.
Proof.
  unfold segments. rewrite ex_distance. replace (2 * 1)%R with (IZR 2) by (rewrite Rmult_1_r; reflexivity).
  unfold Int_part. rewrite <- (tech_up (IZR 2) 3); [reflexivity|apply IZR_lt; lia|].
  rewrite <- plus_IZR. apply IZR_le. lia.
Qed.

(** the first of three waypoints of the move from 0 to 1 is possible; the move starts *)
Example C36_exact_reachable :
  exists r1 evs, ex_run (with_method RA ex_robot LINEAR) [OSetPose6 (A:=RA) ex_t; OProcess] = Ok (r1, evs) /\
    is_moving r1 = true /\ exists p, waypoints evs = [p].
Proof.
  destruct (C36_possible_move_is_started ex_id ex_inv ex_id ex_id ex_limits (with_method RA ex_robot LINEAR) ex_t)
    as (r1 & evs & E & M & W); try reflexivity.
  - rewrite ex_distance. lra.
  - exists ex_t. split; [reflexivity|exact ex_not_close].
  - rewrite ex_segments. intros [I|(a & s3 & s5 & I & N)]; [discriminate|]. injection I as <-.
    match type of N with context [at_singularity ?x] => assert (S : at_singularity (A:=RA) x = false) end.
    { unfold at_singularity. cbn. apply rltb_false. pose proof PI2_3_2. unfold Rdiv. rewrite rdec_int.
      replace (rdec false 5 (-2)) with (5 / 100)%R by (unfold rdec, powerRZ; replace (Pos.to_nat 2) with 2%nat by reflexivity; cbn [pow]; field).
      unfold Rabs. destruct Rcase_abs; lra. }
    rewrite S in N. apply N. unfold on_segment. cbn.
    match goal with |- within _ _ _ (mk6 ?x ?y ?z _ _ _) =>
      replace x with (1/3)%R by field; replace y with 0%R by field end.
    apply ex_within. lra.
  - exists r1, evs. split; [exact E|]. split; [exact M|]. eauto.
Qed.

Print Assumptions C32_all_or_none.
Print Assumptions C32_never_outside.
Print Assumptions C33_nothing_moves_inside.
Print Assumptions C33_commit_pose.
Print Assumptions C33_commit_angles.
Print Assumptions C34_mixed_targets_move_nothing.
Print Assumptions C38_quiet_after_stop.
Print Assumptions C38_servos_do_not_stop_refuted.
Print Assumptions C39_at_rest_partial.
Print Assumptions C39_waypoint_partial.
Print Assumptions C39_p2p_goes_elsewhere_refuted.
Print Assumptions C51_current_position_ignored_refuted.
Print Assumptions C32_servos_stay_inside.
Print Assumptions C35_synchronised.
Print Assumptions C35_legal_target_is_executed.
Print Assumptions C36_straight_line.
Print Assumptions C36_spacing.
Print Assumptions C36_possible_move_is_started.
Print Assumptions C37_linear_move_ends.
Print Assumptions C37_p2p_move_ends.
Print Assumptions C37_servos_arrive.
Print Assumptions C38_runs_on_refuted.
Print Assumptions C51_new_command_wins_partial.
Print Assumptions C32_nan_refuted.
Print Assumptions C39_linear_drives_off_refuted.
