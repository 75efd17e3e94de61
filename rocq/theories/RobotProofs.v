(** * RobotProofs: lemmas about the robot controller model. *)
From Verif Require Import Base Arith ServoModel RobotModel RobotSpec.
From Coq Require Import Reals Lra.
Open Scope Z_scope.

Section Generic.
Context (A : arith) (fwd : V6 (F A) -> V6 (F A)) (inv : V6 (F A) -> option (V6 (F A))).
Context (l2p p2l : V6 (F A) -> V6 (F A)) (limits : V6 (F A * F A)).
Notation step := (r_step A fwd inv l2p p2l limits).
Notation run := (r_run A fwd inv l2p p2l limits).
Notation process := (r_process A fwd inv l2p p2l limits).
Notation start_move := (r_start_move A fwd inv l2p p2l limits).
Notation prepare := (r_prepare A fwd inv l2p p2l limits).
Notation reject := (r_reject A fwd p2l).
Notation plan_ := (r_plan A inv).
Notation robot_ := (robot A).

Lemma servo_cmds_app e1 e2 : servo_cmds (A:=A) (e1 ++ e2) = servo_cmds e1 ++ servo_cmds e2.
Proof. induction e1 as [|[]]; cbn; auto. now rewrite IHe1. Qed.
Lemma waypoints_app e1 e2 : waypoints (A:=A) (e1 ++ e2) = waypoints e1 ++ waypoints e2.
Proof. induction e1 as [|[]]; cbn; auto. now rewrite IHe1. Qed.

Lemma plan_events (r : robot_) p es : plan_ r = Ok (p, es) ->
  servo_cmds es = [] /\
  waypoints es = match r_method r with
                 | LINEAR => [waypoint A (r_startP r) (r_targetP r) (r_cur r) (r_total r)]
                 | _ => [] end.
Proof.
  unfold r_plan. destruct (r_method r); intros H.
  - inversion H; subst; auto.
  - destruct (inv _); inversion H; subst; auto.
  - discriminate.
Qed.

Lemma plan_p2p (r : robot_) tl time es : plan_ r = Ok (PMove tl time, es) -> r_method r = P2P ->
  tl = r_targetA r.
Proof. unfold r_plan. intros H M. rewrite M in H. inversion H; auto. Qed.

Lemma plan_p2p_time (r : robot_) tl time es : plan_ r = Ok (PMove tl time, es) -> r_method r = P2P ->
  time = d2f A (dmul A (f2d A (fdiv A (max_change A (r_startA r) (r_targetA r)) (r_maxvel r))) (RAD_TO_DEG A)).
Proof. unfold r_plan. intros H M. rewrite M in H. inversion H; auto. Qed.

Lemma plan_linear_fail (r : robot_) p es : plan_ r = Ok (p, es) -> r_method r = LINEAR ->
  inv (waypoint A (r_startP r) (r_targetP r) (r_cur r) (r_total r)) = None -> p = PReject.
Proof. unfold r_plan. intros H M I. rewrite M in H. cbv zeta in H. rewrite I in H. inversion H; auto. Qed.

(** every outcome of START_MOVE *)
Lemma start_move_cases (r r' : robot_) evs : start_move r = Ok (r', evs) ->
  let r1 := with_steps A r (u32 (r_cur r + 1)) (r_total r) in
  exists p es, plan_ r1 = Ok (p, es) /\
   ((r' = reject r1 /\ evs = es) \/
    (exists tl time, p = PMove tl time /\
       outside A tl (map6 fst limits) (map6 snd limits) = false /\
       outside A (l2p tl) (map6 s_min (r_servos r)) (map6 s_max (r_servos r)) = false /\
       ((feq A (min_time A r1 (l2p tl) time) (fofz A 0) = true /\
         r' = with_state A r1 MOVING /\ evs = es) \/
        (feq A (min_time A r1 (l2p tl) time) (fofz A 0) = false /\
         r' = with_state A (fst (command_servos A r1 (l2p tl) (min_time A r1 (l2p tl) time))) MOVING /\
         evs = es ++ snd (command_servos A r1 (l2p tl) (min_time A r1 (l2p tl) time)))))).
Proof.
  unfold r_start_move. cbv zeta. set (r1 := with_steps A r _ _).
  destruct (plan_ r1) as [[p es]|] eqn:E; [|discriminate]. cbn [bind]. intros H.
  exists p, es. split; [reflexivity|].
  destruct p as [tl time|].
  - change (r_servos r1) with (r_servos r) in H.
    destruct (outside A tl _ _) eqn:O1; [left; inversion H; auto|].
    destruct (outside A (l2p tl) _ _) eqn:O2; [left; inversion H; auto|].
    right. exists tl, time. split; [reflexivity|]. split; [exact O1|]. split; [exact O2|].
    destruct (feq A (min_time A r1 (l2p tl) time) (fofz A 0)) eqn:Q; cbn [negb] in H.
    + left. inversion H; auto.
    + right. split; [reflexivity|].
      destruct (command_servos A r1 (l2p tl) _) as [r2 cmds] eqn:C. inversion H; auto.
  - left. inversion H; auto.
Qed.

Lemma outside_false t lo hi : outside A t lo hi = false ->
  axes (fun i => not_outside A (at6 t i) (at6 lo i) (at6 hi i)).
Proof.
  unfold outside, axes, not_outside; cbn. intros H.
  rewrite !orb_false_iff in H. tauto.
Qed.

Lemma outside_true t lo hi : outside A t lo hi = true ->
  ~ axes (fun i => not_outside A (at6 t i) (at6 lo i) (at6 hi i)).
Proof.
  unfold outside, axes, not_outside; cbn. intros H K.
  repeat match goal with H : _ /\ _ |- _ => destruct H end.
  repeat match goal with H : flt A _ _ = false |- _ => rewrite H in *; clear H end. discriminate.
Qed.

Lemma outside_iff t lo hi : axes (fun i => not_outside A (at6 t i) (at6 lo i) (at6 hi i)) ->
  outside A t lo hi = false.
Proof. destruct (outside A t lo hi) eqn:E; auto. intros H. apply outside_true in E. contradiction. Qed.

(** why a LINEAR step is given up *)
Lemma start_move_reject (r r' : robot_) evs : start_move r = Ok (r', evs) ->
  r_method r = LINEAR -> r_state r' = IDLE ->
  impossible inv l2p limits (r_servos r)
    (waypoint A (r_startP r) (r_targetP r) (u32 (r_cur r + 1)) (r_total r)).
Proof.
  unfold r_start_move, r_plan. cbn [r_method with_steps]. intros H M S. rewrite M in H. cbv zeta in H.
  cbn [r_startP r_targetP r_cur r_total with_steps] in H.
  destruct (inv _) as [a|] eqn:E in H; [|left; exact E]. cbn [bind] in H.
  right. exists a, (s_cur (v3 (r_servos r))), (s_cur (v5 (r_servos r))). split; [exact E|].
  match goal with |- ~ within _ _ _ ?x => change x with (singularity A r a) end.
  change (singularity A (with_steps A r (u32 (r_cur r + 1)) (r_total r)) a) with (singularity A r a) in H.
  intros [W1 W2].
  destruct (outside A (singularity A r a) _ _) eqn:O1 in H.
  { apply outside_true in O1. apply O1. exact W1. }
  destruct (outside A (l2p (singularity A r a)) _ _) eqn:O2 in H.
  { apply outside_true in O2. apply O2. exact W2. }
  destruct (negb _) in H.
  - inversion H; subst. discriminate.
  - inversion H; subst. discriminate.
Qed.

(** a move step either commands no servo at all or all six, inside all limits *)
Lemma start_move_commands (r r' : robot_) evs : start_move r = Ok (r', evs) ->
  (servo_cmds evs = [] /\ r_servos r' = r_servos r) \/
  exists tl vels,
    axes (fun i => not_outside A (at6 tl i) (fst (at6 limits i)) (snd (at6 limits i))) /\
    axes (fun i => not_outside A (at6 (l2p tl) i) (s_min (at6 (r_servos r) i)) (s_max (at6 (r_servos r) i))) /\
    servo_cmds evs = [(0, v0 vels, v0 (l2p tl)); (1, v1 vels, v1 (l2p tl)); (2, v2 vels, v2 (l2p tl));
                      (3, v3 vels, v3 (l2p tl)); (4, v4 vels, v4 (l2p tl)); (5, v5 vels, v5 (l2p tl))] /\
    r_servos r' = zip6 (fun s vt => servo_set_target A (servo_set_vel A s (fst vt)) (snd vt))
                       (r_servos r) (zip6 pair vels (l2p tl)).
Proof.
  intros H. apply start_move_cases in H as (p & es & P & [[-> ->] | (tl & time & -> & O1 & O2 & [(Q & -> & ->) | (Q & -> & ->)])]);
    apply plan_events in P as [P1 P2].
  - left; auto.
  - left; auto.
  - right. exists tl. eexists. split; [|split; [|split]].
    + apply outside_false in O1. exact O1.
    + apply outside_false in O2. exact O2.
    + rewrite servo_cmds_app, P1. cbn [app command_servos snd servo_cmds]. reflexivity.
    + reflexivity.
Qed.

(** a P2P step inside all limits, with something to do, is executed *)
Lemma start_move_p2p_accept (r : robot_) time : r_method r = P2P ->
  outside A (r_targetA r) (map6 fst limits) (map6 snd limits) = false ->
  outside A (l2p (r_targetA r)) (map6 s_min (r_servos r)) (map6 s_max (r_servos r)) = false ->
  time = d2f A (dmul A (f2d A (fdiv A (max_change A (r_startA r) (r_targetA r)) (r_maxvel r))) (RAD_TO_DEG A)) ->
  feq A (min_time A r (l2p (r_targetA r)) time) (fofz A 0) = false ->
  exists r' evs vels, start_move r = Ok (r', evs) /\
    servo_cmds evs = all_six vels (l2p (r_targetA r)) /\ r_state r' = MOVING.
Proof.
  intros M O1 O2 -> Q. unfold r_start_move, r_plan. cbn [r_method with_steps]. rewrite M. cbv zeta. cbn [bind].
  cbn [r_targetA r_servos r_startA r_maxvel with_steps]. rewrite O1, O2.
  match goal with |- context [min_time A ?x ?y ?z] => change (min_time A x y z) with (min_time A r y z) end.
  rewrite Q. cbn [negb]. unfold command_servos. eexists; eexists; eexists. split; [reflexivity|].
  split; reflexivity.
Qed.

(** what START_MOVE leaves alone *)
Lemma start_move_frame (r r' : robot_) evs : start_move r = Ok (r', evs) ->
  r_method r' = r_method r /\ r_startA r' = r_startA r /\ r_startP r' = r_startP r /\
  r_total r' = r_total r /\ r_cur r' = u32 (r_cur r + 1) /\ r_trans r' = r_trans r /\
  r_achg r' = r_achg r /\ r_pchg r' = r_pchg r /\ r_maxvel r' = r_maxvel r /\
  ((r_state r' = MOVING /\ r_targetA r' = r_targetA r /\ r_targetP r' = r_targetP r) \/
   (r_state r' = IDLE /\ r_servos r' = r_servos r /\
    r_targetA r' = current_logical A p2l r /\ r_targetP r' = current_pose A fwd p2l r)).
Proof.
  intros H. apply start_move_cases in H as (p & es & P & [[-> ->] | (tl & time & -> & O1 & O2 & [(Q & -> & ->) | (Q & -> & ->)])]);
    cbn; splits; auto.
Qed.

Lemma start_move_waypoints (r r' : robot_) evs : start_move r = Ok (r', evs) ->
  waypoints evs = match r_method r with
                  | LINEAR => [waypoint A (r_startP r) (r_targetP r) (u32 (r_cur r + 1)) (r_total r)]
                  | _ => [] end.
Proof.
  intros H. apply start_move_cases in H as (p & es & P & [[-> ->] | (tl & time & -> & O1 & O2 & [(Q & -> & ->) | (Q & -> & ->)])]);
    apply plan_events in P as [P1 P2]; cbn in P2; auto.
  rewrite waypoints_app, P2. cbn [command_servos snd waypoints]. now rewrite app_nil_r.
Qed.

(** the state PREPARE_MOVE hands to START_MOVE *)
Definition prepared (r : robot_) : robot_ :=
  let r1 := if r_achg r then with_targets A r (r_targetA r) (fwd (r_targetA r))
            else if r_pchg r then
              with_targets A r (match inv (r_targetP r) with Some a => a | None => r_targetA r end) (r_targetP r)
            else with_state A r IDLE in
  let r2 := with_flags A r1 false false in
  with_starts A r2 (current_logical A p2l r2) (current_pose A fwd p2l r2).

Lemma prepared_servos r : r_servos (prepared r) = r_servos r.
Proof. unfold prepared. destruct (r_achg r), (r_pchg r); reflexivity. Qed.
Lemma prepared_method r : r_method (prepared r) = r_method r.
Proof. unfold prepared. destruct (r_achg r), (r_pchg r); reflexivity. Qed.
Lemma prepared_trans r : r_trans (prepared r) = r_trans r.
Proof. unfold prepared. destruct (r_achg r), (r_pchg r); reflexivity. Qed.
Lemma prepared_start r : r_startA (prepared r) = current_logical A p2l r /\
                         r_startP (prepared r) = current_pose A fwd p2l r.
Proof. unfold prepared. destruct (r_achg r), (r_pchg r); split; reflexivity. Qed.
Lemma prepared_flags r : r_achg (prepared r) = false /\ r_pchg (prepared r) = false.
Proof. unfold prepared. destruct (r_achg r), (r_pchg r); split; reflexivity. Qed.

Lemma prepare_cases (r r' : robot_) evs : prepare r = Ok (r', evs) ->
  (r_trans r = true /\ r' = r /\ evs = []) \/
  (r_trans r = false /\ r_achg r = true /\ r_pchg r = true /\ evs = [] /\
     r_state r' = IDLE /\ r_achg r' = false /\ r_pchg r' = false /\ r_servos r' = r_servos r) \/
  (r_trans r = false /\ r_pchg r && r_achg r = false /\
   ((angles_equal A (r_startA (prepared r)) (r_targetA (prepared r)) = true /\
     r' = with_state A (prepared r) IDLE /\ evs = []) \/
    (angles_equal A (r_startA (prepared r)) (r_targetA (prepared r)) = false /\
     exists n, match r_method r with
               | P2P => Ok 1
               | LINEAR => linear_steps A (r_startP (prepared r)) (r_targetP (prepared r))
               | CIRCULAR => Ok (r_total r) end = Ok n /\
       start_move (with_state A (with_steps A (prepared r) 0 n) START_MOVE) = Ok (r', evs)))).
Proof.
  assert (EQ : prepare r =
    if r_trans r then Ok (r, []) else
    if r_pchg r && r_achg r then
      Ok (with_state A (with_flags A (if r_achg r then with_targets A r (r_targetA r) (fwd (r_targetA r))
            else if r_pchg r then
              with_targets A r (match inv (r_targetP r) with Some a => a | None => r_targetA r end) (r_targetP r)
            else with_state A r IDLE) false false) IDLE, [])
    else if angles_equal A (r_startA (prepared r)) (r_targetA (prepared r)) then Ok (with_state A (prepared r) IDLE, [])
    else do n <- match r_method (prepared r) with
                | P2P => Ok 1
                | LINEAR => linear_steps A (r_startP (prepared r)) (r_targetP (prepared r))
                | CIRCULAR => Ok (r_total (prepared r))
                end;
        start_move (with_state A (with_steps A (prepared r) 0 n) START_MOVE)).
  { unfold r_prepare, prepared. reflexivity. }
  rewrite EQ. clear EQ.
  destruct (r_trans r) eqn:T; intros H; [left; inversion H; auto|].
  right. destruct (r_pchg r && r_achg r) eqn:B.
  - left. apply andb_true_iff in B as [B1 B2]. rewrite B2 in H. inversion H; subst.
    splits; auto.
  - right. split; [reflexivity|]. split; [reflexivity|].
    assert (M := prepared_method r). 
    assert (TT : r_total (prepared r) = r_total r) by (unfold prepared; destruct (r_achg r), (r_pchg r); reflexivity).
    rewrite M, TT in H. clear M TT. set (q := prepared r) in *. clearbody q.
    destruct (angles_equal A (r_startA q) (r_targetA q)) eqn:E.
    + left. inversion H; subst. auto.
    + right. split; [reflexivity|].
      destruct (r_method r) eqn:Q.
      * exists 1. cbn [bind] in H. auto.
      * destruct (linear_steps A _ _) as [n|] eqn:LS in H; [|discriminate]. exists n. cbn [bind] in H. auto.
      * cbn [bind] in H. exists (r_total r). auto.
Qed.

(** every process() call *)
Lemma process_cases (r r' : robot_) evs : process r = Ok (r', evs) ->
  (evs = [] /\ r_servos r' = r_servos r) \/
  exists rs, start_move rs = Ok (r', evs) /\ r_servos rs = r_servos r /\ r_method rs = r_method r.
Proof.
  unfold r_process. destruct (r_state r) eqn:S; intros H.
  - left; inversion H; auto.
  - destruct (all_at_target A r); [|left; inversion H; auto].
    destruct (r_cur r =? r_total r); [left; inversion H; auto|].
    right. eexists; split; [exact H|]. auto.
  - right. eexists; split; [exact H|]. auto.
  - apply prepare_cases in H as [(_ & -> & ->) | [(_ & _ & _ & -> & _ & _ & _ & ->) | (_ & _ & [(_ & -> & ->) | (_ & n & _ & H)])]].
    + left; auto.
    + left; auto.
    + left. split; auto. cbn. apply prepared_servos.
    + right. eexists; split; [exact H|]. cbn. split; [apply prepared_servos | apply prepared_method].
Qed.

Lemma run_app (r : robot_) l m :
  run r (l ++ m) = do (r1, e1) <- run r l; do (r2, e2) <- run r1 m; Ok (r2, e1 ++ e2).
Proof.
  revert r; induction l as [|o l IH]; intros r; cbn [app r_run].
  - cbn [bind]. destruct (run r m) as [[]|]; reflexivity.
  - destruct (step r o) as [[r1 e1]|]; cbn [bind]; [|reflexivity].
    rewrite IH. destruct (run r1 l) as [[r2 e2]|]; cbn [bind]; [|reflexivity].
    destruct (run r2 m) as [[r3 e3]|]; cbn [bind]; [|reflexivity]. now rewrite app_assoc.
Qed.

(** ** transactions *)
Lemma tick_frame (r r' : robot_) dt : r_tick A r dt = Ok r' -> exists s, r' = with_servos A r s.
Proof.
  unfold r_tick. intros H.
  repeat match type of H with
  | bind ?x _ = _ => destruct x as [?|] eqn:?; cbn [bind] in H; [|discriminate]
  end.
  inversion H. eauto.
Qed.

Lemma step_tick (r r' : robot_) dt e : step r (OTick dt) = Ok (r', e) -> r_tick A r dt = Ok r' /\ e = [].
Proof.
  cbn [r_step]. destruct (r_tick A r dt) as [x|]; cbn [bind]; intros H; [|discriminate].
  inversion H; auto.
Qed.

(** with a transaction open and a move not under way, nothing is ever commanded *)
Lemma quiet_step (r r' : robot_) o e :
  r_trans r = true -> (r_state r = PREPARE_MOVE \/ r_state r = IDLE) -> ~ is_end o -> step r o = Ok (r', e) ->
  e = [] /\ r_trans r' = true /\ (r_state r' = PREPARE_MOVE \/ r_state r' = IDLE).
Proof.
  intros T S N H. destruct o; cbn [is_end] in N; try (exfalso; now apply N).
  1-2,4-5,6-8: cbn in H; inversion H; subst; cbn; auto.
  - cbn in H. unfold set_angle in H. destruct ((0 <=? i) && (i <? 6)); [|discriminate].
    cbn in H; inversion H; subst; cbn; auto.
  - cbn [r_step] in H. unfold r_process in H. destruct S as [S|S]; rewrite S in H.
    + unfold r_prepare in H. rewrite T in H. inversion H; subst; auto.
    + inversion H; subst; auto.
  - apply step_tick in H as [H ->]. apply tick_frame in H as [s ->]. cbn; auto.
Qed.

Lemma quiet_run os : forall (r r' : robot_) e,
  r_trans r = true -> (r_state r = PREPARE_MOVE \/ r_state r = IDLE) ->
  Forall (fun o => ~ is_end o) os -> run r os = Ok (r', e) ->
  e = [] /\ r_trans r' = true /\ (r_state r' = PREPARE_MOVE \/ r_state r' = IDLE).
Proof.
  induction os as [|o os IH]; intros r r' e T S N H; cbn [r_run] in H.
  - inversion H; subst; auto.
  - inversion N; subst.
    destruct (step r o) as [[r1 e1]|] eqn:E1; [|discriminate]. cbn [bind] in H.
    destruct (run r1 os) as [[r2 e2]|] eqn:E2; [|discriminate]. cbn [bind] in H. inversion H; subst.
    apply quiet_step in E1 as (-> & T1 & S1); auto.
    apply IH in E2 as (-> & T2 & S2); auto.
Qed.

(** one call that prepares nothing *)
Lemma pending_step (r r' : robot_) o e :
  (r_state r = PREPARE_MOVE \/ r_state r = IDLE) ->
  match o with OStop => False | OProcess => r_trans r = true | _ => True end ->
  step r o = Ok (r', e) ->
  e = [] /\ r_trans r' = open_after (r_trans r) [o] /\
  (r_state r' = PREPARE_MOVE \/ (r_state r' = IDLE /\ r_state r = IDLE /\ ~ is_set o)) /\
  r_targetP r' = last_pose (r_targetP r) [o] /\ r_targetA r' = last_angles (r_targetA r) [o] /\
  (r_pchg r' = true <-> r_pchg r = true \/ is_pose_set o) /\
  (r_achg r' = true <-> r_achg r = true \/ is_angle_set o) /\
  (is_tick o \/ r_servos r' = r_servos r).
Proof.
  intros S N H. destruct o; cbn [is_set is_pose_set is_angle_set open_after last_pose last_angles is_tick] in *; try contradiction.
  1-2,4-5,6-8: cbn in H; inversion H; subst; cbn; splits; auto; try tauto;
     destruct S as [S|S]; rewrite ?S; unfold is_set; cbn; tauto.
  - cbn in H. unfold set_angle in H. destruct ((0 <=? i) && (i <? 6)); [|discriminate].
    cbn in H; inversion H; subst; cbn; splits; auto; tauto.
  - cbn [r_step] in H. unfold r_process in H. destruct S as [S|S]; rewrite S in H.
    + unfold r_prepare in H. rewrite N in H. inversion H; subst; splits; auto; tauto.
    + inversion H; subst; splits; auto; unfold is_set; cbn; tauto.
  - apply step_tick in H as [H ->]. apply tick_frame in H as [s ->]. cbn; splits; auto; try tauto;
     destruct S as [S|S]; rewrite ?S; unfold is_set; cbn; tauto.
Qed.

Lemma Exists_one {T} (P : T -> Prop) x : Exists P [x] <-> P x.
Proof. rewrite Exists_cons, Exists_nil. tauto. Qed.

Lemma last_pose_cons (p : V6 (F A)) o os : last_pose p (o :: os) = last_pose (last_pose p [o]) os.
Proof. destruct o; reflexivity. Qed.
Lemma last_angles_cons (p : V6 (F A)) o os : last_angles p (o :: os) = last_angles (last_angles p [o]) os.
Proof. destruct o; reflexivity. Qed.
Lemma open_after_cons b (o : rop A) os : open_after b (o :: os) = open_after (open_after b [o]) os.
Proof. destruct o; reflexivity. Qed.
Lemma undisturbed_cons b (o : rop A) os : undisturbed b (o :: os) <->
  match o with OStop => False | OProcess => b = true | _ => True end /\ undisturbed (open_after b [o]) os.
Proof. destruct o; cbn; tauto. Qed.

(** targets and change marks while nothing is prepared *)
Lemma pending_run os : forall (r r' : robot_) e,
  (r_state r = PREPARE_MOVE \/ r_state r = IDLE) ->
  undisturbed (r_trans r) os -> run r os = Ok (r', e) ->
  e = [] /\ r_trans r' = open_after (r_trans r) os /\
  (r_state r' = PREPARE_MOVE \/ (r_state r' = IDLE /\ r_state r = IDLE /\ ~ Exists is_set os)) /\
  r_targetP r' = last_pose (r_targetP r) os /\ r_targetA r' = last_angles (r_targetA r) os /\
  (r_pchg r' = true <-> r_pchg r = true \/ Exists is_pose_set os) /\
  (r_achg r' = true <-> r_achg r = true \/ Exists is_angle_set os).
Proof.
  induction os as [|o os IH]; intros r r' e S U H; cbn [r_run] in H.
  - inversion H; subst. rewrite !Exists_nil. splits; auto; try tauto.
  - apply undisturbed_cons in U as [U1 U2].
    destruct (step r o) as [[r1 e1]|] eqn:E1; [|discriminate]. cbn [bind] in H.
    destruct (run r1 os) as [[r2 e2]|] eqn:E2; [|discriminate]. cbn [bind] in H. inversion H; subst.
    apply pending_step in E1 as (-> & T1 & S1 & P1 & A1 & C1 & D1 & _); auto.
    apply IH in E2 as (-> & T2 & S2 & P2 & A2 & C2 & D2); [| tauto | now rewrite T1].
    rewrite open_after_cons, last_pose_cons, last_angles_cons.
    rewrite T2, T1, P2, P1, A2, A1, C2, C1, D2, D1, !Exists_cons. splits; auto; try tauto.
    destruct S2 as [S2|(S2 & S2' & S2'')]; auto. right. destruct S1 as [S1|S1]; [congruence|]. tauto.
Qed.

(** after anything but a stop, an idle or moving controller has no pending change marks *)
Definition clean (r : robot_) : Prop :=
  match r_state r with PREPARE_MOVE => True | _ => r_achg r = false /\ r_pchg r = false end.
Lemma clean_step (r r' : robot_) o e : clean r -> ~ is_stop o -> step r o = Ok (r', e) -> clean r'.
Proof.
  intros C N H. unfold clean in *. destruct o; cbn [is_stop] in N; try (exfalso; now apply N).
  1-2,4-5,6-8: cbn in H; inversion H; subst; cbn; auto.
  - cbn in H. unfold set_angle in H. destruct ((0 <=? i) && (i <? 6)); [|discriminate].
    cbn in H; inversion H; subst; cbn; auto.
  - cbn [r_step] in H. unfold r_process in H. destruct (r_state r) eqn:S.
    + inversion H; subst. now rewrite S.
    + destruct (all_at_target A r); [|inversion H; subst; now rewrite S].
      destruct (r_cur r =? r_total r); [inversion H; subst; auto|].
      apply start_move_frame in H as (_ & _ & _ & _ & _ & _ & X & Y & _ & [(Z & _)|(Z & _)]);
        rewrite Z, X, Y; auto.
    + apply start_move_frame in H as (_ & _ & _ & _ & _ & _ & X & Y & _ & [(Z & _)|(Z & _)]);
        rewrite Z, X, Y; auto.
    + apply prepare_cases in H as [(_ & -> & ->) | [(_ & _ & _ & _ & X & Y & Z & _) | (_ & _ & [(_ & -> & ->) | (_ & n & _ & H)])]].
      * now rewrite S.
      * rewrite X; auto.
      * exact (prepared_flags r).
      * apply start_move_frame in H as (_ & _ & _ & _ & _ & _ & X & Y & _ & [(Z & _)|(Z & _)]);
        rewrite Z, X, Y; exact (prepared_flags r).
  - apply step_tick in H as [H ->]. apply tick_frame in H as [s ->]. cbn; auto.
Qed.
Lemma clean_run os : forall (r r' : robot_) e, clean r -> Forall (fun o => ~ is_stop o) os ->
  run r os = Ok (r', e) -> clean r'.
Proof.
  induction os as [|o os IH]; intros r r' e C N H; cbn [r_run] in H.
  - inversion H; subst; auto.
  - inversion N; subst.
    destruct (step r o) as [[r1 e1]|] eqn:E1; [|discriminate]. cbn [bind] in H.
    destruct (run r1 os) as [[r2 e2]|] eqn:E2; [|discriminate]. cbn [bind] in H. inversion H; subst.
    eapply IH; [|eassumption|eassumption]. eapply clean_step; eassumption.
Qed.

(** ** idle *)
Lemma idle_step (r r' : robot_) o e :
  r_state r = IDLE -> ~ is_set o -> step r o = Ok (r', e) -> e = [] /\ r_state r' = IDLE.
Proof.
  intros S N H. destruct o; unfold is_set in N; cbn in N; try (exfalso; tauto).
  1-5: cbn in H; inversion H; subst; auto.
  - cbn [r_step] in H. unfold r_process in H. rewrite S in H. inversion H; subst; auto.
  - apply step_tick in H as [H ->]. apply tick_frame in H as [s ->]. cbn; auto.
Qed.
Lemma idle_run os : forall (r r' : robot_) e,
  r_state r = IDLE -> Forall (fun o => ~ is_set o) os -> run r os = Ok (r', e) -> e = [] /\ r_state r' = IDLE.
Proof.
  induction os as [|o os IH]; intros r r' e S N H; cbn [r_run] in H.
  - inversion H; subst; auto.
  - inversion N; subst.
    destruct (step r o) as [[r1 e1]|] eqn:E1; [|discriminate]. cbn [bind] in H.
    destruct (run r1 os) as [[r2 e2]|] eqn:E2; [|discriminate]. cbn [bind] in H. inversion H; subst.
    apply idle_step in E1 as (-> & S1); auto. apply IH in E2 as (-> & S2); auto.
Qed.

(** ** a move in progress *)
Definition same_limits (s s' : V6 (servo A)) : Prop :=
  axes (fun i => s_min (at6 s' i) = s_min (at6 s i) /\ s_max (at6 s' i) = s_max (at6 s i)).
Lemma same_limits_refl s : same_limits s s.
Proof. unfold same_limits, axes; splits; auto. Qed.
Lemma same_limits_trans a b c : same_limits a b -> same_limits b c -> same_limits a c.
Proof. unfold same_limits, axes; intros; splits; intuition congruence. Qed.

Lemma servo_process_limits (s s' : servo A) dt p : servo_process A s dt = Ok (s', p) ->
  s_min s' = s_min s /\ s_max s' = s_max s /\ s_maxvel s' = s_maxvel s.
Proof.
  unfold servo_process. destruct (servo_move A _); [|discriminate]. cbn. intros H; inversion H; subst.
  unfold servo_advance. cbv zeta.
  repeat match goal with |- context [if ?b then _ else _] => destruct b end; cbn; auto.
Qed.
Lemma tick_limits (r r' : robot_) dt : r_tick A r dt = Ok r' -> same_limits (r_servos r) (r_servos r').
Proof.
  unfold r_tick. intros H.
  repeat match type of H with
  | bind (bind ?x _) _ = _ => let E := fresh "E" in destruct x as [[? ?]|] eqn:E; cbn [bind] in H; [|discriminate];
       apply servo_process_limits in E
  end.
  inversion H. unfold same_limits, axes; cbn. splits; tauto.
Qed.
Lemma command_limits (s : servo A) v a :
  s_min (servo_set_target A (servo_set_vel A s v) a) = s_min s /\
  s_max (servo_set_target A (servo_set_vel A s v) a) = s_max s.
Proof. unfold servo_set_vel. 
  repeat match goal with |- context [if ?b then _ else _] => destruct b end; cbn; auto. Qed.
Lemma start_move_limits (r r' : robot_) e : start_move r = Ok (r', e) -> same_limits (r_servos r) (r_servos r').
Proof.
  intros H. apply start_move_commands in H as [[_ ->]|(tl & vels & _ & _ & _ & ->)].
  - apply same_limits_refl.
  - unfold same_limits, axes. cbn [at6 zip6 v0 v1 v2 v3 v4 v5 fst snd].
    split; [|split; [|split; [|split; [|split]]]]; apply command_limits.
Qed.
Lemma step_limits (r r' : robot_) o e : step r o = Ok (r', e) -> same_limits (r_servos r) (r_servos r').
Proof.
  intros H. destruct o.
  1-2,4-5,6-9: cbn in H; inversion H; subst; cbn; apply same_limits_refl.
  - cbn in H. unfold set_angle in H. destruct ((0 <=? i) && (i <? 6)); [|discriminate].
    cbn in H; inversion H; subst; cbn; apply same_limits_refl.
  - cbn [r_step] in H. apply process_cases in H as [[_ ->]|(rs & H & <- & _)].
    + apply same_limits_refl.
    + eapply start_move_limits; eauto.
  - apply step_tick in H as [H ->]. eapply tick_limits; eauto.
Qed.
Lemma run_limits os : forall (r r' : robot_) e, run r os = Ok (r', e) -> same_limits (r_servos r) (r_servos r').
Proof.
  induction os as [|o os IH]; intros r r' e H; cbn [r_run] in H.
  - inversion H; subst. apply same_limits_refl.
  - destruct (step r o) as [[r1 e1]|] eqn:E1; [|discriminate]. cbn [bind] in H.
    destruct (run r1 os) as [[r2 e2]|] eqn:E2; [|discriminate]. cbn [bind] in H. inversion H; subst.
    eapply same_limits_trans; [eapply step_limits; eauto | eauto].
Qed.
Lemma impossible_limits s s' p : same_limits s s' -> impossible inv l2p limits s' p -> impossible inv l2p limits s p.
Proof.
  intros L [H|(a & s3 & s5 & H & W)]; [left; auto|]. right. exists a, s3, s5. split; auto.
  intros [W1 W2]. apply W. split; auto. unfold same_limits, axes in *.
  destruct L as ((L0 & K0) & (L1 & K1) & (L2 & K2) & (L3 & K3) & (L4 & K4) & (L5 & K5)).
  rewrite L0, K0, L1, K1, L2, K2, L3, K3, L4, K4, L5, K5. exact W2.
Qed.

Lemma moving_step (r r' : robot_) o e :
  r_state r = MOVING -> is_poll o -> 0 <= r_cur r < r_total r \/ r_cur r = r_total r ->
  r_total r < 4294967296 -> step r o = Ok (r', e) ->
  (* nothing happened *)
  (r_state r' = MOVING /\ waypoints e = [] /\ r_cur r' = r_cur r /\ r_total r' = r_total r /\
   r_startP r' = r_startP r /\ r_targetP r' = r_targetP r /\ r_method r' = r_method r) \/
  (* finished *)
  (r_state r' = IDLE /\ waypoints e = [] /\ r_cur r = r_total r) \/
  (* next step, accepted or rejected *)
  (r_cur r < r_total r /\
   waypoints e = (match r_method r with
                  | LINEAR => [waypoint A (r_startP r) (r_targetP r) (r_cur r + 1) (r_total r)]
                  | _ => [] end) /\
   ((r_state r' = IDLE /\ (r_method r = LINEAR ->
       impossible inv l2p limits (r_servos r) (waypoint A (r_startP r) (r_targetP r) (r_cur r + 1) (r_total r)))) \/
    (r_state r' = MOVING /\ r_cur r' = r_cur r + 1 /\ r_total r' = r_total r /\
     r_startP r' = r_startP r /\ r_targetP r' = r_targetP r /\ r_method r' = r_method r))).
Proof.
  intros S N C T H. destruct o; cbn in N; try contradiction.
  - cbn [r_step] in H. unfold r_process in H. rewrite S in H.
    destruct (all_at_target A r).
    + destruct (Z.eqb_spec (r_cur r) (r_total r)) as [Q|Q].
      * inversion H; subst. right; left. auto.
      * right; right. split; [lia|].
        pose proof (start_move_waypoints _ _ _ H) as W. cbn [r_method with_state r_startP r_targetP r_cur r_total] in W.
        pose proof (start_move_reject _ _ _ H) as J. cbn [r_method with_state r_startP r_targetP r_cur r_total r_servos] in J.
        rewrite u32_small in W, J by lia. split; [exact W|].
        apply start_move_frame in H as (M & _ & P & TT & CC & _ & _ & _ & _ & [(X & _ & Y) | (X & _)]); auto.
        right. cbn in *. rewrite u32_small in CC by lia. splits; auto.
    + inversion H; subst. left; splits; auto.
  - apply step_tick in H as [H ->]. apply tick_frame in H as [s ->]. left; cbn; splits; auto.
Qed.

Lemma poll_not_set (os : list (rop A)) : Forall is_poll os -> Forall (fun o => ~ is_set o) os.
Proof. apply Forall_impl. intros [] H; unfold is_set; cbn in *; tauto. Qed.

Fixpoint points (s t : V6 (F A)) (n k : Z) (m : nat) : list (V6 (F A)) :=
  match m with
  | O => []
  | S m' => waypoint A s t k n :: points s t n (k + 1) m'
  end.

Lemma moving_run os : forall (r r' : robot_) e,
  r_state r = MOVING -> r_method r = LINEAR -> Forall is_poll os -> 0 <= r_cur r <= r_total r ->
  r_total r < 4294967296 -> run r os = Ok (r', e) ->
  exists m : nat, waypoints e = points (r_startP r) (r_targetP r) (r_total r) (r_cur r + 1) m /\
    r_cur r + Z.of_nat m <= r_total r /\
    ((r_state r' = MOVING /\ r_cur r' = r_cur r + Z.of_nat m) \/
     (r_state r' = IDLE /\
      (r_cur r + Z.of_nat m = r_total r \/
       impossible inv l2p limits (r_servos r)
         (waypoint A (r_startP r) (r_targetP r) (r_cur r + Z.of_nat m) (r_total r))))).
Proof.
  induction os as [|o os IH]; intros r r' e S M N C T H; cbn [r_run] in H.
  - inversion H; subst. exists O. split; [reflexivity|]. split; [lia|]. left; split; auto; lia.
  - inversion N as [|? ? No Nos]; subst.
    destruct (step r o) as [[r1 e1]|] eqn:E1; [|discriminate]. cbn [bind] in H.
    destruct (run r1 os) as [[r2 e2]|] eqn:E2; [|discriminate]. cbn [bind] in H. inversion H; subst.
    rewrite waypoints_app. pose proof (step_limits _ _ _ _ E1) as L1.
    apply moving_step in E1 as [(S1 & W & C1 & T1 & P1 & P2 & M1) | [(S1 & W & C1) | (C1 & W & [[S1 J] | (S1 & C2 & T1 & P1 & P2 & M1)])]];
      auto; try lia.
    + rewrite W. cbn [app]. destruct (IH _ _ _ S1 ltac:(congruence) Nos ltac:(lia) ltac:(lia) E2) as (m & W2 & L & X).
      exists m. rewrite <- C1, <- T1, <- P1, <- P2. split; [exact W2|]. split; [exact L|].
      destruct X as [X|[X [Y|Y]]]; auto. right. split; auto. right. eapply impossible_limits; eauto.
    + apply idle_run in E2 as [-> S2]; auto using poll_not_set. rewrite W. exists O. split; [reflexivity|]. split; [lia|].
      right. split; auto. left; lia.
    + apply idle_run in E2 as [-> S2]; auto using poll_not_set. rewrite W, M. exists 1%nat. split; [reflexivity|]. split; [lia|].
      right. split; auto.
    + rewrite W, M. destruct (IH _ _ _ S1 ltac:(congruence) Nos ltac:(lia) ltac:(lia) E2) as (m & W2 & L & X).
      exists (Datatypes.S m). rewrite W2, C2, T1, P1, P2. cbn [points app]. split; [reflexivity|]. split; [lia|].
      replace (r_cur r + Z.of_nat (Datatypes.S m)) with (r_cur r1 + Z.of_nat m) by lia.
      destruct X as [X|[X [Y|Y]]]; [left; auto | right; split; auto; left; lia |].
      right; split; auto. right. rewrite T1, P1, P2 in Y. eapply impossible_limits; eauto.
Qed.

(** polls at which the servos have arrived *)
Inductive polls : robot_ -> nat -> robot_ -> Prop :=
| polls_O r : polls r O r
| polls_S r ts r1 e1 r2 e2 n r3 :
    Forall (fun o => match o with OTick _ => True | _ => False end) ts ->
    run r ts = Ok (r1, e1) -> all_at_target A r1 = true ->
    process r1 = Ok (r2, e2) -> polls r2 n r3 -> polls r (Datatypes.S n) r3.

Lemma ticks_frame ts : forall (r r' : robot_) e,
  Forall (fun o => match o with OTick _ => True | _ => False end) ts -> run r ts = Ok (r', e) ->
  exists s, r' = with_servos A r s.
Proof.
  induction ts as [|o os IH]; intros r r' e N H; cbn [r_run] in H.
  - inversion H; subst. exists (r_servos r'). now destruct r'.
  - inversion N as [|? ? No Nos]; subst.
    destruct (step r o) as [[r1 e1]|] eqn:E1; [|discriminate]. cbn [bind] in H.
    destruct (run r1 os) as [[r2 e2]|] eqn:E2; [|discriminate]. cbn [bind] in H. inversion H; subst.
    destruct o; try contradiction. apply step_tick in E1 as [E1 _]. apply tick_frame in E1 as [s1 ->].
    apply IH in E2 as [s2 ->]; auto. exists s2. reflexivity.
Qed.

Lemma polls_idle r n r' : polls r n r' -> r_state r = IDLE -> r_state r' = IDLE.
Proof.
  induction 1 as [|r ts r1 e1 r2 e2 n r3 Ht Hr Ha Hp Hq IH]; intros S; auto.
  apply IH. apply ticks_frame in Hr as [s ->]; auto.
  unfold r_process in Hp. cbn in Hp. rewrite S in Hp. inversion Hp; subst. exact S.
Qed.

Lemma start_move_linear_events (r r' : robot_) evs : start_move r = Ok (r', evs) -> r_state r' = MOVING \/ r_state r' = IDLE.
Proof. intros H. apply start_move_frame in H as (_ & _ & _ & _ & _ & _ & _ & _ & _ & [(H & _)|(H & _)]); auto. Qed.

Lemma polls_moving r n r' : polls r n r' -> r_state r = MOVING -> r_method r = LINEAR ->
  1 <= r_cur r <= r_total r -> r_total r < 4294967296 ->
  (r_total r - r_cur r + 1 <= Z.of_nat n -> r_state r' = IDLE) /\
  (Z.of_nat n <= r_total r - r_cur r ->
     r_state r' = MOVING /\ r_cur r' = r_cur r + Z.of_nat n \/
     r_state r' = IDLE /\ exists k, r_cur r < k <= r_cur r + Z.of_nat n /\
        impossible inv l2p limits (r_servos r) (waypoint A (r_startP r) (r_targetP r) k (r_total r))).
Proof.
  induction 1 as [|r ts r1 e1 r2 e2 n r3 Ht Hr Ha Hp Hq IH]; intros S ML C T.
  - split; [lia|]. intros _. left. split; auto; lia.
  - pose proof (run_limits _ _ _ _ Hr) as L1.
    apply ticks_frame in Hr as [s ->]; auto. clear Ht.
    assert (L2 : same_limits (r_servos (with_servos A r s)) (r_servos r2)).
    { eapply (step_limits _ _ OProcess). exact Hp. }
    unfold r_process in Hp. cbn [r_state with_servos] in Hp. rewrite S, Ha in Hp.
    cbn [r_cur r_total with_servos] in Hp.
    destruct (Z.eqb_spec (r_cur r) (r_total r)) as [Q|Q].
    + inversion Hp; subst. assert (r_state r3 = IDLE) by (eapply polls_idle; eauto). split; auto. lia.
    + pose proof (start_move_reject _ _ _ Hp ML) as J.
      apply start_move_frame in Hp as (MM & _ & PP & TT & CC & _ & _ & _ & _ & [(S2 & _ & QQ) | (S2 & _)]).
      * cbn in TT, CC, MM, PP, QQ. rewrite u32_small in CC by lia.
        destruct IH as [I1 I2]; auto; try lia; try congruence.
        split; [intros; apply I1; lia|]. intros L.
        destruct I2 as [[I2 I3]|(I2 & k & K & I3)]; [lia| |].
        -- left. split; auto. lia.
        -- right. split; auto. exists k. split; [lia|]. rewrite PP, QQ, TT in I3.
           eapply impossible_limits; [|exact I3]. eapply same_limits_trans; eauto.
      * assert (r_state r3 = IDLE) by (eapply polls_idle; eauto). split; auto. intros _. right. split; auto.
        exists (r_cur r + 1). split; [lia|]. specialize (J S2). cbn in J. rewrite u32_small in J by lia.
        eapply impossible_limits; eauto.
Qed.

End Generic.
