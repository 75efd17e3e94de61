(** * C36 in IEEE arithmetic: straight lines. *)
From Coq Require Import Reals Lra Floats.SpecFloat.
From Verif Require Import Base Arith ServoModel ServoSpec RobotModel RobotSpec RobotProofs FloatBridge ServoFloat LinearFloat PropRobot.
Open Scope Z_scope.
Set Default Goal Selector "!".

(** ** in any arithmetic: the way points of a move are those of [waypoint], in order *)
Section Any.
Context (A : arith) (fwd : V6 (F A) -> V6 (F A)) (inv : V6 (F A) -> option (V6 (F A))).
Context (l2p p2l : V6 (F A) -> V6 (F A)) (limits : V6 (F A * F A)).
Lemma points_list (s t : V6 (F A)) n m : forall k,
  points A s t n k m = map (fun j => waypoint A s t j n) (map (fun j => Z.of_nat j + (k - 1)) (seq 1 m)).
Proof.
  induction m as [|m IH]; intros k; [reflexivity|].
  cbn [points seq map]. f_equal.
  { replace (Z.of_nat 1 + (k - 1)) with k by lia. reflexivity. }
  rewrite IH. f_equal.
  rewrite <- (seq_shift m 1), !map_map. apply map_ext. intros; lia.
Qed.

Lemma linear_any (r r' : robot A) (t : V6 (F A)) os e :
  r_trans r = false -> r_achg r = false -> r_method r = LINEAR -> Forall is_poll os ->
  r_run A fwd inv l2p p2l limits r (OSetPose6 (A:=A) t :: OProcess :: os) = Ok (r', e) ->
  let s := current_pose A fwd p2l r in
  waypoints e = [] \/
  exists N, linear_steps A s t = Ok N /\
    (1 <= N < 4294967296 -> exists m : nat, 1 <= Z.of_nat m <= N /\ waypoints e = map (fun k => waypoint A s t k N) (upto m) /\
      (is_moving r' = false -> Z.of_nat m = N \/ impossible inv l2p limits (r_servos r) (waypoint A s t (Z.of_nat m) N))).
Proof.
  intros TR AC M Po H s. cbn [r_run r_step bind] in H.
  destruct (r_process A fwd inv l2p p2l limits (set_pose6 A r t)) as [[r1 e1]|] eqn:Ep; [|discriminate]. cbn [bind] in H.
  destruct (r_run A fwd inv l2p p2l limits r1 os) as [[r2 e2]|] eqn:Er; [|discriminate]. cbn [bind] in H. cbn [app] in H. inversion H; subst r2 e; clear H.
  unfold r_process, set_pose6 in Ep. cbn [r_state with_state] in Ep.
  set (rp := with_state A (with_flags A (with_targets A r (r_targetA r) t) (r_achg r) true) PREPARE_MOVE) in *.
  apply prepare_cases in Ep as [(X & _) | [(_ & X & _) | (_ & _ & [(AE & -> & ->) | (_ & n & Hn & K)])]];
    [cbn in X; congruence | cbn in X; congruence | |].
  - apply idle_run in Er as [-> S]; auto using poll_not_set.
  - assert (PT : r_targetP (prepared A fwd inv p2l rp) = t) by (unfold prepared; cbn; rewrite AC; reflexivity).
    assert (PS : r_startP (prepared A fwd inv p2l rp) = s) by (rewrite (proj2 (prepared_start A fwd inv p2l rp)); reflexivity).
    assert (PM : r_method (prepared A fwd inv p2l rp) = LINEAR) by (rewrite prepared_method; exact M).
    assert (PV : r_servos (prepared A fwd inv p2l rp) = r_servos r) by (rewrite prepared_servos; reflexivity).
    assert (MR : r_method rp = LINEAR) by exact M.
    rewrite MR, PS, PT in Hn. right. exists n. split; [exact Hn|]. intros NB.
    pose proof (start_move_waypoints _ _ _ _ _ _ _ _ _ K) as W.
    pose proof (start_move_reject _ _ _ _ _ _ _ _ _ K) as J.
    pose proof (start_move_limits _ _ _ _ _ _ _ _ _ K) as LL.
    cbn [r_method r_startP r_targetP r_cur r_total r_servos with_steps with_state] in W, J, LL.
    rewrite PM, PS, PT in W. rewrite PM, PS, PT, PV in J. rewrite PV in LL. change (u32 (0 + 1)) with 1 in W, J.
    apply start_move_frame in K as (M1 & _ & P1 & T1 & C1 & _ & _ & _ & _ & [(S1 & _ & Q1) | (S1 & _)]).
    + cbn [r_method r_startP r_targetP r_cur r_total with_steps with_state] in *.
      change (u32 (0 + 1)) with 1 in C1.
      apply moving_run in Er as (m & W2 & Lm & Fin); try congruence; try lia; auto.
      rewrite P1, Q1, PS, PT, T1, C1 in *.
      exists (Datatypes.S m). rewrite waypoints_app, W, W2. split; [lia|]. split.
      * rewrite points_list. unfold upto. cbn [seq map app].
        f_equal. rewrite <- (seq_shift m 1), !map_map. apply map_ext. intros x. f_equal. lia.
      * intros MV. destruct Fin as [[Z _]|(_ & [Z|Z])].
        -- unfold is_moving in MV. rewrite Z in MV. discriminate.
        -- left. lia.
        -- right. replace (1 + Z.of_nat m) with (Z.of_nat (Datatypes.S m)) in Z by lia.
           eapply impossible_limits; [exact LL|exact Z].
    + apply idle_run in Er as [-> S]; auto using poll_not_set. rewrite app_nil_r.
      exists 1%nat. rewrite W. split; [lia|]. split; [reflexivity|].
      intros _. right. apply (J eq_refl S1).
Qed.
End Any.

(** In IEEE arithmetic, for every library whose acosf gives a number between 0 and 4 or no number, every robot, every start and target with coordinates up to 10^6:
    the k-th of the way points asked of the inverse kinematics is the point at the fraction k/N of the straight line, up to a millionth of the coordinates,
    with the orientation of the target; N is such that the steps are at most 0.5 + 10^-6 units long, and no larger than this needs; a move that ends has
    asked for all N way points or met an impossible one. *)
Theorem C36_straight_line_ieee (L : libm) fwd inv l2p p2l limits (r r' : robot (IEEE L)) (t : V6 spec_float) os e (S T : V6 R) :
  plain_acos L -> r_trans r = false -> r_achg r = false -> r_method r = LINEAR -> Forall is_poll os ->
  pose_at (current_pose (IEEE L) fwd p2l r) S -> pose_at t T ->
  r_run (IEEE L) fwd inv l2p p2l limits r (OSetPose6 (A:=IEEE L) t :: OProcess :: os) = Ok (r', e) ->
  waypoints e <> [] ->
  exists (N : Z) (m : nat), 1 <= Z.of_nat m <= N /\
    Forall2 (fun k w => near_point w S T (IZR k / IZR N) /\ v3 w = v3 t /\ v4 w = v4 t /\ v5 w = v5 t) (upto m) (waypoints e) /\
    (distance S T <= IZR N * (1 / 2 + 1 / 1000000))%R /\ (IZR N <= 2 * distance S T * (1 + 1 / 500000) + 1 + 1 / 1000000)%R /\
    (is_moving r' = false -> Z.of_nat m = N \/ exists before w, waypoints e = before ++ [w] /\ impossible (A:=IEEE L) inv l2p limits (r_servos r) w).
Proof.
  intros PA TR AC M Po HS HT H NE. pose proof (linear_any (IEEE L) fwd inv l2p p2l limits r r' t os e TR AC M Po H) as X. cbv zeta in X.
  destruct X as [X|(N & LS & X)]; [contradiction|]. destruct (linear_steps_v L _ _ _ _ _ PA HS HT LS) as (NB & D1 & D2).
  destruct (X ltac:(lia)) as (m & Hm & W & Fin). clear X. exists N, m. split; [exact Hm|]. split; [|split; [exact D1|split; [exact D2|]]].
  - rewrite W. assert (B : Forall (fun k => 0 <= k <= N) (upto m)).
    { apply Forall_forall. intros k Hk. unfold upto in Hk. apply in_map_iff in Hk as (j & <- & Hj). apply in_seq in Hj. lia. }
    clear W Fin. induction B as [|k l Hk B IH]; cbn [map]; [apply Forall2_nil|]. apply Forall2_cons; [|exact IH]. now apply waypoint_v.
  - intros MV. destruct (Fin MV) as [F|F]; [left; exact F|right]. exists (map (fun k => waypoint (IEEE L) (current_pose (IEEE L) fwd p2l r) t k N) (upto (pred m))), (waypoint (IEEE L) (current_pose (IEEE L) fwd p2l r) t (Z.of_nat m) N).
    split; [|exact F]. rewrite W. destruct m as [|m]; [lia|]. unfold upto. cbn [pred]. rewrite seq_S, !map_app. reflexivity.
Qed.

(** a case: the small robot of PropRobot, from 0 to (1,0,0): three way points, at the floats nearest to 1/3, 2/3 and 1 *)
Definition line_robot : robot IF := with_method IF (robot_new IF (fun a => a) (fun a => a) demo_servos) LINEAR.
Definition line_polls : list (RobotModel.rop IF) := concat (repeat [OTick 2000; OProcess] 4).
Definition line_run := r_run IF (fun a => a) demo_inv (fun a => a) (fun a => a) demo_limits line_robot
  (OSetPose6 (A:=IF) (i6 1 0 0 0 0 0) :: OProcess :: line_polls).
Example C36_ieee_reachable :
  plain_acos flat_libm /\ r_trans line_robot = false /\ r_achg line_robot = false /\ r_method line_robot = LINEAR /\ Forall is_poll line_polls /\
  pose_at (current_pose IF (fun a => a) (fun a => a) line_robot) (mk6 0 0 0 0 0 0)%R /\ pose_at (i6 1 0 0 0 0 0) (mk6 1 0 0 0 0 0)%R /\
  match line_run with
  | Ok (r', e) => map v0 (waypoints e) = [fdiv IF (fi 1) (fi 3); fdiv IF (fi 2) (fi 3); fi 1] /\ is_moving r' = false
  | Ub _ => False
  end.
Proof.
  assert (Z0 : forall n, Z.abs n <= 1000000 -> v32 (fi n) (IZR n)) by (intros n Hn; apply v_int; lia).
  split. { intros x. right. exists 0%R. split; [apply fv_zero|lra]. }
  split; [reflexivity|]. split; [reflexivity|]. split; [reflexivity|]. split. { repeat constructor. }
  assert (A0 : (Rabs 0 <= 1000000)%R) by (rewrite Rabs_R0; lra). assert (A1 : (Rabs 1 <= 1000000)%R) by (rewrite Rabs_pos_eq; lra).
  pose proof (Z0 0 ltac:(lia)) as V0. pose proof (Z0 1 ltac:(lia)) as V1.
  split; [unfold pose_at; splits; first [exact V0|exact A0]|]. split; [unfold pose_at; splits; first [exact V0|exact V1|exact A0|exact A1]|].
  vm_compute. split; reflexivity.
Qed.

Print Assumptions C36_straight_line_ieee.
