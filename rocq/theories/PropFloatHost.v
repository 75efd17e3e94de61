(** * A host that moves point to point, in the arithmetic of the device: no undefined behaviour at all *)
From Coq Require Import Reals Lra ZArith Lia Floats.SpecFloat.
From Flocq Require Import Core BinarySingleNaN.
From Verif Require Import Base Arith FloatBridge ServoModel ServoSpec ServoProofs ServoFloat DecFloat.
From Verif Require Import RobotModel RobotSpec RobotProofs ConfigModel PropRobot PropFloat PropFloatMoves.
From Verif Require Import IoModel IoSpec WaitModel RingModel EepromModel EepromSpec MrilModel MrilSpec MrilProofs McpModel McpSpec McpProofs.
From Verif Require Import DeviceModel DeviceSpec DeviceProofs SystemModel SystemSpec SystemProofs SystemSafe SystemQueue SystemOrigin SystemMore SystemDefined.
From Verif Require Import PropProgress PropSettings PropFloatText KinModel KinBounded.
Open Scope Z_scope.

Section Host.
Context (L : libm).
Notation A := (IEEE L).
Context (fwd : V6 (F A) -> V6 (F A)) (inv : V6 (F A) -> option (V6 (F A))) (l2p p2l : V6 (F A) -> V6 (F A)) (limits : V6 (F A * F A)).
Context (mn mx M : Z -> R).
(** the joint coupling gives finite numbers for finite numbers, the inverse kinematic finite angles or none *)
Context (L2P : forall a, six (fin 1000000) a -> six (fin 10000000) (l2p a)).
Context (P2L : forall a, six (fin 1100) a -> six (fin 1000000) (p2l a)).
Context (INV : forall p a, inv p = Some a -> six (fin 1000000) a).

(** the state of the motion controller between calls, whatever the targets, whatever the method *)
Definition steady (r : robot A) : Prop :=
  arm_inside L mn mx M r /\ axes (fun i => exists w, v32 (s_maxvel (at6 (r_servos r) i)) w /\ (1 / 1000 <= w)%R) /\
  six (fin 1000000) (r_targetA r) /\ six (fin 1000000) (r_startA r) /\ (exists v, v32 (r_maxvel r) v /\ (1 / 1000 <= v <= 100000)%R).
Lemma steady_servos (r r' : robot A) : steady r -> arm_inside L mn mx M r' -> axes (fun i => s_maxvel (at6 (r_servos r') i) = s_maxvel (at6 (r_servos r) i)) ->
  six (fin 1000000) (r_targetA r') -> six (fin 1000000) (r_startA r') -> (exists v, v32 (r_maxvel r') v /\ (1 / 1000 <= v <= 100000)%R) -> steady r'.
Proof.
  intros (_ & W & _) H E T S V. unfold steady. split; [exact H|]. split; [|auto].
  unfold axes in *. destruct E as (E0 & E1 & E2 & E3 & E4 & E5). rewrite E0, E1, E2, E3, E4, E5. exact W.
Qed.
Ltac keep R := apply (steady_servos _ _ R); [exact (proj1 R)|unfold axes; auto 10| | |]; destruct R as (_ & _ & ? & ? & ?); cbn; auto.
Notation logical_fin := (logical_fin L p2l mn mx M P2L).

Lemma start_steady (r : robot A) : steady r -> r_method r = P2P -> exists r' e, r_start_move A fwd inv l2p p2l limits r = Ok (r', e) /\ steady r' /\ r_method r' = P2P /\ PropFloat.numbers (servo_cmds e).
Proof.
  intros RD MP. pose proof RD as (H & W & T & S & (v & Vv & Bv)).
  pose proof (max_change_pos L _ _ S T) as CH. pose proof (p2p_time_pos L _ _ _ CH Vv Bv) as TP.
  set (time := d2f A (dmul A (f2d A (fdiv A (max_change A (r_startA r) (r_targetA r)) (r_maxvel r))) (RAD_TO_DEG A))) in *.
  set (r1 := with_steps A r (u32 (r_cur r + 1)) (r_total r)).
  assert (P : r_plan A inv r1 = Ok (PMove (r_targetA r) time, [EvPrint time])) by (unfold r_plan, r1; cbn [r_method with_steps]; rewrite MP; reflexivity).
  assert (RJ : steady (r_reject A fwd p2l r1)).
  { apply (steady_servos r); cbn; auto; [unfold axes; auto 10|apply (logical_fin r1); exact H|eauto]. }
  assert (NEW : forall r' e, r_start_move A fwd inv l2p p2l limits r = Ok (r', e) -> PropFloat.numbers (servo_cmds e) -> arm_inside L mn mx M r') by (intros r' e; apply (arm_start L fwd inv l2p p2l limits mn mx M); exact H).
  revert NEW. unfold r_start_move. cbv zeta. fold r1. rewrite P. cbn [bind]. intros NEW.
  destruct (outside A (r_targetA r) (map6 fst limits) (map6 snd limits)); [do 2 eexists; split; [reflexivity|]; split; [exact RJ|]; split; [exact MP|apply Forall_nil]|].
  destruct (outside A (l2p (r_targetA r)) (map6 s_min (r_servos r1)) (map6 s_max (r_servos r1))) eqn:O; [do 2 eexists; split; [reflexivity|]; split; [exact RJ|]; split; [exact MP|apply Forall_nil]|].
  pose proof (L2P _ T) as T2. pose proof (min_time_pos L mn mx M r1 _ _ H W T2 TP) as MT.
  destruct (feq A (min_time A r1 (l2p (r_targetA r)) time) (fofz A 0)) eqn:Q; cbn [negb] in *.
  - do 2 eexists. split; [reflexivity|]. split; [|split; [exact MP|apply Forall_nil]].
    apply (steady_servos r); cbn; auto; [unfold axes; auto 10|eauto].
  - pose proof (command_numbers L mn mx M r1 _ _ H T2 MT Q) as NN.
    destruct (command_servos A r1 (l2p (r_targetA r)) (min_time A r1 (l2p (r_targetA r)) time)) as [r2 cmds] eqn:C. cbn [snd] in NN.
    specialize (NEW _ _ eq_refl NN). do 2 eexists. split; [reflexivity|]. unfold command_servos in C. injection C as <- <-. split; [|split; [exact MP|exact NN]].
    apply (steady_servos r); [exact RD|exact NEW| |exact T|exact S|exists v; split; [exact Vv|exact Bv]].
    assert (K : forall (s : servo A) x y, s_maxvel (servo_set_target A (servo_set_vel A s x) y) = s_maxvel s).
    { intros s x y. unfold servo_set_target, set_target_1, set_target_2, set_target_3, servo_set_vel. destruct (flt A _ _); [|destruct (fle A _ _)]; reflexivity. }
    unfold axes. cbn [at6 zip6 map6 v0 v1 v2 v3 v4 v5 fst snd r_servos with_state with_servos].
    split; [apply K|]. split; [apply K|]. split; [apply K|]. split; [apply K|]. split; [apply K|apply K].
Qed.


Lemma prepare_steady (r : robot A) : steady r -> r_method r = P2P ->
  exists r' e, r_prepare A fwd inv l2p p2l limits r = Ok (r', e) /\ steady r' /\ r_method r' = P2P /\ PropFloat.numbers (servo_cmds e).
Proof.
  intros RD MP.
  unfold r_prepare. destruct (r_trans r); [do 2 eexists; split; [reflexivity|]; split; [exact RD|]; split; [exact MP|apply Forall_nil]|]. cbv zeta.
  match goal with |- context [with_flags A ?r0 false false] => set (q := r0) end.
  assert (RQ : steady q /\ r_method q = P2P).
  { unfold q. destruct (r_achg r); [split; [keep RD|exact MP]|]. destruct (r_pchg r); [|split; [keep RD|exact MP]].
    destruct (inv (r_targetP r)) as [a|] eqn:I; (split; [|exact MP]); [|keep RD]. pose proof (INV _ _ I) as FA. keep RD. }
  clearbody q. destruct RQ as [RQ MQ].
  destruct (r_pchg r && r_achg r); [do 2 eexists; split; [reflexivity|]; split; [keep RQ|]; split; [exact MQ|apply Forall_nil]|].
  assert (R2 : steady (with_flags A q false false)) by keep RQ. assert (M2 : r_method (with_flags A q false false) = P2P) by exact MQ.
  set (q2 := with_flags A q false false) in *. clearbody q2. clear q RQ MQ.
  assert (R3 : steady (with_starts A q2 (current_logical A p2l q2) (current_pose A fwd p2l q2))).
  { pose proof (logical_fin q2 (proj1 R2)) as LF. keep R2. }
  destruct (angles_equal A _ _); [do 2 eexists; split; [reflexivity|]; split; [keep R3|]; split; [exact M2|apply Forall_nil]|].
  replace (r_method (with_starts A q2 (current_logical A p2l q2) (current_pose A fwd p2l q2))) with P2P by (symmetry; exact M2).
  cbn [bind]. apply start_steady; [keep R3|exact M2].
Qed.
Lemma tick_steady (r : robot A) dt : steady r -> exists r', r_tick A r dt = Ok r' /\ steady r' /\ r_method r' = r_method r /\ r_state r' = r_state r.
Proof.
  intros RD. pose proof RD as ((H0 & H1 & H2 & H3 & H4 & H5) & _). cbn [at6] in *.
  destruct (tick_inside L _ _ _ _ dt H0) as (s0 & p0 & E0 & K0 & _). destruct (tick_inside L _ _ _ _ dt H1) as (s1 & p1 & E1 & K1 & _).
  destruct (tick_inside L _ _ _ _ dt H2) as (s2 & p2 & E2 & K2 & _). destruct (tick_inside L _ _ _ _ dt H3) as (s3 & p3 & E3 & K3 & _).
  destruct (tick_inside L _ _ _ _ dt H4) as (s4 & p4 & E4 & K4 & _). destruct (tick_inside L _ _ _ _ dt H5) as (s5 & p5 & E5 & K5 & _).
  exists (with_servos A r (mk6 s0 s1 s2 s3 s4 s5)). split; [unfold r_tick; rewrite E0, E1, E2, E3, E4, E5; reflexivity|]. split; [|split; reflexivity].
  apply tick_maxvel in E0, E1, E2, E3, E4, E5.
  apply (steady_servos r); [exact RD| | | | |]; [|unfold axes; cbn [at6 r_servos with_servos v0 v1 v2 v3 v4 v5]; repeat (split; [assumption|]); assumption|apply RD..].
  unfold arm_inside, axes. cbn [r_servos with_servos at6 v0 v1 v2 v3 v4 v5]. repeat (split; [assumption|]). assumption.
Qed.

(** between the calls of the main loop: point to point, or not yet used *)
Definition calm (r : robot A) : Prop := steady r /\ (r_method r = P2P \/ r_state r = IDLE).
Lemma calm_process (r : robot A) : calm r -> exists r' e, r_process A fwd inv l2p p2l limits r = Ok (r', e) /\ calm r'.
Proof.
  intros [RD [MP|ID]].
  - unfold r_process. destruct (r_state r).
    + do 2 eexists. split; [reflexivity|]. split; [exact RD|auto].
    + destruct (all_at_target A r); [|do 2 eexists; split; [reflexivity|]; split; [exact RD|auto]].
      destruct (r_cur r =? r_total r); [do 2 eexists; split; [reflexivity|]; split; [keep RD|right; reflexivity]|].
      destruct (start_steady (with_state A r START_MOVE)) as (r' & e & E & K1 & K2 & _); [keep RD|exact MP|]. exists r', e. split; [exact E|]. split; auto.
    + destruct (start_steady r RD MP) as (r' & e & E & K1 & K2 & _). exists r', e. split; [exact E|]. split; auto.
    + destruct (prepare_steady r RD MP) as (r' & e & E & K1 & K2 & _). exists r', e. split; [exact E|]. split; auto.
  - unfold r_process. rewrite ID. do 2 eexists. split; [reflexivity|]. split; auto.
Qed.

(** ** the additional axes: lower and upper limit, and a bound of both *)
Context (lims : list (R * R * R)).
Definition axs_inside (l : list (servo A)) : Prop := Forall2 (fun '(a, b, m) x => inside32 L x a b m) lims l.
Lemma axs_tick l : axs_inside l -> exists l', tick_axes A l 20 = Ok l' /\ axs_inside l'.
Proof.
  unfold axs_inside. induction 1 as [|[[a b] m] x lm l H _ (l' & E & IH)]; cbn [tick_axes]; [exists []; split; [reflexivity|constructor]|].
  destruct (tick_inside L _ _ _ _ 20 H) as (x' & p & E1 & K & _). rewrite E1. cbn [bind]. rewrite E. cbn [bind]. eexists. split; [reflexivity|]. constructor; auto.
Qed.
Lemma axs_vel l v : number32 v -> axs_inside l -> axs_inside (map (fun s => servo_set_vel A s v) l).
Proof.
  intros N. unfold axs_inside. induction 1 as [|[[a b] m] x lm l H _ IH]; cbn [map]; constructor; auto.
  destruct (op_inside L x a b m (@SVel A v) H N) as (x' & E & K & _). cbn [sop_step] in E. injection E as <-. exact K.
Qed.
Lemma axs_target l i x t : axs_inside l -> nth_error l i = Some x ->
  (forall a b m, nth_error lims i = Some (a, b, m) -> exists r, v32 t r /\ (a <= r <= b)%R) -> axs_inside (upd l i (servo_set_target A x t)).
Proof.
  intros H. unfold axs_inside in *. revert i. induction H as [|[[a b] m] y lm l H HR IH]; intros [|i] N T; cbn [upd nth_error] in *; try discriminate.
  - injection N as ->. constructor; [|exact HR]. destruct (T _ _ _ eq_refl) as (r & V & B).
    destruct H as (C & V1 & W & I1 & I2 & _). split; [exact C|]. split; [exact V1|]. split; [exact W|]. split; [exact I2|]. split; [exact I2|]. exists r. auto.
  - constructor; [exact H|]. apply IH; auto.
Qed.

(** ** what an instruction of such a host may say *)
(** a joint angle of at most 10^7 degrees; a target of an additional axis inside the limits of the axis (as stored);
    a speed from 0.002 to 50000; no linear moves.  Coordinates and orientations are free. *)
Definition calm_command (c : command) : Prop :=
  match c with
  | SetJoint j n => if j <? 6 then (Rabs (decimal n) <= 10000000)%R
                    else forall a b m, nth_error lims (Z.to_nat (j - 6)) = Some (a, b, m) ->
                         exists r, v32 (axis_radians A (written A n)) r /\ (a <= r <= b)%R
  | SetVelocity n => (1 / 500 <= decimal n <= 50000)%R
  | SetMethod neg ds => int_val neg ds <> 1
  | _ => True
  end.
Definition moves (c : command) : bool := match c with SetPose _ _ => true | SetJoint j _ => j <? 6 | _ => false end.
Definition point_to_point (c : command) : Prop := match c with SetMethod neg ds => int_val neg ds = 0 | _ => False end.
(** an instruction that moves the arm says M0 *)
Definition calm_text (t : list Z) : Prop :=
  exists cs, t = text_of cs /\ Forall command_ok cs /\ Forall calm_command cs /\ (existsb moves cs = true -> Exists point_to_point cs).

(** ** executing it *)
Definition calm_act (a : act) : Prop :=
  match a with
  | AAngle _ x => fin 1000000 (arg_float A x)
  | AAxis i x => forall a b m, nth_error lims (Z.to_nat i) = Some (a, b, m) -> exists r, v32 (arg_float A x) r /\ (a <= r <= b)%R
  | AVelocity v => exists r, v32 (d2f A (num_double A v)) r /\ (1 / 1000 <= r <= 100000)%R
  | AAxisVelocity v => number32 (d2f A (num_double A v))
  | AMethod m => m = 0
  | _ => True
  end.
Definition moving_act (a : act) : bool := match a with APose _ _ | AAngle _ _ => true | _ => false end.
Context (pinMap : list Z) (print : D A -> list Z).

Lemma exec_calm now l : forall d buf d' buf' e, exec_acts A fwd p2l pinMap print now d buf l = Ok (d', buf', e) ->
  Forall calm_act l -> steady (d_robot d) -> axs_inside (d_axes d) ->
  steady (d_robot d') /\ axs_inside (d_axes d') /\
  (r_method (d_robot d) = P2P \/ In (AMethod 0) l -> r_method (d_robot d') = P2P) /\
  (existsb moving_act l = false -> r_state (d_robot d') = r_state (d_robot d)).
Proof.
  induction l as [|a l IH]; intros d buf d' buf' e E G H HA; cbn [exec_acts] in E.
  { injection E as <- _ _. splits; auto. intros [X|[]]. exact X. }
  destruct (exec_act A fwd p2l pinMap print now d buf a) as [[[d1 b1] e1]|] eqn:EA; cbn [bind] in E; [|discriminate].
  destruct (exec_acts A fwd p2l pinMap print now d1 b1 l) as [[[d2 b2] e2]|] eqn:ER; cbn [bind] in E; [|discriminate].
  injection E as <- _ _. apply Forall_cons_iff in G as [G1 G2].
  enough (K : steady (d_robot d1) /\ axs_inside (d_axes d1) /\ (r_method (d_robot d) = P2P \/ a = AMethod 0 -> r_method (d_robot d1) = P2P) /\
              (moving_act a = false -> r_state (d_robot d1) = r_state (d_robot d))).
  { destruct K as (K1 & K2 & K3 & K4). destruct (IH _ _ _ _ _ ER G2 K1 K2) as (L1 & L2 & L3 & L4). split; [exact L1|]. split; [exact L2|]. split.
    - intros [X|[X|X]]; apply L3; auto.
    - cbn [existsb]. intros X. apply orb_false_iff in X as [X Y]. rewrite (L4 Y). auto. }
  clear IH ER e2 d2 b2.
  destruct a as [| |m|v|v|i x|i x|i x|pin st|pin st|ms|n|r|[n|]|]; cbn [exec_act] in EA; cbn [calm_act] in G1.
  - injection EA as <- _ _. split; [keep H|]. split; [exact HA|]. split; [intros [X|X]; [exact X|discriminate]|reflexivity].
  - injection EA as <- _ _. split; [keep H|]. split; [exact HA|]. split; [intros [X|X]; [exact X|discriminate]|reflexivity].
  - injection EA as <- _ _. subst m. split; [keep H|]. split; [exact HA|]. split; [intros _; reflexivity|reflexivity].
  - injection EA as <- _ _. split; [keep H|]. split; [exact HA|]. split; [intros [X|X]; [exact X|discriminate]|reflexivity].
  - injection EA as <- _ _. split; [exact H|]. split; [cbn [d_axes with_axes]; now apply axs_vel|]. split; [intros [X|X]; [exact X|discriminate]|reflexivity].
  - injection EA as <- _ _. split; [keep H|]. split; [exact HA|]. split; [intros [X|X]; [exact X|discriminate]|intros X; discriminate].
  - unfold set_angle in EA. destruct ((0 <=? i) && (i <? 6)); cbn [bind] in EA; [|discriminate]. injection EA as <- _ _.
    split; [keep H; now apply six_set|]. split; [exact HA|]. split; [intros [X|X]; [exact X|discriminate]|intros X; discriminate].
  - unfold zget, zset in EA. destruct ((0 <=? i) && (i <? zlen (d_axes d))); cbn [bind] in EA; [|discriminate].
    destruct (nth_error (d_axes d) (Z.to_nat i)) as [y|] eqn:N; cbn [bind] in EA; [|discriminate]. injection EA as <- _ _.
    split; [exact H|]. split; [cbn [d_axes with_axes]; now apply axs_target|]. split; [intros [X|X]; [exact X|discriminate]|reflexivity].
  - destruct (io_addCondition pinMap (d_io d) pin st) as [[ps io]|]; cbn [bind] in EA; [|discriminate]. injection EA as <- _ _.
    split; [exact H|]. split; [exact HA|]. split; [intros [X|X]; [exact X|discriminate]|reflexivity].
  - destruct (io_setOutput pinMap pin st) as [ps|]; cbn [bind] in EA; [|discriminate]. injection EA as <- _ _.
    split; [exact H|]. split; [exact HA|]. split; [intros [X|X]; [exact X|discriminate]|reflexivity].
  - injection EA as <- _ _. split; [exact H|]. split; [exact HA|]. split; [intros [X|X]; [exact X|discriminate]|reflexivity].
  - injection EA as <- _ _. split; [exact H|]. split; [exact HA|]. split; [intros [X|X]; [exact X|discriminate]|reflexivity].
  - destruct (read_item A fwd p2l print d r); cbn [bind] in EA; [|discriminate]. injection EA as <- _ _.
    split; [exact H|]. split; [exact HA|]. split; [intros [X|X]; [exact X|discriminate]|reflexivity].
  - injection EA as <- _ _. split; [exact H|]. split; [exact HA|]. split; [intros [X|X]; [exact X|discriminate]|reflexivity].
  - injection EA as <- _ _. split; [exact H|]. split; [exact HA|]. split; [intros [X|X]; [exact X|discriminate]|reflexivity].
  - injection EA as <- _ _. split; [exact H|]. split; [exact HA|]. split; [intros [X|X]; [exact X|discriminate]|reflexivity].
Qed.

(** the calls an admissible instruction makes *)
Lemma meaning_calm c : command_ok c -> calm_command c -> Forall calm_act (meaning c).
Proof.
  intros OK CC. destruct c; cbn [meaning calm_command command_ok] in *; try (repeat (apply Forall_cons; [exact I|]); apply Forall_nil).
  - destruct (int_val neg ds =? 0); [apply Forall_cons; [reflexivity|apply Forall_nil]|].
    destruct (Z.eqb_spec (int_val neg ds) 1); [contradiction|apply Forall_nil].
  - destruct OK as [_ OK]. assert (B : (Rabs (decimal n) <= 1000000000000)%R) by (apply Rabs_le; lra). destruct (num_v L n OK B) as [_ V].
    pose proof (two_rounds (decimal n)) as E. pose proof tiny_small. rewrite (Rabs_pos_eq (decimal n)) in E by lra. apply Rabs_bounds in E.
    apply Forall_cons; [|apply Forall_cons; [|apply Forall_nil]].
    + cbn [calm_act]. eexists. split; [exact V|]. lra.
    + right. eauto.
  - destruct OK as (_ & OJ & OK). apply Forall_cons; [|apply Forall_nil]. destruct (j <? 6); cbn [calm_act].
    + assert (B : (Rabs (decimal n) <= 1000000000000)%R) by lra. destruct (C63_radians_ieee L n OK B) as (w & V & E).
      exists w. rewrite written_eq in V. split; [exact V|].
      pose proof PI_digits. pose proof tiny_30. pose proof (abs_of _ _ _ E) as Q.
      assert (K : (Rabs (decimal n * PI / 180) <= 200000)%R).
      { unfold Rdiv. rewrite !Rabs_mult, (Rabs_pos_eq PI), (Rabs_pos_eq (/ 180)) by lra. pose proof (Rabs_pos (decimal n)). nra. }
      assert (1 / 10 ^ 30 <= 1)%R by (apply Rle_trans with (1 / 1)%R; [|lra]; apply Rmult_le_compat_l; [lra|]; apply Rinv_le_contravar; [lra|apply pow_R1_Rle; lra]).
      lra.
    + intros a b m N. destruct (CC a b m N) as (r & V & B). exists r. split; [|exact B]. rewrite written_eq in V. exact V.
Qed.
Lemma instruction_calm cs : Forall command_ok cs -> Forall calm_command cs -> Forall calm_act (instruction_acts cs).
Proof.
  intros OK CC. unfold instruction_acts. apply Forall_cons; [exact I|]. apply Forall_app. split.
  - revert OK. induction CC as [|c l H _ IH]; intros OK; [constructor|]. apply Forall_cons_iff in OK as [O1 O2]. cbn [flat_map]. apply Forall_app. split; [|auto].
    now apply meaning_calm.
  - apply Forall_cons; [exact I|]. destruct (last_kind cs); repeat (apply Forall_cons; [exact I|]); apply Forall_nil.
Qed.
Lemma meaning_moves c : existsb moving_act (meaning c) = moves c.
Proof.
  destruct c; cbn [meaning moves]; try reflexivity.
  - destruct (int_val neg ds =? 0); [reflexivity|]. destruct (int_val neg ds =? 1); reflexivity.
  - destruct (j <? 6); reflexivity.
Qed.
Lemma instruction_moves cs : existsb moving_act (instruction_acts cs) = existsb moves cs.
Proof.
  unfold instruction_acts. cbn [existsb moving_act orb]. rewrite existsb_app.
  assert (E : existsb moving_act (flat_map meaning cs) = existsb moves cs).
  { induction cs as [|c cs IH]; [reflexivity|]. cbn [flat_map existsb]. rewrite existsb_app, meaning_moves, IH. reflexivity. }
  rewrite E. cbn [existsb moving_act]. destruct (last_kind cs); cbn [existsb moving_act orb]; apply orb_false_r.
Qed.
Lemma instruction_method cs : Exists point_to_point cs -> In (AMethod 0) (instruction_acts cs).
Proof.
  intros X. unfold instruction_acts. right. apply in_or_app. left. apply in_flat_map. apply Exists_exists in X as (c & IN & P).
  exists c. split; [exact IN|]. destruct c; cbn [point_to_point] in P; try contradiction. cbn [meaning]. rewrite P. left. reflexivity.
Qed.

(** the invariant of the device *)
Definition calm_device (d : device A) : Prop := calm (d_robot d) /\ axs_inside (d_axes d).
Lemma parse_calm now d t d' e : calm_text t -> dev_parse A fwd p2l pinMap print now d t = Ok (d', e) -> calm_device d -> calm_device d'.
Proof.
  intros (cs & -> & OK & CC & MV) E [[H HM] HA]. unfold dev_parse in E.
  destruct cs as [|c cs].
  { cbn in E. injection E as <- <-. split; [split; [keep H|exact HM]|exact HA]. }
  rewrite parse_commands in E by (auto; discriminate). cbn [bind] in E.
  destruct (exec_acts A fwd p2l pinMap print now d [] (instruction_acts (c :: cs))) as [[[d1 b1] e1]|] eqn:X; cbn [bind] in E; [|discriminate].
  injection E as <- <-. cbn [d_robot d_axes with_mril].
  destruct (exec_calm _ _ _ _ _ _ _ X (instruction_calm _ OK CC) H HA) as (K1 & K2 & K3 & K4).
  split; [|exact K2]. split; [exact K1|]. cbn [d_robot with_mril]. rewrite instruction_moves in K4.
  destruct (existsb moves (c :: cs)) eqn:MO.
  - left. apply K3. right. apply instruction_method, MV. reflexivity.
  - rewrite (K4 eq_refl). destruct HM as [HM|HM]; [left|right; exact HM]. apply K3. left. exact HM.
Qed.
Lemma tick_calm d : calm_device d -> exists d', dev_tick A d = Ok d' /\ calm_device d'.
Proof.
  intros [[H HM] HA]. unfold dev_tick. destruct (tick_steady _ 20 H) as (r' & E & K1 & K2 & K3). rewrite E. cbn [bind].
  destruct (axs_tick _ HA) as (l' & T & K4). rewrite T. cbn [bind]. eexists. split; [reflexivity|]. split; [|exact K4].
  split; [exact K1|]. cbn [d_robot with_axes with_robot]. rewrite K2, K3. exact HM.
Qed.
Lemma robot_calm d : calm_device d -> exists d' e, dev_robot A fwd inv l2p p2l limits print d = Ok (d', e) /\ calm_device d'.
Proof.
  intros [H HA]. unfold dev_robot. destruct (calm_process _ H) as (r' & e & E & K). rewrite E. cbn [bind]. do 2 eexists. split; [reflexivity|]. split; [exact K|exact HA].
Qed.

(** Every conforming host whose instructions are of this kind, every schedule, with the floats and doubles of the device:
    the system runs without any fault. *)
Theorem C59_point_to_point_ieee sgn (servos : V6 (servo A)) (axs : list (servo A)) junk mem l stims :
  zlen pinMap = 10 -> zlen axs = 2 ->
  axes (fun i => inside32 L (at6 servos i) (mn i) (mx i) (M i) /\ exists w, v32 (s_maxvel (at6 servos i)) w /\ (1 / 1000 <= w)%R) ->
  Forall2 (fun '(a, b, m) x => inside32 L x a b m) lims axs ->
  zlen junk = 300 -> holds sgn mem l -> Forall (fun m => zlen m <= 80) l -> Forall (safe_text 10) l -> conforming l (arrivals stims) ->
  Forall calm_text l ->
  Forall (fun p => Forall calm_text (frame_text p)) (commands [] (map CChar (arrivals stims))) ->
  exists s0 s tr, sys_boot A fwd p2l servos axs junk mem = Ok s0 /\
    sys_run A fwd inv l2p p2l limits pinMap print sgn s0 stims = Ok (s, tr).
Proof.
  intros PM W2 WS WA J H L80 SL [HO SF] ML MF.
  destruct (c_boot_inv sgn junk mem l J H L80) as (m & E & I0). unfold sys_boot. rewrite E. cbn [bind].
  set (s0 := mkSys (dev_boot A fwd p2l servos axs) m [] PRobot1).
  assert (K : SInv A sgn s0 (spec_boot l) (arrivals stims)).
  { unfold SInv, s0. cbn [y_mcp y_dev y_phase app]. splits; auto.
    - split; [constructor|exact SL].
    - unfold DI, nc. cbn. splits; auto; [unfold zlen; cbn; lia|discriminate]. }
  assert (B : calm_device (y_dev s0)).
  { unfold s0. cbn [y_dev dev_boot]. split; [|exact WA]. split; [|right; reflexivity]. cbn [d_robot].
    pose proof (new_ready L fwd p2l mn mx M P2L servos WS) as (R1 & R2 & R3 & R4 & _). unfold steady. split; [exact R1|]. split; [exact R2|]. split; [exact R3|]. split; [exact R4|].
    exists 10%R. split; [apply (v_int 10); lia|lra]. }
  assert (GP : PT calm_text (spec_boot l)) by (split; [constructor|exact ML]).
  destruct (prefix_defined A fwd inv l2p p2l limits pinMap print sgn PM calm_text calm_device tick_calm robot_calm parse_calm) with (s0 := s0) (t0 := spec_boot l) (stims := stims) (pre := stims) (post := @nil stim) as [[s tr] R]; auto.
  - intros d d' E1 E2 [X Y]. unfold calm_device. rewrite E1, E2. split; assumption.
  - now rewrite app_nil_r.
  - exists s0, s, tr. split; [reflexivity|exact R].
Qed.

End Host.

(** ** the kit *)
(** the limits of the gripper axis and of the second additional axis, as stored *)
Definition kit_axis_limits (L : libm) : list (R * R * R) := map (fun s : servo (IEEE L) => (SF2R radix2 (s_min s), SF2R radix2 (s_max s), 3%R)) (kit_axis_servos (IEEE L)).
(** With the kit's geometry, tables and joint coupling, and any C library whose acos, atan2 and fmod stay in their ranges *)
Theorem C59_kit_ieee (L : libm) (pinMap : list Z) (print : spec_float -> list Z) sgn junk mem l stims :
  tame_libm L -> zlen pinMap = 10 -> zlen junk = 300 -> holds sgn mem l -> Forall (fun m => zlen m <= 80) l -> Forall (safe_text 10) l -> conforming l (arrivals stims) ->
  Forall (calm_text L (kit_axis_limits L)) l ->
  Forall (fun p => Forall (calm_text L (kit_axis_limits L)) (frame_text p)) (commands [] (map CChar (arrivals stims))) ->
  let A := IEEE L in let K := kin_new A (kit_geom A) in
  exists s0 s tr, sys_boot A (kin_forward A K) (kit_p2l A) (kit_servos A) (kit_axis_servos A) junk mem = Ok s0 /\
    sys_run A (kin_forward A K) (kin_inv A K) (kit_l2p A) (kit_p2l A) (kit_limits A) pinMap print sgn s0 stims = Ok (s, tr).
Proof.
  intros TL PM J H L80 SL CF ML MF A K.
  apply (C59_point_to_point_ieee L (kin_forward A K) (kin_inv A K) (kit_l2p A) (kit_p2l A) (kit_limits A) (kit_mn L) (kit_mx L) (fun _ => 3%R)
    (kit_l2p_fin L) (kit_p2l_fin L) (kin_inv_fin L TL (kit_geom A)) (kit_axis_limits L) pinMap print) with (l := l); auto.
  - exact (kit_servos_ready L).
  - destruct (C30_kit_calibrated_ieee L) as [_ F]. unfold kit_axis_limits.
    assert (Q : forall xs : list (servo (IEEE L)), Forall (fun s => inside32 L s (SF2R radix2 (s_min s)) (SF2R radix2 (s_max s)) 3) xs ->
      Forall2 (fun '(a, b, m) x => inside32 L x a b m) (map (fun s : servo (IEEE L) => (SF2R radix2 (s_min s), SF2R radix2 (s_max s), 3%R)) xs) xs)
      by (induction 1; cbn [map]; constructor; auto).
    exact (Q _ F).
Qed.
Print Assumptions C59_kit_ieee.

(** ":M0V20R130", ":M0X10.5", ":R60": joint 1 to 30 degrees at speed 20, then the tool to x = 10.5, the gripper axis to 0 degrees *)
Definition demo_host : list Z := [58; 77; 48; 86; 50; 48; 82; 49; 51; 48; 13; 58; 77; 48; 88; 49; 48; 46; 53; 13; 58; 82; 54; 48; 13].
Example C59_ieee_reachable :
  tame_libm flat_libm /\ conforming [] demo_host /\
  Forall (fun p => Forall (calm_text flat_libm (kit_axis_limits flat_libm)) (frame_text p)) (commands [] (map CChar demo_host)).
Proof.
  assert (C : commands [] (map CChar demo_host) = [[77; 48; 86; 50; 48; 82; 49; 51; 48]; [77; 48; 88; 49; 48; 46; 53]; [82; 54; 48]]) by reflexivity.
  split; [exact flat_tame|].
  split.
  - split; [vm_compute; splits; auto; discriminate|]. rewrite C.
    assert (K : forall c, safe_command c -> forall l, Forall safe_command l -> Forall safe_command (c :: l)) by (intros; now constructor).
    repeat (apply Forall_cons; [|]); [| | |apply Forall_nil];
      (split; [|split; [vm_compute; discriminate|vm_compute; discriminate]];
       repeat (apply K; [split; [vm_compute; discriminate|];
        split; [intros E; first [discriminate E|do 2 eexists; split; [reflexivity|lia]]|];
        split; [intros [E|E]; first [discriminate E|do 2 eexists; split; [reflexivity|lia]]|];
        intros [E|[E|E]]; first [discriminate E|eexists; reflexivity]|]); constructor).
  - rewrite C.
    assert (DG : forall d l, digit_ok d -> Forall digit_ok l -> Forall digit_ok (d :: l)) by (intros; now constructor).
    assert (OK : forall c l, command_ok c -> Forall command_ok l -> Forall command_ok (c :: l)) by (intros; now constructor).
    assert (V : forall n z, nfrac n = None -> nneg n = false -> val10 (nint n) = z -> decimal n = IZR z).
    { intros n z E1 E2 E3. unfold decimal. rewrite E1, E2, app_nil_r, E3. cbn [length pow]. field. }
    repeat (apply Forall_cons; [apply Forall_cons; [|apply Forall_nil]|]); [| | |apply Forall_nil].
    + exists [SetMethod false [0]; SetVelocity (mkNum false [2; 0] None); SetJoint 1 (mkNum false [3; 0] None)]. split; [reflexivity|]. split; [|split].
      * apply OK; [|apply OK; [|apply OK; [|apply Forall_nil]]]; cbn [command_ok]; (split; [vm_compute; discriminate|]); unfold int_ok, numeral_ok; cbn;
          splits; try (repeat (apply DG; [unfold digit_ok; lia|]); apply Forall_nil); try discriminate; try (left; discriminate); unfold digit_ok; lia.
      * apply Forall_cons; [vm_compute; discriminate|]. apply Forall_cons; [|apply Forall_cons; [|apply Forall_nil]]; cbn [calm_command].
        -- rewrite (V _ 20) by reflexivity. lra.
        -- change (1 <? 6) with true. cbv iota. rewrite (V _ 30) by reflexivity. apply Rabs_le. lra.
      * intros _. apply Exists_cons_hd. reflexivity.
    + exists [SetMethod false [0]; SetPose AxX (mkNum false [1; 0] (Some [5]))]. split; [reflexivity|]. split; [|split].
      * apply OK; [|apply OK; [|apply Forall_nil]]; cbn [command_ok]; (split; [vm_compute; discriminate|]); unfold int_ok, numeral_ok; cbn;
          splits; try (repeat (apply DG; [unfold digit_ok; lia|]); apply Forall_nil); try discriminate; try (left; discriminate); unfold digit_ok; lia.
      * apply Forall_cons; [vm_compute; discriminate|]. apply Forall_cons; [exact I|apply Forall_nil].
      * intros _. apply Exists_cons_hd. reflexivity.
    + exists [SetJoint 6 (mkNum false [0] None)]. split; [reflexivity|]. split; [|split].
      * apply OK; [|apply Forall_nil]; cbn [command_ok]; (split; [vm_compute; discriminate|]); unfold int_ok, numeral_ok; cbn;
          splits; try (repeat (apply DG; [unfold digit_ok; lia|]); apply Forall_nil); try discriminate; try (left; discriminate); unfold digit_ok; lia.
      * apply Forall_cons; [|apply Forall_nil]. cbn [calm_command]. replace (6 <? 6) with false by reflexivity. intros a b m N.
        assert (Q : forall p q t : R, Some (p, q, t) = Some (a, b, m) -> (p <= 0 <= q)%R -> (a <= 0 <= b)%R) by (intros p q t X Y; injection X as <- <- <-; exact Y).
        exists 0%R. split; [vm_compute; apply (fv_zero 24 128 false)|]. apply (Q _ _ _ N). cbv beta. lits. lra.
      * discriminate.
Qed.
