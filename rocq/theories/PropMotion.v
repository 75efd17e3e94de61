(** * Properties C57, C58: what "finished" means, and the additional axes *)
From Coq Require Import Reals Lra.
From Verif Require Import Base Arith ServoModel ServoSpec ServoProofs PropServo RobotModel RobotSpec RobotProofs RobotExact PropRobot IoModel IoSpec WaitModel RingModel EepromModel EepromSpec MrilModel MrilSpec MrilProofs McpModel McpSpec McpProofs DeviceModel DeviceSpec DeviceProofs SystemModel SystemSpec SystemProofs SystemSafe SystemQueue SystemOrigin SystemMore SystemMotion SystemAxes PropProgress.
Open Scope Z_scope.

(** ** C57 *)

(** a joint servo as the constructor leaves it: at its home position, which is inside its limits *)
Definition fresh (x : servo RA) : Prop :=
  (s_min x < s_max x)%R /\ 0 <= s_minF x <= 2147483647 /\ 0 <= s_maxF x <= 2147483647 /\
  (s_min x <= s_home x <= s_max x)%R /\ s_start x = s_home x /\ s_cur x = s_home x /\ s_target x = s_home x /\
  s_elapsed x = 0 /\ (1 / 10 <= s_maxvel x)%R /\ s_vel x = s_maxvel x.

(** Full claim: whenever the controller finds its instruction finished (and reports N1), every joint is at its
    target.  Proved for hosts that do not use E frames, for less than 49.7 days: on every schedule, the poll
    that finds the instruction finished happens with all six joints within 10^-6 rad of their targets. *)
Theorem C57_finished_means_arrived_partial : forall fwd inv l2p p2l limits pinMap print sgn servos axs junk mem l s0 stims s tr x s' e,
  axes (fun i => fresh (at6 servos i)) ->
  zlen junk = 300 -> holds sgn mem l -> Forall (fun m => zlen m <= 80) l -> sys_boot RA fwd p2l servos axs junk mem = Ok s0 ->
  host_ok (spec_boot l) (map CChar (arrivals stims)) ->
  Forall (fun p => forall r, p <> 69 :: r) (commands [] (map CChar (arrivals stims))) ->
  20 * zlen (filter (fun x => match x with STick => true | _ => false end) stims) < 4294967296 ->
  sys_run RA fwd inv l2p p2l limits pinMap print sgn s0 stims = Ok (s, tr) ->
  sys_step RA fwd inv l2p p2l limits pinMap print sgn s x = Ok (s', e) -> In (YPoll true) e ->
  axes (fun i => let j := at6 (r_servos (d_robot (y_dev s))) i in (Rabs (s_cur j - s_target j) < 1 / 1000000)%R).
Proof.
  intros fwd inv l2p p2l limits pinMap print sgn servos axs junk mem l s0 stims s tr x s' e FR J H L80 B HO NE TT R S IN.
  destruct (boot_run RA fwd p2l sgn junk mem l axs servos s0 J H L80 B) as (CI & RX & P0 & D0).
  assert (FS : forall y, fresh y -> SR y /\ SK 0 y /\ near y).
  { intros y (F1 & F2 & F3 & F4 & F5 & F6 & F7 & F8 & F9 & F10). unfold SR, sane, in_range, SK, near. rewrite F5, F6, F7, F8, F10. splits; try lra; try lia.
    - exists (s_home y). unfold MInv. rewrite F5, F6, F7, F8, F10. splits; auto. left. splits; auto; [now rewrite ideal_0|].
      replace (s_home y - s_home y)%R with 0%R by ring. rewrite Rabs_R0. lra.
    - replace (s_home y - s_home y)%R with 0%R by ring. rewrite Rabs_R0. lra. }
  assert (K : MI sgn 0 s0 (spec_boot l) (y_rx s0 ++ arrivals stims)).
  { unfold MI. rewrite RX, P0, D0. cbn [app dev_boot d_robot d_mril]. splits; auto; try (intros X; discriminate).
    unfold RK, RR, arrived, axes in *. cbn [r_servos robot_new with_targets with_method with_maxvel at6] in *.
    destruct FR as (G0 & G1 & G2 & G3 & G4 & G5). apply FS in G0, G1, G2, G3, G4, G5. split; [lia|]. tauto. }
  destruct (MI_run fwd inv l2p p2l limits pinMap print sgn stims 0 s0 _ s tr K ltac:(unfold tick_time; lia) R) as (t & _ & _ & _ & (_ & _ & _ & RK3) & _).
  enough (M : is_moving (d_robot (y_dev s)) = false).
  { apply RK3. unfold is_moving in M. destruct (r_state (d_robot (y_dev s))); discriminate. }
  destruct x as [c| |now lv]; cbn [sys_step] in S.
  - injection S as <- <-. contradiction.
  - destruct (dev_tick RA (y_dev s)); cbn [bind] in S; [|discriminate]. injection S as <- <-. contradiction.
  - assert (NQ : forall es, Forall (quiet RA) es -> ~ In (YPoll true) es) by (intros es Q I0; rewrite Forall_forall in Q; exact (Q _ I0)).
    unfold sys_main in S. destruct (y_phase s) as [| |k| |].
    + destruct (dev_robot RA fwd inv l2p p2l limits print (y_dev s)) as [[d e1]|]; cbn [bind] in S; [|discriminate]. injection S as <- <-.
      destruct IN as [IN|IN]; [discriminate|]. now destruct (NQ _ (dev_quiet RA e1)).
    + destruct (dev_robot RA fwd inv l2p p2l limits print (y_dev s)) as [[d e1]|]; cbn [bind] in S; [|discriminate]. injection S as <- <-.
      now destruct (NQ _ (dev_quiet RA e1)).
    + destruct (y_rx s) as [|c rx]; [injection S as <- <-; contradiction|]. destruct (k <? READ_BYTES); [|injection S as <- <-; contradiction].
      unfold sys_mcp in S. destruct (c_step sgn (y_mcp s) (CChar c)) as [[m acts]|]; cbn [bind] in S; [|discriminate].
      destruct (sys_acts RA fwd p2l pinMap print now (y_dev s) acts) as [[d evs]|] eqn:AR; cbn [bind] in S; [|discriminate]. injection S as <- <-.
      destruct IN as [IN|IN]; [discriminate|]. now destruct (NQ _ (acts_quiet RA fwd p2l pinMap print _ _ _ _ _ AR)).
    + destruct (dev_poll_cases RA (y_dev s) now lv) as [[FIN E]|[NAF (io & IO & E)]]; rewrite E in S; injection S as <- <-.
      * apply FIN.
      * destruct IN as [IN|IN]; [discriminate|contradiction].
    + unfold sys_mcp in S. destruct (c_step sgn (y_mcp s) (CPoll _)) as [[m acts]|]; cbn [bind] in S; [|discriminate].
      destruct (sys_acts RA fwd p2l pinMap print now (y_dev s) acts) as [[d evs]|] eqn:AR; cbn [bind] in S; [|discriminate]. injection S as <- <-.
      destruct IN as [IN|IN]; [discriminate|]. now destruct (NQ _ (acts_quiet RA fwd p2l pinMap print _ _ _ _ _ AR)).
Qed.
Print Assumptions C57_finished_means_arrived_partial.

(** False with E frames: whatever the machine is doing, an instruction that names a pose component and a joint
    makes the controller finished at its next step, the servos being left where they are, on their way. *)
Theorem C57_emergency_refuted : forall (A : arith) fwd inv l2p p2l limits pinMap print now (d : device A) a x j y,
  command_ok (SetPose a x) -> command_ok (SetJoint j y) -> 0 <= j < 6 ->
  exists d1 d2, dev_parse A fwd p2l pinMap print now d (text_of [SetPose a x; SetJoint j y]) = Ok (d1, []) /\
    dev_robot A fwd inv l2p p2l limits print d1 = Ok (d2, []) /\
    is_moving (d_robot d2) = false /\ r_servos (d_robot d2) = r_servos (d_robot d) /\
    d_axes d2 = d_axes d /\ d_io d2 = d_io d /\ d_wait d2 = d_wait d.
Proof.
  intros A fwd inv l2p p2l limits pinMap print now d a x j y CX CY J6.
  unfold dev_parse. rewrite parse_commands; [|discriminate|repeat apply Forall_cons; auto]. cbn [bind].
  unfold instruction_acts, instruction_number. cbn [last_kind fold_left kind flat_map meaning app].
  destruct (Z.ltb_spec j 6); [|lia]. cbn [exec_acts exec_act bind app].
  unfold set_angle. destruct (Z.leb_spec 0 j); [|lia]. destruct (Z.ltb_spec j 6); [|lia]. cbn [andb bind app].
  do 2 eexists. split; [reflexivity|]. cbn [d_robot d_axes with_mril with_robot].
  unfold dev_robot, r_process. cbn [d_robot with_mril with_robot r_state with_state with_trans with_flags set_pose with_targets].
  unfold r_prepare. cbn. splits; reflexivity.
Qed.
Print Assumptions C57_emergency_refuted.

(** reachable, in IEEE arithmetic: the move of PropProgress's example is under way; ":EX1R11" arrives.  The next poll
    finds the instruction finished, joint 1 being at more than 10^-6 from its target *)
Definition demo_e : list Z := [58; 69; 88; 49; 82; 49; 49; 13].
Definition demo_interrupted : list stim :=
  map SArrive demo_move ++ repeat (SRun 10 (fun _ _ => false)) 15 ++ idle_loops 5 ++ map SArrive demo_e ++
  repeat (SRun 700 (fun _ _ => false)) 20.
Example C57_emergency_reachable :
  match demo_system demo_interrupted with
  | Ok (s, tr) => acks tr = [[78; 48; 53]] /\ mdone (d_mril (y_dev s)) = true /\
                  servo_at_target IF (v1 (r_servos (d_robot (y_dev s)))) = false
  | Ub _ => False
  end.
Proof. vm_compute. splits; reflexivity. Qed.

(** ** C58: additional axes *)

(** a servo in working order *)
Definition working (x : servo RA) : Prop :=
  (s_min x < s_max x)%R /\ 0 <= s_minF x <= 2147483647 /\ 0 <= s_maxF x <= 2147483647 /\
  (s_min x <= s_start x <= s_max x)%R /\ (s_min x <= s_cur x <= s_max x)%R /\
  (s_min x <= s_target x <= s_max x)%R /\ (1 / 10 <= s_maxvel x)%R /\ (0 < s_vel x <= s_maxvel x)%R.
Lemma working_SR x : working x -> SR x.
Proof. unfold working, SR, sane, in_range. tauto. Qed.

(** Full claim: the additional axes stay inside their limits.  Proved on every schedule for hosts that command
    only targets inside the limits (the code does not check them). *)
Theorem C58_axes_stay_inside_partial : forall fwd inv l2p p2l limits pinMap print sgn servos axs junk mem s0 stims s tr,
  Forall working axs ->
  sys_boot RA fwd p2l servos axs junk mem = Ok s0 ->
  sys_run RA fwd inv l2p p2l limits pinMap print sgn s0 stims = Ok (s, tr) ->
  (forall i a o, In (YDev (DAxis i a)) tr -> nth_error axs (Z.to_nat i) = Some o -> (s_min o <= a <= s_max o)%R) ->
  Forall2 (fun (o x : servo RA) => (s_min o <= s_cur x <= s_max o)%R /\ (0 < s_vel x <= s_maxvel x)%R /\
                      exists x' p, servo_process RA x 20 = Ok (x', p) /\ Z.min (s_minF x) (s_maxF x) <= p <= Z.max (s_minF x) (s_maxF x))
          axs (d_axes (y_dev s)).
Proof.
  intros fwd inv l2p p2l limits pinMap print sgn servos axs junk mem s0 stims s tr W B R OK.
  assert (H0 : AXI axs (d_axes (y_dev s0))).
  { unfold sys_boot in B. destruct (c_boot junk mem); cbn [bind] in B; [|discriminate]. injection B as <-. cbn [y_dev dev_boot d_axes].
    clear - W. induction W as [|x l H _ IH]; constructor; auto. split; [now apply working_SR|auto]. }
  assert (OK' : Forall (axis_ok_ev axs) tr).
  { apply Forall_forall. intros e IN. destruct e; try exact I. destruct e; try exact I. intros o N. eapply OK; eauto. }
  pose proof (run_AXI fwd inv l2p p2l limits pinMap print sgn axs stims s0 s tr R H0 OK') as H.
  clear - H. induction H as [|o x axs cur (SX & E1 & E2) _ IH]; constructor; auto. clear IH.
  pose proof SX as (_ & _ & C & _ & _ & V). unfold in_range in C. rewrite E1, E2 in C. splits; auto; try tauto.
  destruct (SR_advance x 20 SX) as (SN & _ & C2 & _).
  destruct (move_in_range (servo_advance RA x 20) SN C2) as (p & EP & _ & BP).
  unfold servo_process. cbv zeta. rewrite EP. cbn [bind]. do 2 eexists. split; [reflexivity|].
  destruct (advance_config x 20) as (A1 & A2 & A3 & A4 & A5). rewrite ?A1, ?A2, ?A3, ?A4, ?A5 in BP. exact BP.
Qed.
Print Assumptions C58_axes_stay_inside_partial.

(** The code passes the target on unchecked: in every arithmetic and state, "R6<n>" and "R7<n>" set the target of the
    axis to n/180*pi, whatever its limits. *)
Theorem C58_target_unchecked_refuted : forall (A : arith) fwd p2l pinMap print now (d : device A) j n x,
  command_ok (SetJoint j n) -> 6 <= j < 8 -> zlen (d_axes d) = 2 -> nth_error (d_axes d) (Z.to_nat (j - 6)) = Some x ->
  let t := arg_float A (Over180Pi (num_val n)) in
  exists d1, dev_parse A fwd p2l pinMap print now d (text_of [SetJoint j n]) = Ok (d1, [DAxis (j - 6) t]) /\
    d_axes d1 = upd (d_axes d) (Z.to_nat (j - 6)) (servo_set_target A x t) /\
    r_servos (d_robot d1) = r_servos (d_robot d) /\ d_io d1 = d_io d /\ d_wait d1 = d_wait d.
Proof.
  intros A fwd p2l pinMap print now d j n x C J W N t.
  unfold dev_parse. rewrite parse_commands; [|discriminate|repeat apply Forall_cons; auto]. cbn [bind].
  unfold instruction_acts, instruction_number. cbn [last_kind fold_left kind flat_map meaning app].
  destruct (Z.ltb_spec j 6); [lia|]. cbn [exec_acts exec_act bind app d_axes with_robot].
  unfold zget, zset. rewrite W. destruct (Z.leb_spec 0 (j - 6)); [|lia]. destruct (Z.ltb_spec (j - 6) 2); [|lia]. cbn [andb]. rewrite N. cbn [bind app].
  eexists. split; [reflexivity|]. cbn. splits; reflexivity.
Qed.
Print Assumptions C58_target_unchecked_refuted.

(** Then the servo is driven out of its calibration interval: every servo, every target beyond the maximum by the
    angle of one microsecond of pulse width or more, once it has got there. *)
Theorem C58_driven_out_refuted (x s1 : servo RA) (t : R) (dts : list Z) (p : Z) :
  (s_min x < s_max x)%R -> 0 <= s_minF x < s_maxF x -> s_maxF x <= 2147483647 ->
  (0 < s_vel x)%R -> Forall (fun d => 0 <= d) dts -> total dts < 4294967296 ->
  (s_max x + (s_max x - s_min x) / IZR (s_maxF x - s_minF x) <= t)%R ->
  (Rabs (t - s_cur x) <= s_vel x * IZR (total dts) / 1000)%R ->
  sop_run RA x (STarget RA t ++ ticks RA dts) = Ok s1 -> servo_move RA s1 = Ok p -> s_maxF x < p.
Proof.
  intros H1 H2 H3 V P T FAR TIME R M.
  destruct (C28_monotone_to_target x s1 s1 t dts [] V) as (_ & _ & _ & C); try rewrite app_nil_r; auto.
  destruct (C TIME) as [EQ _]. clear C.
  assert (CFG : s_min s1 = s_min x /\ s_max s1 = s_max x /\ s_minF s1 = s_minF x /\ s_maxF s1 = s_maxF x).
  { clear - R. rewrite sop_run_app, sop_run_target in R. cbn [bind] in R.
    assert (K : forall l y z, sop_run RA y (ticks RA l) = Ok z -> s_min z = s_min y /\ s_max z = s_max y /\ s_minF z = s_minF y /\ s_maxF z = s_maxF y).
    { induction l as [|d l IH]; intros y z E; cbn in E; [injection E as <-; auto|].
      unfold servo_process in E. cbv zeta in E. destruct (servo_move RA (servo_advance RA y d)); cbn [bind] in E; [|discriminate].
      apply IH in E as (E1 & E2 & E3 & E4). destruct (advance_config y d) as (A1 & A2 & A3 & A4 & A5). rewrite E1, E2, E3, E4. splits; congruence. }
    apply K in R. exact R. }
  destruct CFG as (C1 & C2 & C3 & C4). unfold servo_move, to_int in M. cbn [ftoz RA] in M.
  unfold map_float in M. cbn [fadd fdiv fmul fsub fofz RA] in M. rewrite C1, C2, C3, C4, EQ in M.
  set (v := ((t - s_min x) * (IZR (s_maxF x) - IZR (s_minF x)) / (s_max x - s_min x) + IZR (s_minF x))%R) in M.
  assert (D : (0 < IZR (s_maxF x) - IZR (s_minF x))%R) by (rewrite <- minus_IZR; apply IZR_lt; lia).
  assert (VB : (IZR (s_maxF x) + 1 <= v)%R).
  { rewrite minus_IZR in FAR. set (w := (IZR (s_maxF x) - IZR (s_minF x))%R) in *. set (g := (s_max x - s_min x)%R) in *.
    assert (G : (0 < g)%R) by (unfold g; lra).
    assert (Q : (g + g / w <= t - s_min x)%R) by (unfold g in *; lra).
    apply Rmult_le_compat_r with (r := (w / g)%R) in Q; [|apply Rlt_le, Rdiv_lt_0_compat; lra].
    replace ((g + g / w) * (w / g))%R with (w + 1)%R in Q by (field; lra).
    replace ((t - s_min x) * (w / g))%R with ((t - s_min x) * w / g)%R in Q by (field; lra).
    unfold v. unfold w in *. lra. }
  assert (PZ : (0 <= v)%R) by (assert (0 <= IZR (s_maxF x))%R by (apply IZR_le; lia); lra).
  destruct (rtrunc_pos v PZ) as [[_ U] NN]. assert (L : (IZR (s_maxF x) < IZR (rtrunc v))%R) by lra. apply lt_IZR in L.
  destruct ((-2147483648 <=? rtrunc v) && (rtrunc v <=? 2147483647)) eqn:B; cbn [bind] in M; [|discriminate]. injection M as <-.
  apply andb_true_iff in B as [_ B]. apply Z.leb_le in B. unfold u32. rewrite Z.mod_small by lia. exact L.
Qed.
Print Assumptions C58_driven_out_refuted.

(** The instruction is reported finished before the axis moves: whenever the machine is otherwise at rest, the first
    poll after "N<n>R6<v>" sends N1<n>, the axis being where it was. *)
Theorem C58_not_awaited_refuted : forall (A : arith) fwd inv l2p p2l limits pinMap print now (d : device A) s ds j n x lv now2,
  command_ok (Number s ds) -> command_ok (SetJoint j n) -> 0 < int_val s ds -> 6 <= j < 8 -> zlen (d_axes d) = 2 ->
  nth_error (d_axes d) (Z.to_nat (j - 6)) = Some x -> all_finished d now2 lv ->
  exists d1 e1 d2 e2, dev_parse A fwd p2l pinMap print now d (text_of [Number s ds; SetJoint j n]) = Ok (d1, e1) /\
    between_step A fwd inv l2p p2l limits print d1 (BPoll now2 lv) = Ok (d2, e2) /\ sent e2 = [finished_msg (int_val s ds)] /\
    exists y, nth_error (d_axes d2) (Z.to_nat (j - 6)) = Some y /\ s_cur y = s_cur x /\ s_target y = arg_float A (Over180Pi (num_val n)).
Proof.
  intros A fwd inv l2p p2l limits pinMap print now d s ds j n x lv now2 CN CJ P J W N AF.
  assert (OK : Forall command_ok [Number s ds; SetJoint j n]) by (repeat apply Forall_cons; auto).
  assert (E : exists d1 e1, dev_parse A fwd p2l pinMap print now d (text_of [Number s ds; SetJoint j n]) = Ok (d1, e1) /\
    d_io d1 = d_io d /\ d_wait d1 = d_wait d /\ is_moving (d_robot d1) = is_moving (d_robot d) /\
    d_axes d1 = upd (d_axes d) (Z.to_nat (j - 6)) (servo_set_target A x (arg_float A (Over180Pi (num_val n))))).
  { unfold dev_parse. rewrite parse_commands by (auto; discriminate). cbn [bind].
    unfold instruction_acts, instruction_number. cbn [last_kind fold_left kind flat_map meaning app].
    destruct (Z.ltb_spec j 6); [lia|]. cbn [exec_acts exec_act bind app d_axes with_robot].
    unfold zget, zset. rewrite W. destruct (Z.leb_spec 0 (j - 6)); [|lia]. destruct (Z.ltb_spec (j - 6) 2); [|lia]. cbn [andb]. rewrite N. cbn [bind app].
    do 2 eexists. split; [reflexivity|]. cbn. splits; reflexivity. }
  destruct E as (d1 & e1 & E & IO & WT & MV & AX).
  destruct (write_parse A fwd p2l pinMap print now d [Number s ds; SetJoint j n] d1 e1 ltac:(discriminate) OK eq_refl E) as [_ M].
  assert (AF1 : all_finished d1 now2 lv) by (unfold all_finished in *; rewrite IO, WT, MV; exact AF).
  destruct (dev_poll_cases A d1 now2 lv) as [[_ EP]|[NAF _]]; [|contradiction].
  exists d1, e1. cbn [between_step]. rewrite EP, M. cbn [pending number_of fold_left].
  destruct (Z.ltb_spec 0 (int_val s ds)); [|lia]. do 2 eexists. split; [exact E|]. split; [reflexivity|]. split; [reflexivity|].
  cbn [d_axes with_mril with_io]. rewrite AX.
  exists (servo_set_target A x (arg_float A (Over180Pi (num_val n)))). split; [|split; reflexivity].
  clear - N. revert N. generalize (Z.to_nat (j - 6)). induction (d_axes d) as [|z l IH]; intros [|k] N; cbn in *; try discriminate; auto.
Qed.
Print Assumptions C58_not_awaited_refuted.

(** a servo of 0..180 degrees (here radians 0..3) with pulses 600..2400, sent to 4 at 5 rad/s: after 1 s at 3000 *)
Example C58_reachable :
  let x : servo RA := mkServo RA 3 false 0%R 600 2400 0 0%R 0%R 0%R 0%R 3%R 5%R 5%R in
  working x /\ (s_max x + (s_max x - s_min x) / IZR (s_maxF x - s_minF x) <= 4)%R /\
  exists s1, sop_run RA x (STarget RA 4%R ++ ticks RA [1000]) = Ok s1 /\ servo_move RA s1 = Ok 3000.
Proof.
  assert (AT : forall y : servo RA, s_cur y = 4%R -> s_min y = 0%R -> s_max y = 3%R -> s_minF y = 600 -> s_maxF y = 2400 -> servo_move RA y = Ok 3000).
  { intros y E1 E2 E3 E4 E5. unfold servo_move, to_int, map_float. cbn [ftoz fadd fdiv fmul fsub fofz RA]. rewrite E1, E2, E3, E4, E5.
    replace ((4 - 0) * (2400 - 600) / (3 - 0) + 600)%R with (IZR 3000) by (cbn; lra). rewrite rtrunc_IZR. reflexivity. }
  cbv zeta. splits; [unfold working; cbn; splits; try lia; lra|cbn; lra|].
  rewrite sop_run_app, sop_run_target. cbn [bind ticks map sop_run sop_step]. unfold servo_process.
  set (y := servo_advance RA _ 1000). cbv zeta.
  assert (EY : s_cur y = 4%R /\ s_min y = 0%R /\ s_max y = 3%R /\ s_minF y = 600 /\ s_maxF y = 2400).
  { unfold y. rewrite advance_eq. cbn. mcases; cbn; splits; auto; rabs; lra. }
  destruct EY as (E1 & E2 & E3 & E4 & E5). pose proof (AT y E1 E2 E3 E4 E5) as M. rewrite M. cbn [bind]. exists y. split; [reflexivity|exact M].
Qed.
(** "N5R645" on an idle machine *)
Example C58_not_awaited_reachable : forall (A : arith) fwd inv l2p p2l limits pinMap print servos a7 (a6 : servo A),
  let d := dev_boot A fwd p2l servos [a6; a7] in
  exists d1 e1 d2 e2, dev_parse A fwd p2l pinMap print 0 d [78; 53; 82; 54; 52; 53] = Ok (d1, e1) /\
    between_step A fwd inv l2p p2l limits print d1 (BPoll 1 (fun _ _ => false)) = Ok (d2, e2) /\ sent e2 = [[78; 49; 53]].
Proof.
  intros A fwd inv l2p p2l limits pinMap print servos a7 a6 d. vm_compute. do 4 eexists. splits; reflexivity.
Qed.

(** ** C59: no undefined behaviour at all, in exact arithmetic *)

(** the number written in a command *)
Definition value_of (n : numeral) : R := num_double RA (num_val n).
(** coordinates of at most 100 km, targets of the additional axes inside their limits, a positive speed.  (The last is
    not used by the proof: exact arithmetic gives x/0 a value.  With floats "V0" is undefined behaviour, C61.) *)
Definition moderate (axs : list (servo RA)) (c : command) : Prop :=
  match c with
  | SetPose a n => match a with AxX | AxY | AxZ => (Rabs (value_of n) <= 100000000)%R | _ => True end
  | SetJoint j n => forall o, 6 <= j -> nth_error axs (Z.to_nat (j - 6)) = Some o -> (s_min o <= value_of n / 180 * PI <= s_max o)%R
  | SetVelocity n => (0 < value_of n)%R
  | _ => True
  end.
(** an instruction of moderate commands of the language *)
Definition moderate_text (axs : list (servo RA)) (text : list Z) : Prop :=
  exists cs, text = text_of cs /\ Forall command_ok cs /\ Forall (moderate axs) cs.

Lemma moderate_good axs text : moderate_text axs text -> good_text axs text.
Proof.
  intros (cs & -> & OK & MO) acts num E. destruct cs as [|c cs]; [cbn in E; injection E as <- _; constructor|].
  rewrite parse_commands in E by (auto; discriminate). injection E as <- _. unfold instruction_acts.
  apply Forall_cons; [exact I|]. apply Forall_app. split.
  - clear OK. induction MO as [|c0 l H _ IH]; [constructor|]. cbn [flat_map]. apply Forall_app. split; [|exact IH].
    destruct c0; cbn [meaning]; try (repeat (apply Forall_cons; [exact I|]); apply Forall_nil).
    + destruct (int_val neg ds =? 0); [|destruct (int_val neg ds =? 1)]; repeat (apply Forall_cons; [exact I|]); apply Forall_nil.
    + apply Forall_cons; [|apply Forall_nil]. intros R3. destruct a; cbn [moderate axis_index is_angle] in *; try exact H; lia.
    + apply Forall_cons; [|apply Forall_nil]. destruct (Z.ltb_spec j 6); [exact I|]. intros o N. specialize (H o ltac:(lia) N).
      cbn [arg_float d2f dmul ddiv f2d ddec dpi RA]. unfold value_of in H.
      replace (rdec false 180 0) with 180%R by (unfold rdec, powerRZ; lra). exact H.
  - apply Forall_cons; [exact I|]. destruct (last_kind (c :: cs)); repeat (apply Forall_cons; [exact I|]); apply Forall_nil.
Qed.

(** Every conforming host whose instructions are moderate, every schedule: with working servos and a forward
    kinematic of bounded reach the system runs without any fault. *)
Theorem C59_no_fault : forall (fwd : V6 R -> V6 R) inv l2p p2l limits pinMap print sgn (servos : V6 (servo RA)) axs junk mem l stims,
  (forall a, Rabs (v0 (fwd a)) <= 100000000 /\ Rabs (v1 (fwd a)) <= 100000000 /\ Rabs (v2 (fwd a)) <= 100000000)%R ->
  zlen pinMap = 10 -> zlen axs = 2 -> axes (fun i => working (at6 servos i)) -> Forall working axs ->
  zlen junk = 300 -> holds sgn mem l -> Forall (fun m => zlen m <= 80) l -> Forall (safe_text 10) l -> conforming l (arrivals stims) ->
  Forall (moderate_text axs) l ->
  Forall (fun p => Forall (moderate_text axs) (frame_text p)) (commands [] (map CChar (arrivals stims))) ->
  exists s0 s tr, sys_boot RA fwd p2l servos axs junk mem = Ok s0 /\
    sys_run RA fwd inv l2p p2l limits pinMap print sgn s0 stims = Ok (s, tr).
Proof.
  intros fwd inv l2p p2l limits pinMap print sgn servos axs junk mem l stims FB PM W2 WS WA J H L80 SL [HO SF] ML MF.
  destruct (c_boot_inv sgn junk mem l J H L80) as (m & E & I0). unfold sys_boot. rewrite E. cbn [bind].
  set (s0 := mkSys (dev_boot RA fwd p2l servos axs) m [] PRobot1).
  assert (K : SInv RA sgn s0 (spec_boot l) (arrivals stims)).
  { unfold SInv, s0. cbn [y_mcp y_dev y_phase app]. splits; auto.
    - split; [constructor|exact SL].
    - unfold DI, nc. cbn. splits; auto; [unfold zlen; cbn; lia|discriminate]. }
  assert (B : BD axs s0).
  { unfold BD, s0. cbn [y_dev dev_boot d_robot d_axes]. split.
    - unfold BR. splits; [|apply FB|discriminate]. unfold RR, axes in *. cbn [r_servos with_maxvel with_method robot_new with_targets].
      destruct WS as (G0 & G1 & G2 & G3 & G4 & G5). splits; apply working_SR; assumption.
    - clear - WA. induction WA; constructor; auto. split; [now apply working_SR|auto]. }
  assert (GP : PT (good_text axs) (spec_boot l)).
  { split; [constructor|]. eapply Forall_impl; [|exact ML]. intros t. apply moderate_good. }
  destruct (prefix_defined fwd inv l2p p2l limits pinMap print sgn axs FB PM s0 (spec_boot l) stims I0 eq_refl eq_refl GP B K) with (pre := stims) (post := @nil stim) as [[s tr] R].
  - eapply Forall_impl; [|exact MF]. intros p G. eapply Forall_impl; [|exact G]. intros t. apply moderate_good.
  - now rewrite app_nil_r.
  - exists s0, s, tr. split; [reflexivity|exact R].
Qed.
Print Assumptions C59_no_fault.

(** ":X100R645": the host of the hypotheses, with two axes of -3..3 radians *)
Definition demo_axis : servo RA := mkServo RA 3 false 0%R 600 2400 0 0%R 0%R 0%R (-3)%R 3%R 5%R 5%R.
Definition demo_pose : list Z := [58; 88; 49; 48; 48; 82; 54; 52; 53; 13].
Example C59_reachable : working demo_axis /\ conforming [] demo_pose /\
  Forall (fun p => Forall (moderate_text [demo_axis; demo_axis]) (frame_text p)) (commands [] (map CChar demo_pose)).
Proof.
  assert (C : commands [] (map CChar demo_pose) = [[88; 49; 48; 48; 82; 54; 52; 53]]) by reflexivity.
  splits; [unfold working; cbn; splits; try lia; lra| |].
  - split; [vm_compute; splits; auto; discriminate|]. rewrite C. apply Forall_cons; [|apply Forall_nil].
    assert (K : forall c, safe_command c -> forall l, Forall safe_command l -> Forall safe_command (c :: l)) by (intros; now constructor).
    split; [|split; [vm_compute; discriminate|vm_compute; discriminate]].
    repeat (apply K; [split; [vm_compute; discriminate|];
        split; [intros E; first [discriminate E|do 2 eexists; split; [reflexivity|lia]]|];
        split; [intros [E|E]; first [discriminate E|do 2 eexists; split; [reflexivity|lia]]|];
        intros [E|[E|E]]; first [discriminate E|eexists; reflexivity]|]). constructor.
  - rewrite C. apply Forall_cons; [|apply Forall_nil]. apply Forall_cons; [|apply Forall_nil].
    assert (DG : forall d l, digit_ok d -> Forall digit_ok l -> Forall digit_ok (d :: l)) by (intros; now constructor).
    exists [SetPose AxX (mkNum false [1; 0; 0] None); SetJoint 6 (mkNum false [4; 5] None)]. split; [reflexivity|]. split.
    + apply Forall_cons; [|apply Forall_cons; [|apply Forall_nil]]; (split; [vm_compute; discriminate|]).
      * split; [cbn; repeat (apply DG; [unfold digit_ok; lia|]); constructor|discriminate].
      * split; [unfold digit_ok; lia|]. split; [cbn; repeat (apply DG; [unfold digit_ok; lia|]); constructor|discriminate].
    + assert (VX : value_of (mkNum false [1; 0; 0] None) = 100%R) by (unfold value_of, num_val, num_double; cbn [nfrac nneg nint ddec RA]; change (val10 [1; 0; 0]) with 100; unfold rdec, powerRZ; lra).
      assert (VR : value_of (mkNum false [4; 5] None) = 45%R) by (unfold value_of, num_val, num_double; cbn [nfrac nneg nint ddec RA]; change (val10 [4; 5]) with 45; unfold rdec, powerRZ; lra).
      apply Forall_cons; [cbn [moderate]; rewrite VX, Rabs_pos_eq; lra|]. apply Forall_cons; [|apply Forall_nil].
      cbn [moderate]. intros o _ N. cbn in N. injection N as <-. rewrite VR. cbn. pose proof PI_4. pose proof PI_RGT_0. lra.
Qed.
