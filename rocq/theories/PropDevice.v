(** * Properties C22, C24, C25: instructions executed by the whole machine *)
From Verif Require Import Base Arith ServoModel RobotModel IoModel IoSpec WaitModel MrilModel MrilSpec RobotProofs MrilProofs DeviceModel DeviceSpec DeviceProofs.
Open Scope Z_scope.

(** ** C22 *)

(** Full claim: for every text, parse ends without fault.  It is false; this is exactly when it
    holds, for every text and every machine state with ten pins, two additional axes and at most
    ten pending conditions: the pieces the text is cut into are safe commands, what is left over
    fits the buffer, and the conditions fit their table. *)
Theorem C22_safe_iff_partial : forall (A : arith) fwd p2l pinMap print now (d : device A) text,
  zlen pinMap = 10 -> zlen (d_axes d) = 2 -> zlen (d_io d) <= 10 ->
  (exists d' e, dev_parse A fwd p2l pinMap print now d text = Ok (d', e)) <->
  (let (pieces, left) := cut [] text in
   Forall safe_command pieces /\ zlen left <= 20 /\ zlen (d_io d) + inputs pieces <= 10).
Proof.
  intros A fwd p2l pinMap print now d text PM W IO. rewrite (parse_outcome A fwd p2l pinMap print PM now d text W IO).
  unfold text_ok. destruct (cut [] text) as [ps l]. reflexivity.
Qed.
Print Assumptions C22_safe_iff_partial.

(** the same for a sequence of commands: a capital letter followed by digits, points, minus signs *)
Theorem C22_commands_safe_iff_partial : forall (A : arith) fwd p2l pinMap print now (d : device A) cs,
  zlen pinMap = 10 -> zlen (d_axes d) = 2 -> zlen (d_io d) <= 10 -> Forall command_text cs ->
  (exists d' e, dev_parse A fwd p2l pinMap print now d (concat cs) = Ok (d', e)) <->
  Forall safe_command cs /\ zlen (d_io d) + inputs cs <= 10.
Proof.
  intros A fwd p2l pinMap print now d cs PM W IO CT. rewrite C22_safe_iff_partial by auto. rewrite cut_commands by auto.
  change (zlen (@nil Z)) with 0. intuition lia.
Qed.
Print Assumptions C22_commands_safe_iff_partial.

(** the violations, in every state: commands of 20 and more characters; axis numbers 8 and 9;
    R, I and O without a number; an eleventh condition; each wherever it stands in the instruction *)
Theorem C22_memory_unsafe_refuted : forall (A : arith) fwd p2l pinMap print now (d : device A) before c after,
  zlen pinMap = 10 -> zlen (d_axes d) = 2 -> zlen (d_io d) <= 10 ->
  Forall command_text before -> command_text c -> Forall command_text after ->
  20 <= zlen c \/ (exists r, c = 82 :: 56 :: r) \/ (exists r, c = 82 :: 57 :: r) \/ c = [82] \/ c = [73] \/ c = [79] \/
  (10 <= zlen (d_io d) + inputs before /\ is_input c = 1) ->
  exists f, dev_parse A fwd p2l pinMap print now d (concat before ++ c ++ concat after) = Ub f.
Proof.
  intros A fwd p2l pinMap print now d before c after PM W IO B C AF H.
  destruct (dev_parse A fwd p2l pinMap print now d (concat before ++ c ++ concat after)) as [[d' e]|f] eqn:E; [exfalso|eauto].
  assert (T : concat before ++ c ++ concat after = concat (before ++ c :: after)) by now rewrite concat_app.
  rewrite T in E.
  assert (K : exists d' e, dev_parse A fwd p2l pinMap print now d (concat (before ++ c :: after)) = Ok (d', e)) by eauto.
  apply C22_commands_safe_iff_partial in K; auto; [|apply Forall_app; split; [exact B|constructor; auto]].
  destruct K as [S L]. apply Forall_app in S as [_ S]. inversion S as [|? ? SC _]; subst. clear S.
  assert (IN : inputs (before ++ c :: after) = inputs before + (is_input c + inputs after)).
  { clear. induction before as [|x b IH]; cbn [app inputs]; lia. }
  pose proof (inputs_nonneg after).
  destruct SC as [LE SC].
  destruct H as [H|[[r ->]|[[r ->]|[->|[->|[->|[H1 H2]]]]]]].
  - lia.
  - destruct SC as (S & _). destruct (S eq_refl) as (p & r' & E1 & E2). injection E1 as <- <-. lia.
  - destruct SC as (S & _). destruct (S eq_refl) as (p & r' & E1 & E2). injection E1 as <- <-. lia.
  - destruct SC as (S & _). destruct (S eq_refl) as (p & r' & E1 & E2). discriminate.
  - destruct SC as (_ & S & _). destruct (S (or_introl eq_refl)) as (p & r' & E1 & E2). discriminate.
  - destruct SC as (_ & S & _). destruct (S (or_intror eq_refl)) as (p & r' & E1 & E2). discriminate.
  - lia.
Qed.
Print Assumptions C22_memory_unsafe_refuted.

(** what happens, for single commands *)
Theorem C22_faults_refuted : forall (A : arith) fwd p2l pinMap print now (d : device A),
  zlen pinMap = 10 -> zlen (d_axes d) = 2 ->
  (* "R8", "R9", "R", "R81", "X1234567890123456789", "I" *)
  dev_parse A fwd p2l pinMap print now d [82; 56] = Ub OobRead /\
  dev_parse A fwd p2l pinMap print now d [82; 57] = Ub OobRead /\
  dev_parse A fwd p2l pinMap print now d [82] = Ub OobRead /\
  dev_parse A fwd p2l pinMap print now d [82; 56; 49] = Ub OobRead /\
  dev_parse A fwd p2l pinMap print now d [88; 49; 50; 51; 52; 53; 54; 55; 56; 57; 48; 49; 50; 51; 52; 53; 54; 55; 56; 57] = Ub OobWrite /\
  dev_parse A fwd p2l pinMap print now d [73] = Ub Uninit.
Proof.
  intros A fwd p2l pinMap print now d PM W.
  assert (R : forall o i, 2 <= i -> read_item A fwd p2l print d (RAxis o i) = Ub OobRead).
  { intros o i H. cbn [read_item]. rewrite zget_oob by lia. reflexivity. }
  assert (RT : forall o i b, 2 <= i -> read_item A fwd p2l print (with_robot A d b) (RAxis o i) = Ub OobRead).
  { intros o i b H. cbn [read_item d_axes with_robot]. rewrite zget_oob by lia. reflexivity. }
  repeat split.
  - unfold dev_parse. change (mril_parse [82; 56]) with (@Ok (list act * option Z) ([AStart; ARead (RAxis 8 2); AEnd; AReply None], None)).
    cbn [bind exec_acts exec_act]. rewrite RT by lia. reflexivity.
  - unfold dev_parse. change (mril_parse [82; 57]) with (@Ok (list act * option Z) ([AStart; ARead (RAxis 9 3); AEnd; AReply None], None)).
    cbn [bind exec_acts exec_act]. rewrite RT by lia. reflexivity.
  - unfold dev_parse. change (mril_parse [82]) with (@Ok (list act * option Z) ([AStart; ARead (RAxis 4294967248 4294967242); AEnd; AReply None], None)).
    cbn [bind exec_acts exec_act]. rewrite RT by lia. reflexivity.
  - unfold dev_parse. change (mril_parse [82; 56; 49]) with (@Ok (list act * option Z) ([AStart; AAxis 2 (Over180Pi (NDec false 1 0)); AEnd], Some (-1))).
    cbn [bind exec_acts exec_act d_axes with_robot]. rewrite zget_oob by lia. reflexivity.
Qed.
Print Assumptions C22_faults_refuted.

(** a safe instruction, "X10Y-5.5R015I31O41D100N5R6", in every machine with room for the condition *)
Example C22_safe_example : forall (A : arith) fwd p2l pinMap print now (d : device A),
  zlen pinMap = 10 -> zlen (d_axes d) = 2 -> zlen (d_io d) <= 9 ->
  exists d' e, dev_parse A fwd p2l pinMap print now d
    (concat [[88; 49; 48]; [89; 45; 53; 46; 53]; [82; 48; 49; 53]; [73; 51; 49]; [79; 52; 49]; [68; 49; 48; 48]; [78; 53]; [82; 54]]) = Ok (d', e).
Proof.
  intros A fwd p2l pinMap print now d PM W IO. apply C22_commands_safe_iff_partial; auto; [lia| |].
  - assert (K : forall c, command_text c -> forall l, Forall command_text l -> Forall command_text (c :: l)) by (intros; now constructor).
    repeat (apply K; [split; [lia|]; repeat (apply Forall_cons; [lia|]); apply Forall_nil|]). constructor.
  - split; [|cbn; lia].
    assert (K : forall c, safe_command c -> forall l, Forall safe_command l -> Forall safe_command (c :: l)) by (intros; now constructor).
    Ltac sf := split; [vm_compute; discriminate|];
      split; [intros E; first [discriminate E|do 2 eexists; split; [reflexivity|lia]]|];
      split; [intros [E|E]; first [discriminate E|do 2 eexists; split; [reflexivity|lia]]|];
      intros [E|[E|E]]; first [discriminate E|eexists; reflexivity].
    repeat (apply K; [sf|]). constructor.
Qed.

(** ** C24 *)

(** Reads of method, velocity, pose and the eight axes, in any number and order, in every state
    of the machine (outside a transaction, i.e. between instructions; two additional axes): the
    machine is left exactly as it was, and exactly one message is sent, the answers in textual order. *)
Theorem C24_reads_change_nothing : forall (A : arith) fwd p2l pinMap print now (d : device A) cs,
  zlen (d_axes d) = 2 -> r_trans (d_robot d) = false -> cs <> [] -> Forall read_ok cs ->
  dev_parse A fwd p2l pinMap print now d (text_of cs) = Ok (d, [DSend (flat_map (answer A fwd p2l print d) cs)]).
Proof. intros A fwd p2l pinMap print now d cs W T NE H. apply reads_parse; auto. Qed.
Print Assumptions C24_reads_change_nothing.

(** with a command number in front: the same, the reply preceded by "N0<n>" and introduced by "N1<n> " *)
Theorem C24_numbered_reads_change_nothing : forall (A : arith) fwd p2l pinMap print now (d : device A) s ds cs,
  zlen (d_axes d) = 2 -> r_trans (d_robot d) = false -> cs <> [] -> Forall read_ok cs ->
  int_ok s ds -> zlen (show_int s ds) <= 18 -> 0 < int_val s ds ->
  dev_parse A fwd p2l pinMap print now d (text_of (Number s ds :: cs)) =
  Ok (d, [DSend (started_msg (int_val s ds));
          DSend (finished_msg (int_val s ds) ++ 32 :: flat_map (answer A fwd p2l print d) cs)]).
Proof. intros. apply numbered_reads_parse; auto. Qed.
Print Assumptions C24_numbered_reads_change_nothing.

(** between instructions the transaction is closed: at boot, and after every instruction *)
Theorem C24_outside_transaction : forall (A : arith) fwd inv l2p p2l limits pinMap print,
  (forall servos axs, r_trans (d_robot (dev_boot A fwd p2l servos axs)) = false) /\
  (forall now d text d' e, text <> [] -> dev_parse A fwd p2l pinMap print now d text = Ok (d', e) -> r_trans (d_robot d') = false) /\
  (forall d b d' e, between_step A fwd inv l2p p2l limits print d b = Ok (d', e) -> r_trans (d_robot d') = r_trans (d_robot d)).
Proof.
  intros A fwd inv l2p p2l limits pinMap print. repeat split.
  - intros now d text d' e NE E. unfold dev_parse, mril_parse in E. destruct text as [|c rest]; [congruence|].
    destruct (mril_scan [] NONE (-1) (c :: rest)) as [[[acts ty] n]|]; cbn [bind] in E; [|discriminate].
    cbn [exec_acts exec_act bind] in E. rewrite exec_acts_app in E.
    destruct (exec_acts A fwd p2l pinMap print now (with_robot A d (with_trans A (d_robot d) true)) [] acts) as [[[d1 b1] e1]|]; cbn [bind] in E; [|discriminate].
    cbn [exec_acts exec_act bind] in E. destruct ty; [destruct (0 <? n)| |]; cbn [exec_acts exec_act bind] in E; injection E as <- _; reflexivity.
  - intros d b d' e E. destruct b as [| |now lv]; cbn [between_step] in E.
    + unfold dev_robot in E. destruct (r_process A fwd inv l2p p2l limits (d_robot d)) as [[r evs]|] eqn:P; cbn [bind] in E; [|discriminate].
      injection E as <- _. cbn [d_robot with_robot]. eapply process_trans. exact P.
    + destruct (dev_tick A d) as [d1|] eqn:T; cbn [bind] in E; [|discriminate]. injection E as <- _.
      unfold dev_tick in T. destruct (r_tick A (d_robot d) 20) as [r|] eqn:RT; cbn [bind] in T; [|discriminate].
      destruct (tick_axes A (d_axes d) 20); cbn [bind] in T; [|discriminate]. injection T as <-. cbn [d_robot with_axes with_robot].
      apply tick_frame in RT as [s ->]. reflexivity.
    + injection E as E. unfold dev_poll in E. destruct (io_isDone lv (d_io d)). destruct (mril_poll _ _). injection E as <- _. reflexivity.
Qed.
Print Assumptions C24_outside_transaction.

(** "MVXR1R7" at boot *)
Example C24_device_example : forall (A : arith) fwd p2l pinMap print servos s6 s7,
  let d := dev_boot A fwd p2l servos [s6; s7] in
  dev_parse A fwd p2l pinMap print 0 d [77; 86; 88; 82; 49; 82; 55] =
  Ok (d, [DSend ([77; 49] ++ (86 :: print (f2d A (fofz A 10))) ++
                 (88 :: print (f2d A (v0 (fwd (p2l (servo_angles A (robot_new A fwd p2l servos))))))) ++
                 (82 :: 49 :: print (dmul A (f2d A (v1 (p2l (servo_angles A (robot_new A fwd p2l servos))))) (RAD_TO_DEG A))) ++
                 (82 :: 55 :: print (dmul A (f2d A (s_cur s7)) (RAD_TO_DEG A))) ++ [])]).
Proof.
  intros A fwd p2l pinMap print servos s6 s7 d.
  exact (C24_reads_change_nothing A fwd p2l pinMap print 0 d [GetMethod; GetVelocity; GetPose AxX; GetJoint 1; GetJoint 7]
    eq_refl eq_refl ltac:(discriminate) ltac:(repeat constructor; cbn; lia)).
Qed.

(** ** C25 *)

(** An instruction of commands whose last number is n > 0 and that ends in a write command, executed
    in any state: at once "N0<m>" is sent for each of its numbers and nothing else; then, as long as
    no other instruction is executed, over any sequence of motion controller steps, timer ticks and
    polls (at any times, with any input levels): nothing is sent until the first poll at which the
    conditions are met, the robot does not move and the wait is over; that poll sends "N1<n>";
    nothing is sent afterwards. *)
Theorem C25_acknowledged_when_finished : forall (A : arith) fwd inv l2p p2l limits pinMap print now (d d1 : device A) cs n e1,
  cs <> [] -> Forall command_ok cs -> number_of cs = n -> 0 < n -> last_kind cs = WRITE ->
  dev_parse A fwd p2l pinMap print now d (text_of cs) = Ok (d1, e1) ->
  sent e1 = map started_msg (numbers cs) /\
  forall before d2 e2, between_run A fwd inv l2p p2l limits print d1 before = Ok (d2, e2) ->
    never_finished A fwd inv l2p p2l limits print d1 before ->
    sent e2 = [] /\
    forall t lv, all_finished d2 t lv ->
      exists d3 e3, between_step A fwd inv l2p p2l limits print d2 (BPoll t lv) = Ok (d3, e3) /\
        sent e3 = [finished_msg n] /\
        forall after d4 e4, between_run A fwd inv l2p p2l limits print d3 after = Ok (d4, e4) -> sent e4 = [].
Proof.
  intros A fwd inv l2p p2l limits pinMap print now d d1 cs n e1 NE OK N P K E.
  destruct (write_parse A fwd p2l pinMap print now d cs d1 e1 NE OK K E) as [S M].
  split; [exact S|]. intros before d2 e2 R NF.
  destruct (run_silent A fwd inv l2p p2l limits print before d1 d2 e2 R) as [I _]. destruct (I NF) as [S2 P2].
  split; [exact S2|]. intros t lv AF. rewrite M, N in P2. cbn [pending] in P2.
  destruct (dev_poll_cases A d2 t lv) as [[_ E2]|[NAF _]]; [|contradiction].
  cbn [between_step]. rewrite E2, P2. destruct (Z.ltb_spec 0 n); [|lia].
  do 2 eexists. split; [reflexivity|]. split; [reflexivity|]. intros after d4 e4 R4.
  destruct (run_silent A fwd inv l2p p2l limits print after _ d4 e4 R4) as [_ J]. apply J. cbn. lia.
Qed.
Print Assumptions C25_acknowledged_when_finished.

(** "N5D100" at boot, executed at time 1000: a poll at 1050 is silent, the poll at 1101 acknowledges *)
Example C25_device_example : forall (A : arith) fwd inv l2p p2l limits pinMap print servos axs lv,
  let d := dev_boot A fwd p2l servos axs in
  exists d1 d2, dev_parse A fwd p2l pinMap print 1000 d [78; 53; 68; 49; 48; 48] = Ok (d1, [DSend [78; 48; 53]]) /\
    between_run A fwd inv l2p p2l limits print d1 [BPoll 1050 lv] = Ok (d2, []) /\
    never_finished A fwd inv l2p p2l limits print d1 [BPoll 1050 lv] /\ all_finished d2 1101 lv /\
    finished_msg 5 = [78; 49; 53].
Proof.
  intros A fwd inv l2p p2l limits pinMap print servos axs lv d.
  eexists. eexists. split; [reflexivity|]. split; [reflexivity|]. split; [split; [|exact I]|split; [|reflexivity]].
  - intros (_ & _ & X). vm_compute in X. discriminate.
  - split; [|split; [reflexivity|vm_compute; reflexivity]]. intros k p st H. destruct k; discriminate.
Qed.
