(** * Properties C26, C46-C49, C54 of the whole controller: main loop, timer, serial port *)
From Verif Require Import Base Arith ServoModel RobotModel RobotProofs IoModel IoSpec WaitModel RingModel RingSpec RingProofs EepromModel EepromSpec MrilModel MrilSpec McpModel McpSpec McpProofs DeviceModel DeviceSpec DeviceProofs SystemModel SystemSpec SystemProofs SystemSafe SystemQueue SystemOutput SystemOrigin.
Open Scope Z_scope.

(** ** C26 *)

(** The controller boots with an empty program.  Over every schedule [stims] of arriving bytes, timer
    ticks and main-loop progress (any clock, any input levels), if the host keeps to the frame format, sends
    neither Q alone nor W (both leave queue mode or throw the queue away), and no instruction finds the
    queue full: the instructions started by the loop, followed by those still waiting in the ring buffer,
    are the instructions received, in order, each exactly once. *)
Theorem C26_started_in_arrival_order : forall (A : arith) fwd inv l2p p2l limits pinMap print sgn servos axs junk mem s0 stims s tr,
  zlen junk = 300 -> holds sgn mem [] -> sys_boot A fwd p2l servos axs junk mem = Ok s0 ->
  sys_run A fwd inv l2p p2l limits pinMap print sgn s0 stims = Ok (s, tr) ->
  host_ok (spec_boot []) (map CChar (arrivals stims)) -> Forall plain_command (commands [] (map CChar (arrivals stims))) ->
  room (spec_boot []) (mcp_events tr) ->
  exists waiting, rabs (mring (cm (y_mcp s))) = enc waiting /\
    started tr ++ waiting = wanted (commands [] (map CChar (handed tr))).
Proof.
  intros A fwd inv l2p p2l limits pinMap print sgn servos axs junk mem s0 stims s tr J H B R HO PC RM.
  destruct (boot_run A fwd p2l sgn junk mem [] axs servos s0 J H (Forall_nil _) B) as (CI & RX & _ & _).
  exact (system_fifo A fwd inv l2p p2l limits pinMap print sgn s0 _ stims s tr CI eq_refl RX (or_intror (conj eq_refl eq_refl)) R HO PC RM).
Qed.
Print Assumptions C26_started_in_arrival_order.

(** An instruction is started only when everything before it is finished: if the next step of the
    schedule starts an instruction, then the main loop has polled the machine directly before (only
    arrivals and ticks since), at that poll all conditions were met, the robot stood still and the wait
    was over; and there are still no conditions pending and the robot still stands. *)
Theorem C26_started_when_finished : forall (A : arith) fwd inv l2p p2l limits pinMap print sgn servos axs junk mem s0 stims s tr x s' e,
  sys_boot A fwd p2l servos axs junk mem = Ok s0 ->
  sys_run A fwd inv l2p p2l limits pinMap print sgn s0 stims = Ok (s, tr) ->
  sys_step A fwd inv l2p p2l limits pinMap print sgn s x = Ok (s', e) -> started e <> [] ->
  (exists before t lv between s1 e1, stims = before ++ SRun t lv :: between /\
     Forall (fun x => match x with SRun _ _ => False | _ => True end) between /\
     sys_run A fwd inv l2p p2l limits pinMap print sgn s0 before = Ok (s1, e1) /\ y_phase s1 = PMril /\
     all_finished (y_dev s1) t lv) /\
  d_io (y_dev s) = [] /\ is_moving (d_robot (y_dev s)) = false.
Proof.
  intros A fwd inv l2p p2l limits pinMap print sgn servos axs junk mem s0 stims s tr x s' e B R S ST.
  assert (P0 : y_phase s0 = PRobot1).
  { unfold sys_boot in B. destruct (c_boot junk mem); cbn [bind] in B; [|discriminate]. injection B as <-. reflexivity. }
  exact (started_finished A fwd inv l2p p2l limits pinMap print sgn s0 stims s tr x s' e P0 R S ST).
Qed.
Print Assumptions C26_started_when_finished.

(** ** C47 *)

(** Over every schedule: the bytes handed to the protocol parser, followed by those not read yet, are the
    bytes that arrived; and in every stretch of the trace without the start of a new loop iteration at
    most 30 bytes are handed over. *)
Theorem C47_serial_input : forall (A : arith) fwd inv l2p p2l limits pinMap print sgn servos axs junk mem s0 stims s tr,
  sys_boot A fwd p2l servos axs junk mem = Ok s0 ->
  sys_run A fwd inv l2p p2l limits pinMap print sgn s0 stims = Ok (s, tr) ->
  handed tr ++ y_rx s = arrivals stims /\
  (forall a b c, tr = a ++ b ++ c -> ~ In YLoop b -> zlen (handed b) <= 30).
Proof.
  intros A fwd inv l2p p2l limits pinMap print sgn servos axs junk mem s0 stims s tr B R.
  assert (P0 : y_phase s0 = PRobot1 /\ y_rx s0 = []).
  { unfold sys_boot in B. destruct (c_boot junk mem); cbn [bind] in B; [|discriminate]. injection B as <-. auto. }
  destruct P0 as [P0 RX]. split.
  - rewrite (serial_fifo A fwd inv l2p p2l limits pinMap print sgn stims _ _ _ R), RX. reflexivity.
  - apply (visit_segment A fwd inv l2p p2l limits pinMap print sgn stims _ _ _ R). rewrite P0. cbn. lia.
Qed.
Print Assumptions C47_serial_input.

(** ** C48 *)

(** The controller boots with a program of safe lines in its EEPROM (ten pins, two additional axes).
    Whatever a conforming host sends, on every schedule of arrivals, ticks and loop progress, with any
    clock and any input levels, in any floating-point arithmetic, with any kinematics: the only fault
    that can happen is the conversion of a too large floating-point number to an integer; no access
    outside of an array, no read of uninitialised memory. *)
Theorem C48_conforming_host_is_safe : forall (A : arith) fwd inv l2p p2l limits pinMap print sgn servos axs junk mem l stims,
  zlen pinMap = 10 -> zlen axs = 2 -> zlen junk = 300 -> holds sgn mem l -> Forall (fun m => zlen m <= 80) l ->
  Forall (safe_text 10) l -> conforming l (arrivals stims) ->
  exists s0, sys_boot A fwd p2l servos axs junk mem = Ok s0 /\
    match sys_run A fwd inv l2p p2l limits pinMap print sgn s0 stims with Ok _ => True | Ub f => f = BadConv end.
Proof.
  intros A fwd inv l2p p2l limits pinMap print sgn servos axs junk mem l stims PM AX J H L80 SL [HO SF].
  destruct (c_boot_inv sgn junk mem l J H L80) as (m & E & I). unfold sys_boot. rewrite E. cbn [bind]. eexists. split; [reflexivity|].
  assert (K : SInv A sgn (mkSys (dev_boot A fwd p2l servos axs) m [] PRobot1) (spec_boot l) ([] ++ arrivals stims)).
  { unfold SInv. cbn [y_mcp y_dev y_phase app]. splits; auto.
    - split; [constructor|exact SL].
    - unfold DI, nc. cbn. splits; auto; [unfold zlen; cbn; lia|discriminate]. }
  exact (run_fine A fwd inv l2p p2l limits pinMap print sgn PM stims _ _ K).
Qed.
Print Assumptions C48_conforming_host_is_safe.

(** ** C49 *)

(** The controller boots with an empty program; the host sends only requests for the queue state and
    numbered write instructions for the queue.  On every schedule, whatever numbers [ns] the started
    instructions carry: the acknowledgements sent so far are N0n1 N1n1 N0n2 N1n2 ..., complete or with
    the last N1 still to come. *)
Theorem C49_acknowledgements_alternate : forall (A : arith) fwd inv l2p p2l limits pinMap print sgn servos axs junk mem s0 stims s tr ns,
  zlen junk = 300 -> holds sgn mem [] -> sys_boot A fwd p2l servos axs junk mem = Ok s0 ->
  sys_run A fwd inv l2p p2l limits pinMap print sgn s0 stims = Ok (s, tr) ->
  host_ok (spec_boot []) (map CChar (arrivals stims)) -> Forall ack_frame (commands [] (map CChar (arrivals stims))) ->
  Forall2 numbered (started tr) ns ->
  acks tr = ack_sequence ns \/ exists n, acks tr ++ [finished_msg n] = ack_sequence ns.
Proof.
  intros A fwd inv l2p p2l limits pinMap print sgn servos axs junk mem s0 stims s tr ns J H B R HO AF FN.
  destruct (boot_run A fwd p2l sgn junk mem [] axs servos s0 J H (Forall_nil _) B) as (CI & RX & P0 & D0).
  assert (K : AInv A sgn s0 (spec_boot []) (y_rx s0 ++ arrivals stims) []).
  { unfold AInv. rewrite RX, P0, D0. cbn [app]. splits; auto.
    - right. auto.
    - constructor.
    - intros X; discriminate.
    - intros ns' X. inversion X; subst. unfold due. rewrite D0. reflexivity. }
  destruct (ack_run A fwd inv l2p p2l limits pinMap print sgn stims _ _ _ _ _ K R) as (t' & _ & _ & _ & _ & _ & _ & AK).
  specialize (AK ns FN). cbn [app] in AK. unfold due in AK.
  destruct (0 <? pending (d_mril (y_dev s))); [right; eauto|left]. now rewrite app_nil_r in AK.
Qed.
Print Assumptions C49_acknowledgements_alternate.

(** The instructions started are the first k received; so, when no instruction finds the queue full,
    the acknowledgements are those of the first k numbers, in arrival order. *)
Theorem C49_acknowledged_in_arrival_order : forall (A : arith) fwd inv l2p p2l limits pinMap print sgn servos axs junk mem s0 stims s tr ns,
  zlen junk = 300 -> holds sgn mem [] -> sys_boot A fwd p2l servos axs junk mem = Ok s0 ->
  sys_run A fwd inv l2p p2l limits pinMap print sgn s0 stims = Ok (s, tr) ->
  host_ok (spec_boot []) (map CChar (arrivals stims)) -> Forall ack_frame (commands [] (map CChar (arrivals stims))) ->
  room (spec_boot []) (mcp_events tr) ->
  Forall2 numbered (wanted (commands [] (map CChar (arrivals stims)))) ns ->
  exists k, started tr = firstn k (wanted (commands [] (map CChar (arrivals stims)))) /\
    (acks tr = ack_sequence (firstn k ns) \/ exists n, acks tr ++ [finished_msg n] = ack_sequence (firstn k ns)).
Proof.
  intros A fwd inv l2p p2l limits pinMap print sgn servos axs junk mem s0 stims s tr ns J H B R HO AF RM FN.
  assert (PC : Forall plain_command (commands [] (map CChar (arrivals stims)))).
  { eapply Forall_impl; [|exact AF]. intros p. apply ack_frame_plain. }
  destruct (C26_started_in_arrival_order A fwd inv l2p p2l limits pinMap print sgn servos axs junk mem s0 stims s tr J H B R HO PC RM) as (w & _ & ST).
  destruct (C47_serial_input A fwd inv l2p p2l limits pinMap print sgn servos axs junk mem s0 stims s tr B R) as [SF _].
  assert (X : exists rest, wanted (commands [] (map CChar (arrivals stims))) = started tr ++ rest).
  { rewrite <- SF, map_app. destruct (commands_app (map CChar (handed tr)) [] (map CChar (y_rx s))) as [cur ->].
    unfold wanted at 1. rewrite flat_map_app. fold (wanted (commands [] (map CChar (handed tr)))). rewrite <- ST, <- app_assoc. eauto. }
  destruct X as [rest X]. exists (length (started tr)). rewrite X in *.
  split; [now rewrite firstn_app, Nat.sub_diag, firstn_all, firstn_O, app_nil_r|].
  apply Forall2_app_inv_l in FN as (n1 & n2 & F1 & F2 & ->).
  assert (LN : length (started tr) = length n1) by (clear - F1; induction F1; cbn; auto). rewrite LN, firstn_app, Nat.sub_diag, firstn_all, firstn_O, app_nil_r.
  exact (C49_acknowledgements_alternate A fwd inv l2p p2l limits pinMap print sgn servos axs junk mem s0 stims s tr n1 J H B R HO AF F1).
Qed.
Print Assumptions C49_acknowledged_in_arrival_order.

(** ** C54 *)

(** Every instruction executed was received in a frame or was in the EEPROM at boot: on every schedule,
    with every host that keeps to the frame format. *)
Theorem C54_only_received_instructions : forall (A : arith) fwd inv l2p p2l limits pinMap print sgn servos axs junk mem l s0 stims s tr,
  zlen junk = 300 -> holds sgn mem l -> Forall (fun m => zlen m <= 80) l -> sys_boot A fwd p2l servos axs junk mem = Ok s0 ->
  sys_run A fwd inv l2p p2l limits pinMap print sgn s0 stims = Ok (s, tr) ->
  host_ok (spec_boot l) (map CChar (arrivals stims)) ->
  forall text, In text (executed tr) ->
    In text l \/ exists p, In p (commands [] (map CChar (arrivals stims))) /\ In text (frame_text p).
Proof.
  intros A fwd inv l2p p2l limits pinMap print sgn servos axs junk mem l s0 stims s tr J H L80 B R HO.
  destruct (boot_run A fwd p2l sgn junk mem l axs servos s0 J H L80 B) as (CI & RX & _ & _).
  set (P := fun text => In text l \/ exists p, In p (commands [] (map CChar (arrivals stims))) /\ In text (frame_text p)).
  cut (Forall P (executed tr)); [intros F text IT; exact (proj1 (Forall_forall P _) F text IT)|].
  apply (executed_origin A fwd inv l2p p2l limits pinMap print sgn P s0 (spec_boot l) stims s tr CI eq_refl RX); auto.
  - split; [constructor|]. apply Forall_forall. intros x X. left. exact X.
  - apply Forall_forall. intros p IP. apply Forall_forall. intros x IX. right. exists p. auto.
Qed.
Print Assumptions C54_only_received_instructions.

(** ** C46 *)

(** Full claim: the output is a sequence of frames.  It is false (below).  What is true in general: a
    host that keeps the lines starting with ':' gets exactly the messages, in order, even if the logger
    writes its lines in between.  (Numbers are printed without ':' and line feed.) *)
Theorem C46_host_recovers_messages_partial : forall (A : arith) fwd inv l2p p2l limits pinMap print sgn s0 stims s tr bytes,
  plain_print print ->
  sys_run A fwd inv l2p p2l limits pinMap print sgn s0 stims = Ok (s, tr) ->
  wire tr bytes -> host_reads bytes = messages tr.
Proof.
  intros A fwd inv l2p p2l limits pinMap print sgn s0 stims s tr bytes PP R W.
  apply (wire_reads A tr bytes W). exact (run_neat A fwd inv l2p p2l limits pinMap print sgn PP stims _ _ _ R).
Qed.
Print Assumptions C46_host_recovers_messages_partial.

(** And if the host never sends the letter M (and the stored program has none), the output is exactly the
    frames of the messages. *)
Theorem C46_frames_only_partial : forall (A : arith) fwd inv l2p p2l limits pinMap print sgn servos axs junk mem l s0 stims s tr,
  zlen junk = 300 -> holds sgn mem l -> Forall (fun m => zlen m <= 80) l ->
  Forall (Forall (fun c => c <> 77 /\ c <> 35 /\ c <> 40)) l ->
  Forall (fun c => c <> 77 /\ c <> 109) (arrivals stims) -> host_ok (spec_boot l) (map CChar (arrivals stims)) ->
  sys_boot A fwd p2l servos axs junk mem = Ok s0 ->
  sys_run A fwd inv l2p p2l limits pinMap print sgn s0 stims = Ok (s, tr) ->
  output tr = flat_map frame_of (messages tr).
Proof.
  intros A fwd inv l2p p2l limits pinMap print sgn servos axs junk mem l s0 stims s tr J H L80 LM NM HO B R.
  destruct (boot_run A fwd p2l sgn junk mem l axs servos s0 J H L80 B) as (CI & RX & _ & D0).
  apply (unprinted_output A).
  apply (run_calm A fwd inv l2p p2l limits pinMap print sgn stims s0 s tr); auto; [rewrite D0; reflexivity|].
  apply (executed_origin A fwd inv l2p p2l limits pinMap print sgn (Forall modeless) s0 (spec_boot l) stims s tr CI eq_refl RX); auto.
  - split; [constructor|exact LM].
  - eapply Forall_impl; [|apply (commands_modeless (arrivals stims) [] (Forall_nil _) NM)].
    intros p. apply frame_text_sub.
Qed.
Print Assumptions C46_frames_only_partial.

(** The violation: whenever the motion controller starts a P2P move, in any state of the machine, what the
    main loop writes in this step is no sequence of frames. *)
Theorem C46_raw_line_refuted : forall (A : arith) fwd inv l2p p2l limits pinMap print sgn s now lv s' e,
  plain_print print -> y_phase s = PRobot1 \/ y_phase s = PRobot2 ->
  r_method (d_robot (y_dev s)) = P2P -> r_state (d_robot (y_dev s)) = START_MOVE ->
  sys_step A fwd inv l2p p2l limits pinMap print sgn s (SRun now lv) = Ok (s', e) ->
  ~ exists ms, output e = flat_map frame_of ms.
Proof.
  intros A fwd inv l2p p2l limits pinMap print sgn s now lv s' e PP PH M ST S [ms EQ].
  assert (K : exists x rest, output e = print x ++ 13 :: 10 :: rest).
  { assert (G : exists d de, dev_robot A fwd inv l2p p2l limits print (y_dev s) = Ok (d, de) /\ output e = output (A := A) (map YDev de)).
    { cbn [sys_step] in S. unfold sys_main in S. destruct PH as [PH | PH]; rewrite PH in S;
        (destruct (dev_robot A fwd inv l2p p2l limits print (y_dev s)) as [[d de]|]; cbn [bind] in S; [|discriminate]; injection S as <- <-; eauto). }
    destruct G as (d & de & DR & ->). unfold dev_robot in DR.
    destruct (r_process A fwd inv l2p p2l limits (d_robot (y_dev s))) as [[r evs]|] eqn:RP; cbn [bind] in DR; [|discriminate]. injection DR as <- <-.
    unfold r_process in RP. rewrite ST in RP. unfold r_start_move, r_plan in RP. cbn [r_method with_steps] in RP. rewrite M in RP. cbn [bind] in RP.
    match type of RP with context [EvPrint ?x] => exists (f2d A x) end.
    destruct (outside _ _ _ _); [injection RP as _ <-; eexists; unfold output; cbn; rewrite <- ?app_assoc; reflexivity|].
    destruct (outside _ _ _ _); [injection RP as _ <-; eexists; unfold output; cbn; rewrite <- ?app_assoc; reflexivity|].
    destruct (negb _); injection RP as _ <-; eexists; unfold output; cbn; rewrite <- ?app_assoc; reflexivity. }
  destruct K as (x & rest & OE). rewrite OE in EQ. pose proof (PP x) as P. destruct ms as [|m ms].
  - cbn in EQ. destruct (print x); discriminate.
  - cbn in EQ. destruct (print x) as [|c r]; cbn in EQ; [discriminate|]. injection EQ as EC _. inversion P; subst. lia.
Qed.
Print Assumptions C46_raw_line_refuted.

(** ** Examples *)
(** the host sends ":N1D5" CR ":N2D5" CR (two waits of 5 ms); loop iterations at 10, 12, 20 and 30 ms *)
Definition demo_bytes : list Z := [58; 78; 49; 68; 53; 13; 58; 78; 50; 68; 53; 13].
Definition demo_stims : list stim :=
  map SArrive demo_bytes ++ repeat (SRun 10 (fun _ _ => false)) 17 ++ repeat (SRun 12 (fun _ _ => false)) 5 ++
  repeat (SRun 20 (fun _ _ => false)) 5 ++ repeat (SRun 30 (fun _ _ => false)) 5.
Example demo_run : forall (A : arith) fwd inv l2p p2l limits pinMap print sgn servos axs,
  exists s0 s tr, sys_boot A fwd p2l servos axs (repeat 0 300) (repeat 0 2048) = Ok s0 /\
    sys_run A fwd inv l2p p2l limits pinMap print sgn s0 demo_stims = Ok (s, tr) /\
    acks tr = [[78; 48; 49]; [78; 49; 49]; [78; 48; 50]; [78; 49; 50]] /\
    started tr = [[78; 49; 68; 53]; [78; 50; 68; 53]] /\ handed tr = demo_bytes /\
    host_ok (spec_boot []) (map CChar (arrivals demo_stims)) /\ room (spec_boot []) (mcp_events tr) /\
    output tr = flat_map frame_of (messages tr).
Proof.
  intros. do 3 eexists. split; [vm_compute; reflexivity|]. split; [vm_compute; reflexivity|].
  splits; try (vm_compute; reflexivity); vm_compute; splits; auto; discriminate.
Qed.
Example demo_hyps : holds true (repeat 0 2048) [] /\ Forall ack_frame (commands [] (map CChar demo_bytes)) /\
  Forall2 numbered (wanted (commands [] (map CChar demo_bytes))) [1; 2] /\
  Forall plain_command (commands [] (map CChar demo_bytes)) /\ conforming [] demo_bytes.
Proof.
  assert (OK : forall n d, 0 < n < 10 -> digit_ok d -> numbered [78; n + 48; 68; d + 48] n).
  { intros n d N D. assert (DN : digit_ok n) by (unfold digit_ok; lia).
    exists [Number false [n]; Delay false [d]]. split; [reflexivity|]. split; [discriminate|]. split.
    { assert (I1 : forall k, digit_ok k -> int_ok false [k]).
      { intros k K. split; [discriminate|]. split; [apply Forall_cons; [exact K|apply Forall_nil]|]. unfold digit_ok in K. cbn [val10]. change (zlen (@nil Z)) with 0. change (10 ^ 0) with 1. lia. }
      apply Forall_cons; [|apply Forall_cons; [|apply Forall_nil]]; (split; [vm_compute; discriminate|]); apply I1; assumption. }
    split; [cbn [numbers flat_map app int_val val10]; change (zlen (@nil Z)) with 0; change (10 ^ 0) with 1; f_equal; lia|]. split; [lia|reflexivity]. }
  assert (N1 : numbered [78; 49; 68; 53] 1) by (apply (OK 1 5); unfold digit_ok; lia).
  assert (N2 : numbered [78; 50; 68; 53] 2) by (apply (OK 2 5); unfold digit_ok; lia).
  assert (C : commands [] (map CChar demo_bytes) = [[78; 49; 68; 53]; [78; 50; 68; 53]]) by reflexivity.
  split; [|split; [|split; [|split; [|split]]]].
  - split; [reflexivity|]. split; [apply Forall_nil|]. exists (repeat 0 2047). reflexivity.
  - rewrite C. apply Forall_cons; [|apply Forall_cons; [|apply Forall_nil]]; right; right; do 2 eexists; (split; [reflexivity|eassumption]).
  - rewrite C. apply Forall2_cons; [exact N1|]. apply Forall2_cons; [exact N2|]. apply Forall2_nil.
  - rewrite C. apply Forall_cons; [|apply Forall_cons; [|apply Forall_nil]]; split; try discriminate; intros; discriminate.
  - vm_compute. splits; auto; discriminate.
  - rewrite C. assert (SF : forall n, 49 <= n <= 50 -> safe_frame [78; n; 68; 53]).
    { intros n H. assert (E : n = 49 \/ n = 50) by lia. clear H.
      assert (K : forall c, safe_command c -> forall l, Forall safe_command l -> Forall safe_command (c :: l)) by (intros; now constructor).
      destruct E as [-> | ->]; (split; [|split; [vm_compute; discriminate|vm_compute; discriminate]]);
      repeat (apply K; [split; [vm_compute; discriminate|];
        split; [intros E; first [discriminate E|do 2 eexists; split; [reflexivity|lia]]|];
        split; [intros [E|E]; first [discriminate E|do 2 eexists; split; [reflexivity|lia]]|];
        intros [E|[E|E]]; first [discriminate E|eexists; reflexivity]|]); constructor. }
    apply Forall_cons; [apply SF; lia|]. apply Forall_cons; [apply SF; lia|]. apply Forall_nil.
Qed.
