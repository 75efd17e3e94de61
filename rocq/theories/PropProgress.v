(** * Properties C08, C32, C47, C55, C56 of the whole controller: progress, flow control, replay, limits *)
From Coq Require Import Reals.
From Verif Require Import Base Arith ServoModel RobotModel RobotSpec RobotProofs PropRobot IoModel IoSpec WaitModel RingModel RingSpec RingProofs EepromModel EepromSpec MrilModel MrilSpec McpModel McpSpec McpProofs DeviceModel DeviceSpec DeviceProofs SystemModel SystemSpec SystemProofs SystemSafe SystemQueue SystemMore PropSystem.
Open Scope Z_scope.

(** ** C47 *)

(** Every byte received is read.  From any state reached from boot, with [r] bytes waiting, whatever else
    arrives and however often the timer ticks: after r + 5 + 5 * (r / 30) steps of the main loop (30 bytes
    and five steps per iteration) the waiting bytes have all been handed to the protocol parser, first. *)
Theorem C47_every_byte_is_read : forall (A : arith) fwd inv l2p p2l limits pinMap print sgn servos axs junk mem s0 before s tr0 after s' tr,
  sys_boot A fwd p2l servos axs junk mem = Ok s0 ->
  sys_run A fwd inv l2p p2l limits pinMap print sgn s0 before = Ok (s, tr0) ->
  sys_run A fwd inv l2p p2l limits pinMap print sgn s after = Ok (s', tr) ->
  zlen (y_rx s) + 5 + 5 * (zlen (y_rx s) / 30) <= loop_steps after ->
  exists more, handed tr = y_rx s ++ more.
Proof.
  intros A fwd inv l2p p2l limits pinMap print sgn servos axs junk mem s0 before s tr0 after s' tr B R0 R L.
  assert (P0 : phase_ok (y_phase s0)).
  { unfold sys_boot in B. destruct (c_boot junk mem); cbn [bind] in B; [|discriminate]. injection B as <-. exact I. }
  assert (PR : forall l s s' tr, phase_ok (y_phase s) -> sys_run A fwd inv l2p p2l limits pinMap print sgn s l = Ok (s', tr) -> phase_ok (y_phase s')).
  { clear. induction l as [|x l IH]; intros s s' tr P E; cbn [sys_run] in E; [injection E as <- <-; exact P|].
    destruct (sys_step A fwd inv l2p p2l limits pinMap print sgn s x) as [[s1 e1]|] eqn:S; cbn [bind] in E; [|discriminate].
    destruct (sys_run A fwd inv l2p p2l limits pinMap print sgn s1 l) as [[s2 e2]|] eqn:R; cbn [bind] in E; [|discriminate]. injection E as <- <-.
    eapply IH; [|exact R]. eapply input_step; eauto. }
  pose proof (PR _ _ _ _ P0 R0) as P1.
  apply (input_progress A fwd inv l2p p2l limits pinMap print sgn after s s' tr (y_rx s) [] R P1 (eq_sym (app_nil_r _))).
  destruct (y_rx s) as [|c rx]; [left; reflexivity|right]. set (r := zlen (c :: rx)) in *.
  assert (RP : 1 <= r) by (unfold r; rewrite zlen_cons; pose proof (zlen_nonneg rx); lia).
  assert (D1 : (r - 1) / 30 <= r / 30) by (apply Z.div_le_mono; lia).
  unfold ahead. destruct (y_phase s) as [| |k| |]; try lia.
  cbn [phase_ok] in P1. assert (D2 : (r + k - 1) / 30 <= (r + 1 * 30) / 30) by (apply Z.div_le_mono; lia).
  rewrite Z.div_add in D2 by lia. lia.
Qed.
Print Assumptions C47_every_byte_is_read.

(** ** C55 *)

(** Flow control: a host that never has more than 300 bytes outstanding - instructions sent (each counted
    with one separator byte) minus instructions started, at every moment of the schedule - loses nothing:
    the instructions started, followed by those waiting, are the instructions received, in order. *)
Theorem C55_flow_control : forall (A : arith) fwd inv l2p p2l limits pinMap print sgn servos axs junk mem s0 stims s tr,
  zlen junk = 300 -> holds sgn mem [] -> sys_boot A fwd p2l servos axs junk mem = Ok s0 ->
  sys_run A fwd inv l2p p2l limits pinMap print sgn s0 stims = Ok (s, tr) ->
  host_ok (spec_boot []) (map CChar (arrivals stims)) -> Forall plain_command (commands [] (map CChar (arrivals stims))) ->
  (forall pre post s1 tr1, stims = pre ++ post -> sys_run A fwd inv l2p p2l limits pinMap print sgn s0 pre = Ok (s1, tr1) ->
     space (wanted (commands [] (map CChar (arrivals pre)))) - space (started tr1) <= 300) ->
  exists waiting, rabs (mring (cm (y_mcp s))) = enc waiting /\
    started tr ++ waiting = wanted (commands [] (map CChar (handed tr))).
Proof.
  intros A fwd inv l2p p2l limits pinMap print sgn servos axs junk mem s0 stims s tr J H B R HO PC CR.
  apply (C26_started_in_arrival_order A fwd inv l2p p2l limits pinMap print sgn servos axs junk mem s0 stims s tr J H B R HO PC).
  destruct (boot_run A fwd p2l sgn junk mem [] axs servos s0 J H (Forall_nil _) B) as (CI & RX & _ & _).
  apply credit_room; [right; auto|reflexivity| |].
  - rewrite handed_commands. pose proof (serial_fifo A fwd inv l2p p2l limits pinMap print sgn _ _ _ _ R) as SF. rewrite RX in SF. cbn [app] in SF.
    rewrite <- SF, map_app in PC. eapply Forall_commands. exact PC.
  - intros a b EV. destruct (event_prefix A fwd inv l2p p2l limits pinMap print sgn _ _ _ _ _ _ R EV) as (l1 & l2 & s1 & tr1 & EL & R1 & M).
    pose proof (CR _ _ _ _ EL R1) as C1. cbn [spec_boot squeue space].
    assert (HO1 : host_ok (spec_boot []) (map CChar (arrivals l1))).
    { rewrite EL, arrivals_app, map_app in HO. clear - HO. revert HO. generalize (spec_boot []). induction (arrivals l1) as [|c l IH]; intros t HO; [exact I|].
      cbn [map app host_ok] in *. destruct HO as [H1 H2]. split; [exact H1|]. apply IH. exact H2. }
    destruct (run_spec A fwd inv l2p p2l limits pinMap print sgn _ _ _ _ _ CI RX R1 HO1) as (MA & _ & _).
    rewrite started_taken, MA, M in C1.
    pose proof (serial_fifo A fwd inv l2p p2l limits pinMap print sgn _ _ _ _ R1) as SF. rewrite RX in SF. cbn [app] in SF.
    rewrite <- M in C1 |- *. rewrite (handed_commands A tr1 []).
    assert (LE : space (wanted (commands [] (map CChar (handed tr1)))) <= space (wanted (commands [] (map CChar (arrivals l1))))).
    { rewrite <- SF, map_app. destruct (commands_app (map CChar (handed tr1)) [] (map CChar (y_rx s1))) as [cur ->].
      rewrite wanted_app, space_app. assert (NN : forall q, 0 <= space q).
      { induction q as [|x q IH]; cbn [space]; [lia|]. pose proof (zlen_nonneg x). lia. }
      pose proof (NN (wanted (commands cur (map CChar (y_rx s1))))). lia. }
    lia.
Qed.
Print Assumptions C55_flow_control.

(** ** C56 *)

(** The queue does not stall: on any schedule as in C26, when the main loop polls the machine (phase PMril)
    and everything is finished while instructions are waiting, the next step of the main loop - whatever
    arrives or ticks in between - starts the first waiting instruction, and only this one. *)
Theorem C56_next_is_started : forall (A : arith) fwd inv l2p p2l limits pinMap print sgn servos axs junk mem s0 stims s tr m rest now lv between now2 lv2 s' tr',
  zlen junk = 300 -> holds sgn mem [] -> sys_boot A fwd p2l servos axs junk mem = Ok s0 ->
  sys_run A fwd inv l2p p2l limits pinMap print sgn s0 stims = Ok (s, tr) ->
  host_ok (spec_boot []) (map CChar (arrivals stims)) -> Forall plain_command (commands [] (map CChar (arrivals stims))) ->
  room (spec_boot []) (mcp_events tr) ->
  wanted (commands [] (map CChar (handed tr))) = started tr ++ m :: rest ->
  y_phase s = PMril -> all_finished (y_dev s) now lv ->
  Forall (fun x => match x with SRun _ _ => False | _ => True end) between ->
  sys_run A fwd inv l2p p2l limits pinMap print sgn s (SRun now lv :: between ++ [SRun now2 lv2]) = Ok (s', tr') ->
  started tr' = [m].
Proof.
  intros A fwd inv l2p p2l limits pinMap print sgn servos axs junk mem s0 stims s tr m rest now lv between now2 lv2 s' tr' J H B R HO PC RM WT PH AF NR E.
  destruct (boot_run A fwd p2l sgn junk mem [] axs servos s0 J H (Forall_nil _) B) as (CI & RX & _ & _).
  destruct (run_spec A fwd inv l2p p2l limits pinMap print sgn _ _ _ _ _ CI RX R HO) as (MA & CI' & HE).
  pose proof (serial_fifo A fwd inv l2p p2l limits pinMap print sgn _ _ _ _ R) as SF. rewrite RX in SF. cbn [app] in SF.
  assert (PE : Forall plain_command (commands (scur (spec_boot [])) (mcp_events tr))).
  { cbn [spec_boot scur]. rewrite handed_commands. rewrite <- SF, map_app in PC. eapply Forall_commands. exact PC. }
  destruct (fifo_run (mcp_events tr) (spec_boot []) (or_intror (conj eq_refl eq_refl)) PE RM) as [F Q].
  rewrite <- MA, <- started_taken in F. cbn [spec_boot squeue scur app] in F. rewrite handed_commands, WT in F.
  change (mkS [] [] 1 EXECUTE []) with (spec_boot []) in F.
  apply app_inv_head in F.
  destruct Q as [Q|[_ Q]]; [|rewrite Q in F; discriminate].
  exact (proj1 (queue_progress A fwd inv l2p p2l limits pinMap print sgn _ _ _ _ _ _ _ _ _ _ _ CI' Q F PH AF NR E)).
Qed.
Print Assumptions C56_next_is_started.

(** ** C08 for the whole controller *)

(** The controller boots with a program of n >= 2 lines and receives nothing: the k-th instruction started
    (k = 0, 1, ...) is line 1 + k mod (n - 1), on every schedule.  Full claim (all lines, from line 0): refuted
    for the program store (C08_replay_all_refuted). *)
Theorem C08_replay_in_order_partial : forall (A : arith) fwd inv l2p p2l limits pinMap print sgn servos axs junk mem l s0 stims s tr k,
  zlen junk = 300 -> holds sgn mem l -> Forall (fun m => zlen m <= 80) l -> 2 <= zlen l ->
  sys_boot A fwd p2l servos axs junk mem = Ok s0 ->
  sys_run A fwd inv l2p p2l limits pinMap print sgn s0 stims = Ok (s, tr) -> arrivals stims = [] ->
  (k < length (started tr))%nat ->
  nth_error (started tr) k = nth_error l (Z.to_nat (1 + Z.of_nat k mod (zlen l - 1))).
Proof.
  intros A fwd inv l2p p2l limits pinMap print sgn servos axs junk mem l s0 stims s tr k J H L80 L2 B R AR K.
  destruct (boot_run A fwd p2l sgn junk mem l axs servos s0 J H L80 B) as (CI & RX & _ & _).
  destruct (run_spec A fwd inv l2p p2l limits pinMap print sgn _ _ _ _ _ CI RX R) as (MA & _ & _); [rewrite AR; exact I|].
  pose proof (serial_fifo A fwd inv l2p p2l limits pinMap print sgn _ _ _ _ R) as SF. rewrite RX, AR in SF. apply app_eq_nil in SF as [HN _].
  rewrite started_taken, MA in *.
  apply (replay_run l (mcp_events tr) 0); auto; try lia.
  - rewrite <- chars_handed in HN. clear - HN. induction (mcp_events tr) as [|[c|b] es IH]; constructor; try exact I; try discriminate. apply IH. exact HN.
  - cbn [spec_boot smode]. destruct l; [exfalso; change (zlen (@nil (list Z))) with 0 in L2; lia|reflexivity].
Qed.
Print Assumptions C08_replay_in_order_partial.

(** ** C32 for the whole controller *)

(** Whatever arrives on the serial port, on every schedule, in any arithmetic: no joint servo is ever
    commanded to an angle outside of its limits. *)
Theorem C32_system_never_outside : forall (A : arith) fwd inv l2p p2l limits pinMap print sgn servos axs junk mem s0 stims s tr i v a,
  sys_boot A fwd p2l servos axs junk mem = Ok s0 ->
  sys_run A fwd inv l2p p2l limits pinMap print sgn s0 stims = Ok (s, tr) ->
  In (i, v, a) (commanded tr) ->
  0 <= i < 6 /\ not_outside A a (s_min (at6 servos i)) (s_max (at6 servos i)).
Proof.
  intros A fwd inv l2p p2l limits pinMap print sgn servos axs junk mem s0 stims s tr i v a B R IN.
  destruct (robot_projection A fwd inv l2p p2l limits pinMap print sgn _ _ _ _ R) as (os & evs & RR & SC & _).
  rewrite <- SC in IN.
  destruct (C32_never_outside A fwd inv l2p p2l limits os _ _ _ i v a RR IN) as [I6 NO]. split; [exact I6|].
  unfold sys_boot in B. destruct (c_boot junk mem); cbn [bind] in B; [|discriminate]. injection B as <-. exact NO.
Qed.
Print Assumptions C32_system_never_outside.

(** In exact arithmetic the joint servos are at all times inside of their limits (and so are their
    targets), and no timer interrupt of theirs faults. *)
Theorem C32_system_servos_inside : forall fwd inv l2p p2l limits pinMap print sgn (servos : V6 (servo RA)) axs junk mem s0 stims s tr,
  axes (fun i => let x := at6 servos i in
    (s_min x < s_max x)%R /\ 0 <= s_minF x <= 2147483647 /\ 0 <= s_maxF x <= 2147483647 /\
    (s_min x <= s_start x <= s_max x)%R /\ (s_min x <= s_cur x <= s_max x)%R /\
    (s_min x <= s_target x <= s_max x)%R /\ (1 / 10 <= s_maxvel x)%R /\ (0 < s_vel x <= s_maxvel x)%R) ->
  sys_boot RA fwd p2l servos axs junk mem = Ok s0 ->
  sys_run RA fwd inv l2p p2l limits pinMap print sgn s0 stims = Ok (s, tr) ->
  axes (fun i => let x := at6 (r_servos (d_robot (y_dev s))) i in
    (s_min (at6 servos i) <= s_cur x <= s_max (at6 servos i))%R /\
    (s_min (at6 servos i) <= s_target x <= s_max (at6 servos i))%R /\
    (0 < s_vel x <= s_maxvel x)%R) /\
  forall dt, exists r, r_tick RA (d_robot (y_dev s)) dt = Ok r.
Proof.
  intros fwd inv l2p p2l limits pinMap print sgn servos axs junk mem s0 stims s tr H B R.
  destruct (robot_projection RA fwd inv l2p p2l limits pinMap print sgn _ _ _ _ R) as (os & evs & RR & _ & _).
  unfold sys_boot in B. destruct (c_boot junk mem); cbn [bind] in B; [|discriminate]. injection B as <-.
  apply (C32_servos_stay_inside fwd inv l2p p2l limits servos (OMethod LINEAR :: OVel (fofz RA 10) :: os) (d_robot (y_dev s)) evs H).
  cbn [r_run r_step bind]. cbn [y_dev dev_boot d_robot] in RR. rewrite RR. reflexivity.
Qed.
Print Assumptions C32_system_servos_inside.

(** ** Examples *)
(** two instructions of PropSystem's example: the first is started and waits; the loop is at PMril at 20 ms
    with one instruction waiting *)
Example C56_reachable : forall (A : arith) fwd inv l2p p2l limits pinMap print sgn servos axs,
  exists s0 s tr s' tr', sys_boot A fwd p2l servos axs (repeat 0 300) (repeat 0 2048) = Ok s0 /\
    sys_run A fwd inv l2p p2l limits pinMap print sgn s0 (firstn 37 demo_stims) = Ok (s, tr) /\ y_phase s = PMril /\
    all_finished (y_dev s) 20 (fun _ _ => false) /\ room (spec_boot []) (mcp_events tr) /\
    wanted (commands [] (map CChar (handed tr))) = started tr ++ [78; 50; 68; 53] :: [] /\
    sys_run A fwd inv l2p p2l limits pinMap print sgn s (SRun 20 (fun _ _ => false) :: [SArrive 58] ++ [SRun 21 (fun _ _ => false)]) = Ok (s', tr') /\
    started tr' = [[78; 50; 68; 53]].
Proof.
  intros. do 5 eexists. split; [vm_compute; reflexivity|]. split; [vm_compute; reflexivity|].
  splits; try (vm_compute; reflexivity); [|vm_compute; splits; auto; discriminate].
  split; [intros k p st Hk; vm_compute in Hk; destruct k; discriminate|]. split; vm_compute; reflexivity.
Qed.
(** all 12 bytes have been read after 17 steps of the main loop *)
Example C47_reachable : zlen demo_bytes + 5 + 5 * (zlen demo_bytes / 30) = 17 /\
  arrivals (firstn 12 demo_stims) = demo_bytes /\ loop_steps (skipn 12 (firstn 29 demo_stims)) = 17.
Proof. vm_compute. auto. Qed.
(** the host of the example is never more than 10 bytes ahead *)
Example C55_reachable : forall pre post, demo_stims = pre ++ post ->
  0 <= space (wanted (commands [] (map CChar (arrivals pre)))) <= 10.
Proof.
  intros pre post E. assert (K : forall n, (n <= 44)%nat -> 0 <= space (wanted (commands [] (map CChar (arrivals (firstn n demo_stims))))) <= 10).
  { intros n L. do 45 (destruct n as [|n]; [vm_compute; split; discriminate|]). lia. }
  assert (P : pre = firstn (length pre) demo_stims) by (rewrite E, firstn_app, firstn_all, Nat.sub_diag, firstn_O, app_nil_r; reflexivity).
  rewrite P. apply K. assert (L : length demo_stims = 44%nat) by reflexivity. rewrite E, app_length in L. lia.
Qed.
(** a stored program D1, D2, D3 *)
Definition idle_loops (n : nat) : list stim := flat_map (fun k => repeat (SRun (100 * Z.of_nat k) (fun _ _ => false)) 5 ++ [STick]) (seq 1 n).
Definition demo_log : list (list Z) := [[68; 49]; [68; 50]; [68; 51]].
Definition demo_mem : list Z := image demo_log ++ repeat 0 (2048 - length (image demo_log)).
Example C08_replay_reachable : forall (A : arith) fwd inv l2p p2l limits pinMap print servos axs,
  exists s0 s tr, sys_boot A fwd p2l servos axs (repeat 0 300) demo_mem = Ok s0 /\ holds true demo_mem demo_log /\
    sys_run A fwd inv l2p p2l limits pinMap print true s0 (filter (fun x => match x with STick => false | _ => true end) (idle_loops 5)) = Ok (s, tr) /\
    started tr = [[68; 50]; [68; 51]; [68; 50]; [68; 51]; [68; 50]].
Proof.
  intros. do 3 eexists. split; [vm_compute; reflexivity|]. split; [|split; vm_compute; reflexivity].
  split; [reflexivity|]. split; [|exists (repeat 0 (2048 - length (image demo_log))); reflexivity].
  vm_compute. repeat (constructor; try (split; [discriminate|])); try reflexivity; try discriminate.
Qed.
(** ":N5M0R115" CR: joint 1 to 15 degrees, point to point.  All six servos are commanded once, inside their
    limits; the acknowledgements are N05 and N15; between them the raw line of C46 *)
Definition demo_move : list Z := [58; 78; 53; 77; 48; 82; 49; 49; 53; 13].
Definition demo_system (stims : list stim) : res (sys IF * list (sys_ev IF)) :=
  do s0 <- sys_boot IF (fun a => a) (fun a => a) demo_servos [demo_s; demo_s] (repeat 0 300) (repeat 0 2048);
  sys_run IF (fun a => a) demo_inv (fun a => a) (fun a => a) demo_limits [20; 21; 22; 23; 24; 25; 26; 27; 28; 29] (fun _ => [48]) true s0 stims.
Definition demo_moving : list stim := map SArrive demo_move ++ repeat (SRun 10 (fun _ _ => false)) 15 ++ idle_loops 120.
Example C32_system_reachable :
  match demo_system demo_moving with
  | Ok (s, tr) => map (fun c => fst (fst c)) (commanded tr) = [0; 1; 2; 3; 4; 5] /\ acks tr = [[78; 48; 53]; [78; 49; 53]] /\
      output tr = flat_map frame_of [[66; 50; 57; 49]; [78; 48; 53]] ++ [48; 13; 10] ++ frame_of [78; 49; 53]
  | Ub _ => False
  end.
Proof. vm_compute. splits; reflexivity. Qed.
