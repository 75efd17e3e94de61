(** Where executed instructions come from (C54), and output without P2P moves (C46). *)
From Verif Require Import Base Arith ServoModel RobotModel RobotProofs IoModel IoSpec IoProofs WaitModel RingModel RingSpec EepromModel EepromSpec MrilModel MrilSpec MrilProofs McpModel McpSpec McpProofs DeviceModel DeviceSpec DeviceProofs SystemModel SystemSpec SystemProofs SystemSafe SystemQueue SystemOutput.
Open Scope Z_scope.

(** ** instructions in queue and program *)
Definition PT (P : list Z -> Prop) (t : sstate) : Prop := Forall P (squeue t) /\ Forall P (slog t).
Lemma command_origin P t p : PT P t -> Forall P (frame_text p) ->
  PT P (fst (spec_command t p)) /\ Forall P (parsed (snd (spec_command t p))).
Proof.
  intros [Q L] S. unfold spec_command, frame_text in *. destruct p as [|c rest]; [cbn; unfold PT; auto|].
  assert (EN : forall m, P m -> Forall P (enqueue (squeue t) m)).
  { intros m Hm. unfold enqueue. destruct (_ <=? 300); [|exact Q]. apply Forall_app; auto. }
  assert (LA : forall m, P m -> Forall P (log_append (slog t) m)).
  { intros m Hm. unfold log_append. destruct m; [exact L|]. destruct (_ <=? 2048); [|exact L]. apply Forall_app; auto. }
  destruct (c =? 66); [cbn; unfold PT; auto|]. destruct (c =? 69); [inversion S; subst; cbn; unfold PT; auto|].
  destruct (c =? 81); cbn [orb] in S.
  - destruct rest; unfold PT; cbn [fst snd squeue slog parsed flat_map]; auto. inversion S; subst. auto.
  - destruct (c =? 87); cbn [orb] in S.
    + destruct rest; unfold PT; cbn [fst snd squeue slog parsed flat_map]; auto. inversion S; subst. auto.
    + inversion S; subst. unfold PT; cbn [fst snd squeue slog parsed flat_map]; auto.
Qed.
Lemma poll_origin P t b : PT P t -> PT P (fst (spec_poll t b)) /\ Forall P (parsed (snd (spec_poll t b))).
Proof.
  intros [Q L]. unfold spec_poll. destruct b; [|cbn; unfold PT; auto].
  destruct (smode t); try (cbn; unfold PT; auto; fail).
  - destruct (squeue t) as [|m q] eqn:E; [cbn; unfold PT; rewrite E; auto|]. inversion Q as [|? ? Hm Hq]; subst.
    unfold PT; cbn; auto.
  - cbn [fst snd]. split; [split; auto|]. set (i := if zlen (slog t) <=? snext t then 1 else snext t).
    destruct (nth_error (slog t) (Z.to_nat i)) as [m|] eqn:E; [|constructor]. cbn. constructor; [|constructor].
    rewrite Forall_forall in L. apply L. eapply nth_error_In; eauto.
Qed.
Lemma spec_run_origin P es : forall t, PT P t -> Forall (fun p => Forall P (frame_text p)) (commands (scur t) es) ->
  Forall (fun a => Forall P (parsed a)) (fst (spec_run t es)).
Proof.
  induction es as [|e es IH]; intros t H F; cbn [spec_run commands] in *; [constructor|].
  destruct e as [c|b]; cbn [spec_step] in *.
  - destruct (c =? 13).
    + inversion F as [|? ? F1 F2]; subst. destruct (command_origin P t _ H F1) as [C1 C2].
      destruct (spec_command t (payload (scur t))) as [t1 a]. cbn [fst snd] in *.
      specialize (IH (mkS (squeue t1) (slog t1) (snext t1) (smode t1) []) C1 F2).
      destruct (spec_run (mkS (squeue t1) (slog t1) (snext t1) (smode t1) []) es). constructor; auto.
    + specialize (IH (mkS (squeue t) (slog t) (snext t) (smode t) (scur t ++ [c])) H F).
      destruct (spec_run (mkS (squeue t) (slog t) (snext t) (smode t) (scur t ++ [c])) es). constructor; [constructor|auto].
  - destruct (poll_origin P t b H) as [C1 C2]. pose proof (poll_same_host t b) as [_ SC].
    destruct (spec_poll t b) as [t1 a]. cbn [fst snd] in *. rewrite SC in F. specialize (IH t1 C1 F).
    destruct (spec_run t1 es). constructor; auto.
Qed.

Section Origin.
Context (A : arith) (fwd : V6 (F A) -> V6 (F A)) (inv : V6 (F A) -> option (V6 (F A))).
Context (l2p p2l : V6 (F A) -> V6 (F A)) (limits : V6 (F A * F A)) (pinMap : list Z) (print : D A -> list Z) (sgn : bool).
Notation sys := (sys A).
Notation step := (sys_step A fwd inv l2p p2l limits pinMap print sgn).
Notation run := (sys_run A fwd inv l2p p2l limits pinMap print sgn).
Notation acts_run := (sys_acts A fwd p2l pinMap print).

Lemma executed_app (a b : list (sys_ev A)) : executed (a ++ b) = executed a ++ executed b.
Proof. apply flat_map_app. Qed.
Lemma executed_dev (e : list (dev_ev A)) : executed (map YDev e) = [].
Proof. induction e; auto. Qed.
Lemma acts_executed now l : forall d d' e, acts_run now d l = Ok (d', e) -> executed e = parsed l.
Proof.
  induction l as [|a l IH]; intros d d' e E; cbn [sys_acts] in E; [injection E as <- <-; reflexivity|].
  destruct (sys_act A fwd p2l pinMap print now d a) as [[d1 e1]|] eqn:S; cbn [bind] in E; [|discriminate].
  destruct (acts_run now d1 l) as [[d2 e2]|] eqn:R; cbn [bind] in E; [|discriminate]. injection E as <- <-.
  rewrite executed_app, (IH _ _ _ R). change (a :: l) with ([a] ++ l). unfold parsed. rewrite flat_map_app. f_equal.
  destruct a as [n|t]; cbn [sys_act] in S; [injection S as <- <-; reflexivity|].
  destruct (dev_parse A fwd p2l pinMap print now d t) as [[d3 e3]|]; cbn [bind] in S; [|discriminate]. injection S as <- <-.
  change (t :: executed (map (YDev (A := A)) e3) = [t]). now rewrite executed_dev.
Qed.
Lemma step_executed s x s' e : step s x = Ok (s', e) -> executed e = flat_map parsed (mcp_acts e).
Proof.
  intros S. pose proof S as S0. apply step_cases in S as [(_ & MA & _ & _ & _ & _)|(ev & acts & now & lv & d' & es & -> & -> & Q & _ & AR & _ & _)].
  - rewrite MA. cbn. destruct x as [c| |now lv]; cbn [sys_step] in S0.
    + injection S0 as <- <-. reflexivity.
    + destruct (dev_tick A (y_dev s)); cbn [bind] in S0; [|discriminate]. injection S0 as <- <-. reflexivity.
    + unfold sys_main in S0. destruct (y_phase s) as [| |k| |].
      * destruct (dev_robot A fwd inv l2p p2l limits print (y_dev s)) as [[d e1]|]; cbn [bind] in S0; [|discriminate]. injection S0 as <- <-. apply (executed_dev e1).
      * destruct (dev_robot A fwd inv l2p p2l limits print (y_dev s)) as [[d e1]|]; cbn [bind] in S0; [|discriminate]. injection S0 as <- <-. apply (executed_dev e1).
      * destruct (y_rx s) as [|c rx]; [injection S0 as <- <-; reflexivity|]. destruct (k <? READ_BYTES); [|injection S0 as <- <-; reflexivity].
        unfold sys_mcp in S0. destruct (c_step sgn (y_mcp s) (CChar c)) as [[m acts]|]; cbn [bind] in S0; [|discriminate].
        destruct (acts_run now (y_dev s) acts) as [[d evs]|]; cbn [bind] in S0; [|discriminate]. injection S0 as <- <-. discriminate MA.
      * destruct (dev_poll A now lv (y_dev s)) as [d e1]. injection S0 as <- <-. apply (executed_dev e1).
      * unfold sys_mcp in S0. destruct (c_step sgn (y_mcp s) (CPoll (mdone (d_mril (y_dev s))))) as [[m acts]|]; cbn [bind] in S0; [|discriminate].
        destruct (acts_run now (y_dev s) acts) as [[d evs]|]; cbn [bind] in S0; [|discriminate]. injection S0 as <- <-. discriminate MA.
  - destruct (quiet_events A es Q) as (_ & Q2 & _ & _). unfold mcp_acts in *. cbn [flat_map app]. rewrite Q2. cbn. rewrite app_nil_r.
    exact (acts_executed _ _ _ _ _ AR).
Qed.
Lemma run_executed l : forall s s' tr, run s l = Ok (s', tr) -> executed tr = flat_map parsed (mcp_acts tr).
Proof.
  induction l as [|x l IH]; intros s s' tr E; cbn [sys_run] in E; [injection E as <- <-; reflexivity|].
  destruct (step s x) as [[s1 e1]|] eqn:S; cbn [bind] in E; [|discriminate].
  destruct (run s1 l) as [[s2 e2]|] eqn:R; cbn [bind] in E; [|discriminate]. injection E as <- <-.
  destruct (proj_app A e1 e2) as (_ & -> & _ & _). rewrite executed_app, flat_map_app, (IH _ _ _ R), (step_executed _ _ _ _ S). reflexivity.
Qed.
Lemma executed_origin P s0 t0 stims s tr : CInv sgn (y_mcp s0) t0 -> scur t0 = [] -> y_rx s0 = [] -> PT P t0 -> run s0 stims = Ok (s, tr) ->
  host_ok t0 (map CChar (arrivals stims)) -> Forall (fun p => Forall P (frame_text p)) (commands [] (map CChar (arrivals stims))) ->
  Forall P (executed tr).
Proof.
  intros CI SC RX HP R HO FP. destruct (run_spec A fwd inv l2p p2l limits pinMap print sgn _ _ _ _ _ CI RX R HO) as (MA & _ & _).
  pose proof (serial_fifo _ _ _ _ _ _ _ _ _ _ _ _ _ R) as SF. rewrite RX in SF. cbn [app] in SF.
  assert (FE : Forall (fun p => Forall P (frame_text p)) (commands (scur t0) (mcp_events tr))).
  { rewrite SC, handed_commands. rewrite <- SF, map_app in FP. eapply Forall_commands. exact FP. }
  pose proof (spec_run_origin P _ _ HP FE) as O. rewrite <- MA in O.
  rewrite (run_executed _ _ _ _ R). clear - O. induction O; cbn; [constructor|]. apply Forall_app; auto.
Qed.

(** ** no raw lines without P2P moves *)
Definition modeless (c : Z) : Prop := c <> 77 /\ c <> 35 /\ c <> 40.
Definition calm (a : act) : Prop := match a with AMethod _ | ABreakPrint => False | _ => True end.
Lemma command_calm cmd n acts ty n' : Forall modeless cmd -> mril_command cmd n = Ok (acts, ty, n') -> Forall calm acts.
Proof.
  unfold mril_command. destruct cmd as [|sym body]; [discriminate|]. intros H. inversion H as [|? ? [M _] _]; subst. clear H.
  destruct (MRIL_COMMAND_SIZE <=? zlen (sym :: body)); [discriminate|].
  set (ty0 := if sym =? 78 then NONE else match body with [] => READ | _ => WRITE end).
  destruct (Z.eqb_spec sym 77); [contradiction|].
  destruct (sym =? 86). { destruct ty0; intros E; injection E as <- _ _; repeat constructor. }
  destruct (pose_index sym) as [i|]. { destruct ty0; intros E; injection E as <- _ _; repeat constructor. }
  destruct (sym =? 82).
  { destruct (cmd_at (sym :: body) 1) as [c1|]; cbn [bind]; [|discriminate].
    destruct (zlen (sym :: body) <=? 2); intros E; injection E as <- _ _; destruct (6 <=? digit_opt c1); repeat constructor. }
  destruct (sym =? 73). { destruct (cmd_at (sym :: body) 1); cbn [bind]; [|discriminate]. destruct (cmd_at (sym :: body) 2); cbn [bind]; [|discriminate].
    intros E; injection E as <- _ _; repeat constructor. }
  destruct (sym =? 79). { destruct (cmd_at (sym :: body) 1); cbn [bind]; [|discriminate]. destruct (cmd_at (sym :: body) 2); cbn [bind]; [|discriminate].
    intros E; injection E as <- _ _; repeat constructor. }
  destruct (sym =? 68). { destruct (c_atoi body); cbn [bind]; [|discriminate]. intros E; injection E as <- _ _; repeat constructor. }
  destruct (sym =? 78). { destruct (c_atoi body); cbn [bind]; [|discriminate]. intros E; injection E as <- _ _; repeat constructor. }
  intros E; injection E as <- _ _; constructor.
Qed.
Lemma scan_calm cs : forall cmd ty n acts ty' n', Forall modeless cmd -> Forall modeless cs ->
  mril_scan cmd ty n cs = Ok (acts, ty', n') -> Forall calm acts.
Proof.
  induction cs as [|c rest IH]; intros cmd ty n acts ty' n' HC HS E; cbn [mril_scan] in E; [injection E as <- _ _; constructor|].
  inversion HS as [|? ? HC1 HS1]; subst. pose proof HC1 as (_ & N35 & N40).
  destruct (Z.eqb_spec c 35) as [|_]; [contradiction|]. destruct (Z.eqb_spec c 40) as [|_]; [contradiction|]. cbn [orb] in E.
  assert (HC2 : Forall modeless (cmd ++ [c])) by (apply Forall_app; auto).
  destruct (mril_accepts c); [|exact (IH _ _ _ _ _ _ HC HS1 E)]. destruct (zlen cmd <? MRIL_COMMAND_SIZE); [|discriminate].
  destruct (cmd_finished rest); [|exact (IH _ _ _ _ _ _ HC2 HS1 E)].
  destruct (mril_command (cmd ++ [c]) n) as [[[a1 t1] n1]|] eqn:C; cbn [bind] in E; [|discriminate].
  destruct (mril_scan [] t1 n1 rest) as [[[a2 t2] n2]|] eqn:R; cbn [bind] in E; [|discriminate]. injection E as <- _ _.
  apply Forall_app; split; [eapply command_calm; [exact HC2|exact C]|]. eapply IH; [|exact HS1|exact R]. constructor.
Qed.
Definition unprinted (e : dev_ev A) : Prop := match e with DPrint _ => False | _ => True end.
Lemma exec_calm now acts : forall d buf d' buf' e, Forall calm acts ->
  exec_acts A fwd p2l pinMap print now d buf acts = Ok (d', buf', e) -> Forall unprinted e /\ r_method (d_robot d') = r_method (d_robot d).
Proof.
  induction acts as [|a acts IH]; intros d buf d' buf' e IT E; cbn [exec_acts] in E; [injection E as <- _ <-; split; [constructor|reflexivity]|].
  destruct (exec_act A fwd p2l pinMap print now d buf a) as [[[d1 b1] e1]|] eqn:EA; cbn [bind] in E; [|discriminate].
  destruct (exec_acts A fwd p2l pinMap print now d1 b1 acts) as [[[d2 b2] e2]|] eqn:ER; cbn [bind] in E; [|discriminate].
  injection E as <- _ <-. inversion IT as [|? ? IA IT']; subst.
  assert (K : Forall unprinted e1 /\ r_method (d_robot d1) = r_method (d_robot d)).
  { clear IH ER. destruct a as [| |m|v|v|i x|i x|i x|pin st|pin st|ms|n|r|[n|]|]; cbn [exec_act] in EA; try contradiction;
      try (injection EA as <- _ <-; split; [repeat constructor|reflexivity]; fail).
    - destruct (set_angle A (d_robot d) i (arg_float A x)) as [r|] eqn:SA; cbn [bind] in EA; [|discriminate]. injection EA as <- _ <-. split; [constructor|].
      unfold set_angle in SA. destruct ((0 <=? i) && (i <? 6)); [|discriminate]. injection SA as <-. reflexivity.
    - destruct (zget (d_axes d) i); cbn [bind] in EA; [|discriminate]. destruct (zset _ _ _); cbn [bind] in EA; [|discriminate].
      injection EA as <- _ <-. split; [repeat constructor|reflexivity].
    - destruct (io_addCondition pinMap (d_io d) pin st) as [[ps io]|]; cbn [bind] in EA; [|discriminate]. injection EA as <- _ <-. split; [|reflexivity].
      clear. induction ps; constructor; auto. exact I.
    - destruct (io_setOutput pinMap pin st) as [ps|]; cbn [bind] in EA; [|discriminate]. injection EA as <- _ <-. split; [|reflexivity].
      clear. induction ps; constructor; auto. exact I.
    - destruct (read_item A fwd p2l print d r) as [t|] eqn:RI; cbn [bind] in EA; [|discriminate]. injection EA as <- _ <-. split; [constructor|reflexivity]. }
  destruct K as [K1 K2]. destruct (IH _ _ _ _ _ IT' ER) as [I1 I2]. split; [apply Forall_app; auto|congruence].
Qed.
Lemma parse_calm now d text d' e : Forall modeless text -> dev_parse A fwd p2l pinMap print now d text = Ok (d', e) ->
  Forall unprinted e /\ r_method (d_robot d') = r_method (d_robot d).
Proof.
  intros HT. unfold dev_parse. destruct (mril_parse text) as [[acts num]|] eqn:MP; cbn [bind]; [|discriminate].
  destruct (exec_acts A fwd p2l pinMap print now d [] acts) as [[[d1 b1] e1]|] eqn:EX; cbn [bind]; [|discriminate].
  intros E. injection E as <- <-. cbn [d_robot with_mril]. eapply exec_calm; [|exact EX].
  unfold mril_parse in MP. destruct text as [|c r]; [injection MP as <- _; constructor|].
  destruct (mril_scan [] NONE (-1) (c :: r)) as [[[a ty] n]|] eqn:S; cbn [bind] in MP; [|discriminate]. injection MP as <- _.
  constructor; [exact I|]. apply Forall_app; split; [exact (scan_calm _ _ _ _ _ _ _ (Forall_nil _) HT S)|]. constructor; [exact I|]. destruct ty; repeat constructor.
Qed.
Definition noprint_r (e : rev A) : Prop := match e with EvPrint _ => False | _ => True end.
Lemma start_calm r r' evs : r_method r = LINEAR -> r_start_move A fwd inv l2p p2l limits r = Ok (r', evs) -> Forall noprint_r evs /\ r_method r' = LINEAR.
Proof.
  intros M E. split; [|apply start_move_frame in E as (-> & _); exact M].
  unfold r_start_move, r_plan in E. cbn [r_method with_steps] in E. rewrite M in E. cbn [bind] in E.
  destruct (inv _) eqn:V; cbn [bind] in E; [|injection E as _ <-; repeat constructor].
  destruct (outside _ _ _ _); [injection E as _ <-; repeat constructor|].
  destruct (outside _ _ _ _); [injection E as _ <-; repeat constructor|].
  destruct (negb _); injection E as _ <-; repeat constructor.
Qed.
Lemma process_calm r r' evs : r_method r = LINEAR -> r_process A fwd inv l2p p2l limits r = Ok (r', evs) -> Forall noprint_r evs /\ r_method r' = LINEAR.
Proof.
  intros M. unfold r_process. destruct (r_state r).
  - intros E. injection E as <- <-. split; [constructor|exact M].
  - destruct (all_at_target A r); [|intros E; injection E as <- <-; split; [constructor|exact M]].
    destruct (r_cur r =? r_total r); [intros E; injection E as <- <-; split; [constructor|exact M]|]. apply start_calm. exact M.
  - apply start_calm. exact M.
  - unfold r_prepare. destruct (r_trans r); [intros E; injection E as <- <-; split; [constructor|exact M]|].
    set (r1 := if r_achg r then _ else _).
    assert (N1 : r_method r1 = LINEAR) by (unfold r1; destruct (r_achg r); [exact M|]; destruct (r_pchg r); exact M).
    clearbody r1. destruct (r_pchg r && r_achg r); [intros E; injection E as <- <-; split; [constructor|exact N1]|].
    set (r3 := with_starts A _ _ _). assert (N3 : r_method r3 = LINEAR) by exact N1. clearbody r3. cbv zeta.
    destruct (angles_equal A (r_startA r3) (r_targetA r3)); [intros E; injection E as <- <-; split; [constructor|exact N3]|].
    rewrite N3. destruct (linear_steps A (r_startP r3) (r_targetP r3)) as [n|]; cbn [bind]; [|discriminate].
    apply start_calm. exact N3.
Qed.
Lemma robot_calm d d' e : r_method (d_robot d) = LINEAR -> dev_robot A fwd inv l2p p2l limits print d = Ok (d', e) ->
  Forall unprinted e /\ r_method (d_robot d') = LINEAR.
Proof.
  intros M. unfold dev_robot. destruct (r_process A fwd inv l2p p2l limits (d_robot d)) as [[r evs]|] eqn:P; cbn [bind]; [|discriminate].
  intros E. injection E as <- <-. destruct (process_calm _ _ _ M P) as [P1 P2]. split; [|exact P2].
  clear - P1. induction P1 as [|x l H _ IH]; [constructor|]. cbn [flat_map]. apply Forall_app; split; [|exact IH].
  destruct x; [contradiction| |]; repeat constructor.
Qed.
Definition unprinted_ev (e : sys_ev A) : Prop := match e with YDev d => unprinted d | _ => True end.
Lemma calm_dev e : Forall unprinted e -> Forall unprinted_ev (map YDev e).
Proof. induction 1; constructor; auto. Qed.
Lemma acts_calm now l : forall d d' e, acts_run now d l = Ok (d', e) -> Forall (Forall modeless) (parsed l) ->
  Forall unprinted_ev e /\ r_method (d_robot d') = r_method (d_robot d).
Proof.
  induction l as [|a l IH]; intros d d' e E H; cbn [sys_acts] in E; [injection E as <- <-; split; [constructor|reflexivity]|].
  destruct (sys_act A fwd p2l pinMap print now d a) as [[d1 e1]|] eqn:S; cbn [bind] in E; [|discriminate].
  destruct (acts_run now d1 l) as [[d2 e2]|] eqn:R; cbn [bind] in E; [|discriminate]. injection E as <- <-.
  unfold parsed in H. cbn [flat_map] in H. apply Forall_app in H as [H1 H2].
  destruct (IH _ _ _ R H2) as [I1 I2]. rewrite I2.
  destruct a as [n|t]; cbn [sys_act] in S.
  - injection S as <- <-. split; [|reflexivity]. constructor; [exact I|exact I1].
  - destruct (dev_parse A fwd p2l pinMap print now d t) as [[d3 e3]|] eqn:P; cbn [bind] in S; [|discriminate]. injection S as <- <-.
    inversion H1; subst. destruct (parse_calm _ _ _ _ _ H3 P) as [P1 P2]. split; [|exact P2].
    constructor; [exact I|]. apply Forall_app; split; [apply calm_dev; exact P1|exact I1].
Qed.
Lemma step_calm s x s' e : r_method (d_robot (y_dev s)) = LINEAR -> step s x = Ok (s', e) -> Forall (Forall modeless) (executed e) ->
  Forall unprinted_ev e /\ r_method (d_robot (y_dev s')) = LINEAR.
Proof.
  intros M S X. pose proof (step_executed _ _ _ _ S) as SE. rewrite SE in X. clear SE.
  destruct x as [c| |now lv]; cbn [sys_step] in S.
  - injection S as <- <-. split; [constructor|exact M].
  - destruct (dev_tick A (y_dev s)) as [d|] eqn:T; cbn [bind] in S; [|discriminate]. injection S as <- <-. split; [constructor|].
    unfold dev_tick in T. destruct (r_tick A (d_robot (y_dev s)) 20) as [r|] eqn:RT; cbn [bind] in T; [|discriminate].
    destruct (tick_axes A (d_axes (y_dev s)) 20); cbn [bind] in T; [|discriminate]. injection T as <-.
    apply tick_frame in RT as [sv ->]. exact M.
  - unfold sys_main in S. destruct (y_phase s) as [| |k| |].
    + destruct (dev_robot A fwd inv l2p p2l limits print (y_dev s)) as [[d e1]|] eqn:R; cbn [bind] in S; [|discriminate].
      injection S as <- <-. destruct (robot_calm _ _ _ M R). split; [constructor; [exact I|apply calm_dev; auto]|auto].
    + destruct (dev_robot A fwd inv l2p p2l limits print (y_dev s)) as [[d e1]|] eqn:R; cbn [bind] in S; [|discriminate].
      injection S as <- <-. destruct (robot_calm _ _ _ M R). split; [apply calm_dev; auto|auto].
    + destruct (y_rx s) as [|c rx]; [injection S as <- <-; split; [constructor|exact M]|].
      destruct (k <? READ_BYTES); [|injection S as <- <-; split; [constructor|exact M]].
      unfold sys_mcp in S. destruct (c_step sgn (y_mcp s) (CChar c)) as [[m acts]|]; cbn [bind] in S; [|discriminate].
      destruct (acts_run now (y_dev s) acts) as [[d evs]|] eqn:AR; cbn [bind] in S; [|discriminate]. injection S as <- <-.
      cbn [mcp_acts flat_map app] in X. apply Forall_app in X as [X _].
      destruct (acts_calm _ _ _ _ _ AR X) as [C1 C2]. cbn [y_dev]. rewrite C2. split; [constructor; [exact I|exact C1]|exact M].
    + destruct (dev_poll_cases A (y_dev s) now lv) as [[_ E]|[_ (io & _ & E)]]; rewrite E in S; injection S as <- <-; (split; [|exact M]).
      * constructor; [exact I|]. destruct (0 <? pending (d_mril (y_dev s))); repeat constructor.
      * repeat constructor.
    + unfold sys_mcp in S. destruct (c_step sgn (y_mcp s) (CPoll (mdone (d_mril (y_dev s))))) as [[m acts]|]; cbn [bind] in S; [|discriminate].
      destruct (acts_run now (y_dev s) acts) as [[d evs]|] eqn:AR; cbn [bind] in S; [|discriminate]. injection S as <- <-.
      cbn [mcp_acts flat_map app] in X. apply Forall_app in X as [X _].
      destruct (acts_calm _ _ _ _ _ AR X) as [C1 C2]. cbn [y_dev]. rewrite C2. split; [constructor; [exact I|exact C1]|exact M].
Qed.
Lemma run_calm l : forall s s' tr, r_method (d_robot (y_dev s)) = LINEAR -> run s l = Ok (s', tr) -> Forall (Forall modeless) (executed tr) ->
  Forall unprinted_ev tr.
Proof.
  induction l as [|x l IH]; intros s s' tr M E X; cbn [sys_run] in E; [injection E as <- <-; constructor|].
  destruct (step s x) as [[s1 e1]|] eqn:S; cbn [bind] in E; [|discriminate].
  destruct (run s1 l) as [[s2 e2]|] eqn:R; cbn [bind] in E; [|discriminate]. injection E as <- <-.
  rewrite executed_app in X. apply Forall_app in X as [X1 X2]. destruct (step_calm _ _ _ _ M S X1) as [C1 C2].
  apply Forall_app; split; [exact C1|eapply IH; eauto].
Qed.
Lemma unprinted_output tr : Forall unprinted_ev tr -> output tr = flat_map frame_of (messages tr).
Proof.
  induction 1 as [|e tr H _ IH]; [reflexivity|]. unfold output, messages in *. cbn [flat_map]. rewrite flat_map_app, IH. f_equal.
  destruct e as [|? ?|?|?|e]; try reflexivity. destruct e; try contradiction; try reflexivity. cbn. now rewrite app_nil_r.
Qed.
(** characters of commands come from the bytes received *)
Lemma payload_modeless f : Forall (fun c => c <> 77 /\ c <> 109) f -> Forall modeless (payload f).
Proof.
  intros H. unfold payload. destruct (existsb is_colon (comment_part f)); [constructor|]. unfold clean.
  assert (K : forall l, Forall (fun c => c <> 77 /\ c <> 109) l -> Forall (fun c => c <> 77 /\ c <> 109) (after_colon (code_part l))).
  { assert (K1 : forall l, Forall (fun c => c <> 77 /\ c <> 109) l -> Forall (fun c => c <> 77 /\ c <> 109) (code_part l)).
    { induction l as [|c l IH]; intros X; [constructor|]. inversion X; subst. cbn [code_part]. destruct (is_comment c); constructor; auto. }
    assert (K2 : forall l, Forall (fun c => c <> 77 /\ c <> 109) l -> Forall (fun c => c <> 77 /\ c <> 109) (after_colon l)).
    { induction l as [|c l IH]; intros X; [constructor|]. inversion X; subst. cbn [after_colon].
      destruct (existsb is_colon l); auto. destruct (is_colon c); auto. }
    auto. }
  specialize (K _ H). clear H. induction K as [|c l [N1 N2] _ IH]; [constructor|]. cbn [map filter].
  destruct (payload_char (upper c)) eqn:PC; [|exact IH]. constructor; [|exact IH]. clear IH.
  unfold modeless. repeat split; [|intros E; rewrite E in PC; discriminate..].
  unfold upper. destruct ((97 <=? c) && (c <=? 122)) eqn:B; lia.
Qed.
Lemma commands_modeless bs : forall cur, Forall (fun c => c <> 77 /\ c <> 109) cur -> Forall (fun c => c <> 77 /\ c <> 109) bs ->
  Forall (Forall modeless) (commands cur (map CChar bs)).
Proof.
  induction bs as [|c bs IH]; intros cur HC HB; cbn [map commands]; [constructor|]. inversion HB; subst.
  destruct (c =? 13); [constructor; [apply payload_modeless; exact HC|apply IH; auto]|apply IH; auto]. apply Forall_app; auto.
Qed.
Lemma frame_text_sub (P : Z -> Prop) p : Forall P p -> Forall (Forall P) (frame_text p).
Proof.
  intros H. unfold frame_text. destruct p as [|c rest]; [constructor|]. inversion H; subst.
  destruct (c =? 66); [constructor|]. destruct (c =? 69); [repeat constructor; auto|].
  destruct ((c =? 81) || (c =? 87)); [destruct rest; repeat constructor; inversion H3; auto|]. repeat constructor; auto.
Qed.
End Origin.
