(** Output (C46) and where executed instructions come from (C54). *)
From Verif Require Import Base Arith ServoModel RobotModel RobotProofs IoModel IoSpec IoProofs WaitModel RingModel RingSpec EepromModel EepromSpec MrilModel MrilSpec MrilProofs McpModel McpSpec McpProofs DeviceModel DeviceSpec DeviceProofs SystemModel SystemSpec SystemProofs SystemSafe SystemQueue.
Open Scope Z_scope.

(** ** lines *)
Definition noLF (t : list Z) : Prop := Forall (fun c => c <> 10) t.
Lemma lines_line t : forall cur b, noLF t -> lines cur (t ++ 10 :: b) = (cur ++ t) :: lines [] b.
Proof.
  induction t as [|c t IH]; intros cur b H; cbn [app lines].
  - now rewrite Z.eqb_refl, app_nil_r.
  - inversion H; subst. destruct (Z.eqb_spec c 10); [contradiction|]. rewrite IH by assumption. now rewrite <- app_assoc.
Qed.
Lemma reads_frame t b : noLF t -> host_reads (58 :: t ++ [13; 10] ++ b) = t :: host_reads b.
Proof.
  intros H. unfold host_reads. replace (58 :: t ++ [13; 10] ++ b) with ((58 :: t ++ [13]) ++ 10 :: b) by (cbn; now rewrite <- app_assoc).
  rewrite lines_line; [|constructor; [lia|]; apply Forall_app; split; [exact H|repeat constructor; lia]].
  cbn [app flat_map]. rewrite Z.eqb_refl, removelast_last. reflexivity.
Qed.
Lemma reads_noise t b : hd 0 t <> 58 -> noLF t -> host_reads (t ++ [13; 10] ++ b) = host_reads b.
Proof.
  intros N H. unfold host_reads. replace (t ++ [13; 10] ++ b) with ((t ++ [13]) ++ 10 :: b) by (cbn; now rewrite <- app_assoc).
  rewrite lines_line; [|apply Forall_app; split; [exact H|repeat constructor; lia]].
  destruct t as [|c t]; cbn [app flat_map]; [reflexivity|]. cbn in N. destruct (Z.eqb_spec c 58); [contradiction|reflexivity].
Qed.

Section Out.
Context (A : arith) (fwd : V6 (F A) -> V6 (F A)) (inv : V6 (F A) -> option (V6 (F A))).
Context (l2p p2l : V6 (F A) -> V6 (F A)) (limits : V6 (F A * F A)) (pinMap : list Z) (print : D A -> list Z) (sgn : bool).
Notation sys := (sys A).
Notation step := (sys_step A fwd inv l2p p2l limits pinMap print sgn).
Notation run := (sys_run A fwd inv l2p p2l limits pinMap print sgn).
Notation acts_run := (sys_acts A fwd p2l pinMap print).

(** a well-behaved output item *)
Definition neat (e : dev_ev A) : Prop :=
  match e with DSend t => noLF t | DPrint t => noLF t /\ hd 0 t <> 58 | _ => True end.
Definition neat_ev (e : sys_ev A) : Prop := match e with YDev d => neat d | _ => True end.
Lemma wire_reads tr b : wire tr b -> Forall neat_ev tr -> host_reads b = messages tr.
Proof.
  induction 1 as [|e tr b W IH|t tr b N L W IH]; intros H.
  - reflexivity.
  - inversion H; subst. unfold messages in *. cbn [flat_map]. rewrite <- (IH H3).
    destruct e as [|? ?|?|?|e]; try reflexivity. destruct e as [t|t|?|? ? ?|? ?|?]; try reflexivity; cbn [out_bytes app] in *.
    + rewrite <- app_assoc. apply reads_frame. exact H2.
    + rewrite <- app_assoc. destruct H2. apply reads_noise; auto.
  - rewrite <- (IH H). apply reads_noise; auto.
Qed.

Context (PP : plain_print print).
Lemma print_noLF x : noLF (print x).
Proof. eapply Forall_impl; [|apply PP]. cbn. tauto. Qed.
Lemma print_hd x : hd 0 (print x) <> 58.
Proof. pose proof (PP x) as H. destruct (print x) as [|c r]; cbn; [lia|]. inversion H; tauto. Qed.
Lemma uint_noLF u : noLF (uint_chars u).
Proof. induction u; cbn; constructor; auto; lia. Qed.
Lemma int_noLF n : noLF (int_chars n).
Proof. unfold int_chars. destruct (Z.to_int n); [apply uint_noLF|constructor; [lia|apply uint_noLF]]. Qed.
Lemma item_noLF d r t : read_item A fwd p2l print d r = Ok t -> (match r with RPose s _ => s <> 10 | _ => True end) -> noLF t.
Proof.
  destruct r as [| |s i|i|o i]; cbn [read_item]; intros E NS.
  - injection E as <-. constructor; [lia|apply int_noLF].
  - injection E as <-. constructor; [lia|apply print_noLF].
  - injection E as <-. constructor; [exact NS|]. destruct (i <? 3); apply print_noLF.
  - injection E as <-. constructor; [lia|]. apply Forall_app; split; [apply int_noLF|apply print_noLF].
  - destruct (zget (d_axes d) i); cbn [bind] in E; [|discriminate]. injection E as <-.
    constructor; [lia|]. apply Forall_app; split; [apply int_noLF|apply print_noLF].
Qed.
(** read items of the parser carry capital letters *)
Definition item_ok (a : act) : Prop := match a with ARead (RPose s _) => s <> 10 | _ => True end.
Lemma command_items cmd n acts ty n' : mril_command cmd n = Ok (acts, ty, n') -> Forall item_ok acts.
Proof.
  unfold mril_command. destruct cmd as [|sym body]; [discriminate|]. destruct (MRIL_COMMAND_SIZE <=? zlen (sym :: body)); [discriminate|].
  set (ty0 := if sym =? 78 then NONE else match body with [] => READ | _ => WRITE end).
  assert (X : forall (x : Z) (b : res (list act * ctype * Z)), True) by auto. clear X.
  destruct (sym =? 77).
  { destruct ty0; [intros E; injection E as <- _ _; repeat constructor| |];
      (destruct (c_atoi body) as [k|]; cbn [bind]; [|discriminate]; intros E; injection E as <- _ _;
       destruct (k =? 0); [repeat constructor|]; destruct (k =? 1); repeat constructor). }
  destruct (sym =? 86). { destruct ty0; intros E; injection E as <- _ _; repeat constructor. }
  destruct (pose_index sym) as [i|] eqn:PI.
  { destruct ty0; intros E; injection E as <- _ _; repeat constructor. cbn. intros ->. discriminate. }
  destruct (sym =? 82).
  { destruct (cmd_at (sym :: body) 1) as [c1|]; cbn [bind]; [|discriminate].
    destruct (zlen (sym :: body) <=? 2); intros E; injection E as <- _ _; destruct (6 <=? digit_opt c1); repeat constructor. }
  destruct (sym =? 73). { destruct (cmd_at (sym :: body) 1); cbn [bind]; [|discriminate]. destruct (cmd_at (sym :: body) 2); cbn [bind]; [|discriminate].
    intros E; injection E as <- _ _; repeat constructor. }
  destruct (sym =? 79). { destruct (cmd_at (sym :: body) 1); cbn [bind]; [|discriminate]. destruct (cmd_at (sym :: body) 2); cbn [bind]; [|discriminate].
    intros E; injection E as <- _ _; repeat constructor. }
  destruct (sym =? 68). { destruct (c_atoi body); cbn [bind]; [|discriminate]. intros E; injection E as <- _ _; repeat constructor. }
  destruct (sym =? 78). { destruct (c_atoi body); cbn [bind]; [|discriminate]. intros E; injection E as <- _ _; repeat constructor. }
  intros E; injection E as <- _ _; constructor.
Qed.
Lemma scan_items cs : forall cmd ty n acts ty' n', mril_scan cmd ty n cs = Ok (acts, ty', n') -> Forall item_ok acts.
Proof.
  induction cs as [|c rest IH]; intros cmd ty n acts ty' n' E; cbn [mril_scan] in E; [injection E as <- _ _; constructor|].
  destruct ((c =? 35) || (c =? 40)); [injection E as <- _ _; repeat constructor|].
  destruct (mril_accepts c); [|eapply IH; eauto]. destruct (zlen cmd <? MRIL_COMMAND_SIZE); [|discriminate].
  destruct (cmd_finished rest); [|eapply IH; eauto].
  destruct (mril_command (cmd ++ [c]) n) as [[[a1 t1] n1]|] eqn:C; cbn [bind] in E; [|discriminate].
  destruct (mril_scan [] t1 n1 rest) as [[[a2 t2] n2]|] eqn:R; cbn [bind] in E; [|discriminate]. injection E as <- _ _.
  apply Forall_app; split; [eapply command_items; eauto|eapply IH; eauto].
Qed.
Lemma exec_neat now acts : forall d buf d' buf' e, Forall item_ok acts -> noLF buf ->
  exec_acts A fwd p2l pinMap print now d buf acts = Ok (d', buf', e) -> Forall neat e.
Proof.
  induction acts as [|a acts IH]; intros d buf d' buf' e IT BF E; cbn [exec_acts] in E; [injection E as <- _ <-; constructor|].
  destruct (exec_act A fwd p2l pinMap print now d buf a) as [[[d1 b1] e1]|] eqn:EA; cbn [bind] in E; [|discriminate].
  destruct (exec_acts A fwd p2l pinMap print now d1 b1 acts) as [[[d2 b2] e2]|] eqn:ER; cbn [bind] in E; [|discriminate].
  injection E as <- _ <-. inversion IT as [|? ? IA IT']; subst.
  assert (K : Forall neat e1 /\ noLF b1).
  { clear IH ER. destruct a as [| |m|v|v|i x|i x|i x|pin st|pin st|ms|n|r|[n|]|]; cbn [exec_act] in EA;
      try (injection EA as _ <- <-; split; [|exact BF]; repeat constructor; fail).
    - destruct (set_angle A (d_robot d) i (arg_float A x)); cbn [bind] in EA; [|discriminate]. injection EA as _ <- <-. split; [constructor|exact BF].
    - destruct (zget (d_axes d) i); cbn [bind] in EA; [|discriminate]. destruct (zset _ _ _); cbn [bind] in EA; [|discriminate].
      injection EA as _ <- <-. split; [repeat constructor|exact BF].
    - destruct (io_addCondition pinMap (d_io d) pin st) as [[ps io]|]; cbn [bind] in EA; [|discriminate]. injection EA as _ <- <-. split; [|exact BF].
      clear. induction ps; constructor; auto. exact I.
    - destruct (io_setOutput pinMap pin st) as [ps|]; cbn [bind] in EA; [|discriminate]. injection EA as _ <- <-. split; [|exact BF].
      clear. induction ps; constructor; auto. exact I.
    - injection EA as _ <- <-. split; [|exact BF]. constructor; [|constructor]. cbn. constructor; [lia|]. constructor; [lia|]. apply int_noLF.
    - destruct (read_item A fwd p2l print d r) as [t|] eqn:RI; cbn [bind] in EA; [|discriminate]. injection EA as _ <- <-.
      split; [constructor|]. apply Forall_app; split; [exact BF|]. eapply item_noLF; [exact RI|]. destruct r; auto.
    - injection EA as _ <- <-. split; [|exact BF]. constructor; [|constructor]. cbn. constructor; [lia|]. constructor; [lia|].
      apply Forall_app; split; [apply int_noLF|]. constructor; [lia|exact BF].
    - injection EA as _ <- <-. split; [|exact BF]. constructor; [exact BF|constructor].
    - injection EA as _ <- <-. split; [|exact BF]. constructor; [|constructor]. cbn. split; [|lia]. unfold noLF, comment_breaking. repeat constructor; lia. }
  destruct K. apply Forall_app; split; [assumption|]. eapply IH; eauto.
Qed.
Lemma parse_neat now d text d' e : dev_parse A fwd p2l pinMap print now d text = Ok (d', e) -> Forall neat e.
Proof.
  unfold dev_parse. destruct (mril_parse text) as [[acts num]|] eqn:MP; cbn [bind]; [|discriminate].
  destruct (exec_acts A fwd p2l pinMap print now d [] acts) as [[[d1 b1] e1]|] eqn:EX; cbn [bind]; [|discriminate].
  intros E. injection E as _ <-. eapply exec_neat; [|constructor|exact EX].
  unfold mril_parse in MP. destruct text as [|c r]; [injection MP as <- _; constructor|].
  destruct (mril_scan [] NONE (-1) (c :: r)) as [[[a ty] n]|] eqn:S; cbn [bind] in MP; [|discriminate]. injection MP as <- _.
  constructor; [exact I|]. apply Forall_app; split; [eapply scan_items; eauto|]. constructor; [exact I|]. destruct ty; repeat constructor.
Qed.
Lemma acts_neat now l : forall d d' e, acts_run now d l = Ok (d', e) -> Forall neat_ev e.
Proof.
  induction l as [|a l IH]; intros d d' e E; cbn [sys_acts] in E; [injection E as <- <-; constructor|].
  destruct (sys_act A fwd p2l pinMap print now d a) as [[d1 e1]|] eqn:S; cbn [bind] in E; [|discriminate].
  destruct (acts_run now d1 l) as [[d2 e2]|] eqn:R; cbn [bind] in E; [|discriminate]. injection E as <- <-.
  apply Forall_app; split; [|eapply IH; eauto].
  destruct a as [n|t]; cbn [sys_act] in S.
  - injection S as <- <-. constructor; [|constructor]. cbn. constructor; [lia|apply int_noLF].
  - destruct (dev_parse A fwd p2l pinMap print now d t) as [[d3 e3]|] eqn:P; cbn [bind] in S; [|discriminate]. injection S as <- <-.
    constructor; [exact I|]. apply parse_neat in P. clear - P. induction P; constructor; auto.
Qed.
Lemma robot_neat d d' e : dev_robot A fwd inv l2p p2l limits print d = Ok (d', e) -> Forall neat e.
Proof.
  unfold dev_robot. destruct (r_process A fwd inv l2p p2l limits (d_robot d)) as [[r evs]|]; cbn [bind]; [|discriminate].
  intros E. injection E as <- <-. induction evs as [|x evs IH]; [constructor|]. cbn [flat_map]. apply Forall_app; split; [|exact IH].
  destruct x; cbn; repeat constructor; [apply print_noLF|apply print_hd].
Qed.
Lemma neat_dev e : Forall neat e -> Forall neat_ev (map YDev e).
Proof. induction 1; constructor; auto. Qed.
Lemma step_neat s x s' e : step s x = Ok (s', e) -> Forall neat_ev e.
Proof.
  destruct x as [c| |now lv]; cbn [sys_step].
  - intros E. injection E as <- <-. constructor.
  - destruct (dev_tick A (y_dev s)); cbn [bind]; [|discriminate]. intros E. injection E as <- <-. constructor.
  - unfold sys_main. destruct (y_phase s) as [| |k| |].
    + destruct (dev_robot A fwd inv l2p p2l limits print (y_dev s)) as [[d e1]|] eqn:R; cbn [bind]; [|discriminate].
      intros E. injection E as <- <-. constructor; [exact I|]. apply neat_dev. eapply robot_neat; eauto.
    + destruct (dev_robot A fwd inv l2p p2l limits print (y_dev s)) as [[d e1]|] eqn:R; cbn [bind]; [|discriminate].
      intros E. injection E as <- <-. apply neat_dev. eapply robot_neat; eauto.
    + destruct (y_rx s) as [|c rx]; [intros E; injection E as <- <-; constructor|]. destruct (k <? READ_BYTES); [|intros E; injection E as <- <-; constructor].
      unfold sys_mcp. destruct (c_step sgn (y_mcp s) (CChar c)) as [[m acts]|]; cbn [bind]; [|discriminate].
      destruct (acts_run now (y_dev s) acts) as [[d evs]|] eqn:AR; cbn [bind]; [|discriminate].
      intros E. injection E as <- <-. constructor; [exact I|]. eapply acts_neat; eauto.
    + destruct (dev_poll_cases A (y_dev s) now lv) as [[_ E]|[_ (io & _ & E)]]; rewrite E; intros X; injection X as <- <-; constructor; try exact I; [|constructor].
      destruct (0 <? pending (d_mril (y_dev s))); [|constructor]. constructor; [|constructor]. cbn. constructor; [lia|]. constructor; [lia|]. apply int_noLF.
    + unfold sys_mcp. destruct (c_step sgn (y_mcp s) (CPoll (mdone (d_mril (y_dev s))))) as [[m acts]|]; cbn [bind]; [|discriminate].
      destruct (acts_run now (y_dev s) acts) as [[d evs]|] eqn:AR; cbn [bind]; [|discriminate].
      intros E. injection E as <- <-. constructor; [exact I|]. eapply acts_neat; eauto.
Qed.
Lemma run_neat l : forall s s' tr, run s l = Ok (s', tr) -> Forall neat_ev tr.
Proof.
  induction l as [|x l IH]; intros s s' tr E; cbn [sys_run] in E; [injection E as <- <-; constructor|].
  destruct (step s x) as [[s1 e1]|] eqn:S; cbn [bind] in E; [|discriminate].
  destruct (run s1 l) as [[s2 e2]|] eqn:R; cbn [bind] in E; [|discriminate]. injection E as <- <-.
  apply Forall_app; split; [eapply step_neat; eauto|eapply IH; eauto].
Qed.
End Out.
