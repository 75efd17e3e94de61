(** In the whole system, in any arithmetic: when the controller says it is done, the joints have arrived.  The proof of
    SystemMotion.v once more, with what is needed to know about one servo as hypotheses of the section. *)
From Verif Require Import Base Arith ServoModel ServoSpec RobotModel RobotSpec RobotProofs IoModel IoSpec WaitModel RingModel EepromModel EepromSpec MrilModel MrilSpec McpModel McpSpec McpProofs DeviceModel DeviceSpec DeviceProofs SystemModel SystemSpec SystemProofs SystemSafe SystemQueue SystemMore.
Open Scope Z_scope.

Section Arrive.
Context (A : arith).
Context (fwd : V6 (F A) -> V6 (F A)) (inv : V6 (F A) -> option (V6 (F A))) (l2p p2l : V6 (F A) -> V6 (F A)) (limits : V6 (F A * F A)).
Context (pinMap : list Z) (print : D A -> list Z) (sgn : bool).
(** [S K i x]: the state of servo i at most K ms after boot; [N i x]: it is at its target; [C v a]: a command that is allowed *)
Context (S : Z -> Z -> servo A -> Prop) (N : Z -> servo A -> Prop) (C : F A -> F A -> Prop).
Context (S_tick : forall K i (x x' : servo A) p, S K i x -> K + 20 < 4294967296 -> servo_process A x 20 = Ok (x', p) -> S (K + 20) i x').
Context (N_tick : forall K i (x x' : servo A) p, S K i x -> N i x -> K + 20 < 4294967296 -> servo_process A x 20 = Ok (x', p) -> N i x').
Context (S_cmd : forall K i (x : servo A) v a, 0 <= K -> S K i x -> C v a -> not_outside A a (s_min x) (s_max x) ->
  S K i (servo_set_target A (servo_set_vel A x v) a)).
Context (S_at : forall K i (x : servo A), S K i x -> servo_at_target A x = true -> N i x).
Notation step := (sys_step A fwd inv l2p p2l limits pinMap print sgn).
Notation run := (sys_run A fwd inv l2p p2l limits pinMap print sgn).
Notation process := (r_process A fwd inv l2p p2l limits).
Notation start_move := (r_start_move A fwd inv l2p p2l limits).
Notation exec := (exec_acts A fwd p2l pinMap print).
Definition allowed (cs : list (Z * F A * F A)) : Prop := Forall (fun '(i, v, a) => C v a) cs.

Definition there (r : robot A) : Prop := axes (fun i => N i (at6 (r_servos r) i)).
Definition GK (K : Z) (r : robot A) : Prop :=
  0 <= K /\ axes (fun i => S K i (at6 (r_servos r) i)) /\ (r_state r <> MOVING -> there r).

Lemma there_at K r : axes (fun i => S K i (at6 (r_servos r) i)) -> all_at_target A r = true -> there r.
Proof.
  unfold all_at_target, there, axes, list6. cbn [forallb at6]. rewrite !andb_true_iff.
  intros (S0 & S1 & S2 & S3 & S4 & S5) (H0 & H1 & H2 & H3 & H4 & H5 & _). splits; eapply S_at; eauto.
Qed.
Lemma GK_same K r r' : GK K r -> r_servos r' = r_servos r -> (r_state r' <> MOVING -> r_state r <> MOVING \/ there r) -> GK K r'.
Proof.
  intros (H0 & H2 & H3) E X. unfold GK, there in *. rewrite E. split; [exact H0|]. split; [exact H2|]. intros NM. destruct (X NM); auto.
Qed.
Lemma GK_tick K r r' : GK K r -> K + 20 < 4294967296 -> r_tick A r 20 = Ok r' -> GK (K + 20) r'.
Proof.
  intros (H0 & H2 & H3) L E. unfold axes in H2. cbn [at6] in H2. destruct H2 as (B0 & B1 & B2 & B3 & B4 & B5). unfold r_tick in E.
  destruct (servo_process A (v0 (r_servos r)) 20) as [[s0 p0]|] eqn:E0; cbn [bind] in E; [|discriminate].
  destruct (servo_process A (v1 (r_servos r)) 20) as [[s1 p1]|] eqn:E1; cbn [bind] in E; [|discriminate].
  destruct (servo_process A (v2 (r_servos r)) 20) as [[s2 p2]|] eqn:E2; cbn [bind] in E; [|discriminate].
  destruct (servo_process A (v3 (r_servos r)) 20) as [[s3 p3]|] eqn:E3; cbn [bind] in E; [|discriminate].
  destruct (servo_process A (v4 (r_servos r)) 20) as [[s4 p4]|] eqn:E4; cbn [bind] in E; [|discriminate].
  destruct (servo_process A (v5 (r_servos r)) 20) as [[s5 p5]|] eqn:E5; cbn [bind] in E; [|discriminate].
  injection E as <-. unfold GK. split; [lia|]. split.
  - unfold axes. cbn [r_servos with_servos at6 v0 v1 v2 v3 v4 v5].
    split; [|split; [|split; [|split; [|split]]]]; eapply S_tick; eauto.
  - intros NM. cbn [r_state with_servos] in NM. specialize (H3 NM). unfold there, axes in *. cbn [r_servos with_servos at6 v0 v1 v2 v3 v4 v5] in *.
    destruct H3 as (C0 & C1 & C2 & C3 & C4 & C5). split; [|split; [|split; [|split; [|split]]]]; [exact (N_tick _ _ _ _ _ B0 C0 L E0)|exact (N_tick _ _ _ _ _ B1 C1 L E1)|exact (N_tick _ _ _ _ _ B2 C2 L E2)|exact (N_tick _ _ _ _ _ B3 C3 L E3)|exact (N_tick _ _ _ _ _ B4 C4 L E4)|exact (N_tick _ _ _ _ _ B5 C5 L E5)].
Qed.
Lemma GK_start K r r' e : GK K r -> there r -> start_move r = Ok (r', e) -> allowed (servo_cmds e) -> GK K r'.
Proof.
  intros H AR E OK. pose proof H as (H0 & H2 & H3). pose proof E as E0.
  apply start_move_frame in E0 as (_ & _ & _ & _ & _ & _ & _ & _ & _ & ST).
  apply start_move_commands in E as [[_ X]|(tl & vels & _ & W & EC & X)].
  - eapply GK_same; eauto.
  - destruct ST as [[ST _]|[ST [X2 _]]]; [|eapply GK_same; eauto].
    unfold GK. split; [exact H0|]. split; [|rewrite ST; intros NM; now destruct NM].
    rewrite X. rewrite EC in OK. unfold allowed in OK. rewrite !Forall_cons_iff in OK. destruct OK as (O0 & O1 & O2 & O3 & O4 & O5 & _).
    unfold axes in *. cbn [at6 zip6 v0 v1 v2 v3 v4 v5 fst snd] in *.
    destruct H2 as (A0 & A1 & A2 & A3 & A4 & A5). destruct W as (W0 & W1 & W2 & W3 & W4 & W5).
    split; [|split; [|split; [|split; [|split]]]]; apply S_cmd; assumption.
Qed.
Lemma GK_process K r r' e : GK K r -> process r = Ok (r', e) -> allowed (servo_cmds e) -> GK K r'.
Proof.
  intros H E OK. pose proof H as (H0 & H2 & H3). unfold r_process in E. destruct (r_state r) eqn:ST.
  - injection E as <- <-. exact H.
  - destruct (all_at_target A r) eqn:AT; [|injection E as <- <-; exact H]. apply (there_at K) in AT; [|exact H2].
    destruct (r_cur r =? r_total r); [injection E as <- <-; eapply GK_same; eauto|].
    eapply GK_start; [| |exact E|exact OK]; [|exact AT]. eapply GK_same; eauto.
  - assert (AR : there r) by (apply H3; discriminate). eapply GK_start; eauto.
  - assert (AR : there r) by (apply H3; discriminate).
    apply prepare_cases in E as [(_ & -> & _) | [(_ & _ & _ & _ & S' & _ & _ & X) | (_ & _ & [(_ & -> & _) | (_ & n & _ & E)])]].
    + exact H.
    + eapply GK_same; eauto.
    + eapply GK_same; eauto. cbn [r_servos with_state]. apply prepared_servos.
    + assert (X : r_servos (with_state A (with_steps A (prepared A fwd inv p2l r) 0 n) START_MOVE) = r_servos r) by exact (prepared_servos A fwd inv p2l r).
      eapply GK_start; [| |exact E|exact OK].
      * eapply GK_same; eauto.
      * unfold there in *. rewrite X. exact AR.
Qed.
Lemma exec_servos now l : forall d buf d' buf' e, exec now d buf l = Ok (d', buf', e) -> r_servos (d_robot d') = r_servos (d_robot d).
Proof.
  induction l as [|a l IH]; intros d buf d' buf' e E; cbn [exec_acts] in E; [injection E as <- _ _; auto|].
  destruct (exec_act A fwd p2l pinMap print now d buf a) as [[[d1 b1] e1]|] eqn:EA; cbn [bind] in E; [|discriminate].
  destruct (exec now d1 b1 l) as [[[d2 b2] e2]|] eqn:ER; cbn [bind] in E; [|discriminate].
  injection E as <- _ _. rewrite (IH _ _ _ _ _ ER). clear IH ER.
  destruct a as [| |m|v|v|i x|i x|i x|pin st|pin st|ms|n|r|[n|]|]; cbn [exec_act] in EA; try (injection EA as <- _ _; reflexivity).
  + destruct (set_angle A (d_robot d) i (arg_float A x)) as [r|] eqn:SA; cbn [bind] in EA; [|discriminate]. injection EA as <- _ _.
    unfold set_angle in SA. destruct ((0 <=? i) && (i <? 6)); [|discriminate]. injection SA as <-. reflexivity.
  + destruct (zget (d_axes d) i); cbn [bind] in EA; [|discriminate]. destruct (zset (d_axes d) i _); cbn [bind] in EA; [|discriminate].
    injection EA as <- _ _. reflexivity.
  + destruct (io_addCondition pinMap (d_io d) pin st) as [[ps io]|]; cbn [bind] in EA; [|discriminate]. injection EA as <- _ _. reflexivity.
  + destruct (io_setOutput pinMap pin st) as [ps|]; cbn [bind] in EA; [|discriminate]. injection EA as <- _ _. reflexivity.
  + destruct (read_item A fwd p2l print d r); cbn [bind] in EA; [|discriminate]. injection EA as <- _ _. reflexivity.
Qed.
Lemma acts_servos now l : forall d d' e, sys_acts A fwd p2l pinMap print now d l = Ok (d', e) -> r_servos (d_robot d') = r_servos (d_robot d).
Proof.
  induction l as [|a l IH]; intros d d' e E; cbn [sys_acts] in E; [injection E as <- <-; reflexivity|].
  destruct (sys_act A fwd p2l pinMap print now d a) as [[d1 e1]|] eqn:SA; cbn [bind] in E; [|discriminate].
  destruct (sys_acts A fwd p2l pinMap print now d1 l) as [[d2 e2]|] eqn:R; cbn [bind] in E; [|discriminate]. injection E as <- <-.
  rewrite (IH _ _ _ R). destruct a as [n|t]; cbn [sys_act] in SA; [injection SA as <- <-; reflexivity|].
  destruct (dev_parse A fwd p2l pinMap print now d t) as [[d3 e3]|] eqn:DP; cbn [bind] in SA; [|discriminate]. injection SA as <- <-.
  unfold dev_parse in DP. destruct (mril_parse t) as [[acts num]|]; cbn [bind] in DP; [|discriminate].
  destruct (exec now d [] acts) as [[[d4 b4] e4]|] eqn:X; cbn [bind] in DP; [|discriminate]. injection DP as <- <-.
  apply exec_servos in X. exact X.
Qed.

(** ** the system *)
Definition quiet_e (p : list Z) : Prop := forall r, p <> 69 :: r.
Definition GI (K : Z) (s : sys A) (t : sstate) (future : list Z) : Prop :=
  CInv sgn (y_mcp s) t /\ host_ok t (map CChar future) /\ Forall quiet_e (commands (scur t) (map CChar future)) /\
  GK K (d_robot (y_dev s)) /\ (y_phase s = PMcp -> mdone (d_mril (y_dev s)) = true -> is_moving (d_robot (y_dev s)) = false).
Definition ticks_ms (l : list stim) : Z := 20 * zlen (filter (fun x => match x with STick => true | _ => false end) l).

Lemma GI_step K s t x rest s' e : GI K s t (y_rx s ++ arrivals [x] ++ rest) -> K + ticks_ms [x] < 4294967296 -> step s x = Ok (s', e) ->
  allowed (commanded e) -> exists t', GI (K + ticks_ms [x]) s' t' (y_rx s' ++ rest).
Proof.
  intros (CI & HO & NE & RKK & P) L ST OK.
  destruct x as [c| |now lv]; cbn [sys_step] in ST.
  - injection ST as <- <-. exists t. unfold GI. change (ticks_ms [SArrive c]) with 0. rewrite Z.add_0_r. cbn [y_mcp y_dev y_rx y_phase] in *. rewrite <- app_assoc. splits; auto.
  - destruct (dev_tick A (y_dev s)) as [d|] eqn:T; cbn [bind] in ST; [|discriminate]. injection ST as <- <-.
    destruct (dev_tick_frame _ _ _ T) as (_ & T2 & _ & T4). change (ticks_ms [SystemModel.STick]) with 20 in *.
    exists t. unfold GI. cbn [y_mcp y_dev y_rx y_phase arrivals flat_map app] in *. rewrite T2, T4. splits; auto.
    unfold dev_tick in T. destruct (r_tick A (d_robot (y_dev s)) 20) as [r|] eqn:RT; cbn [bind] in T; [|discriminate].
    destruct (tick_axes A (d_axes (y_dev s)) 20); cbn [bind] in T; [|discriminate]. injection T as <-. cbn [d_robot with_axes with_robot].
    eapply GK_tick; eauto.
  - change (ticks_ms [SRun now lv]) with 0 in *. rewrite Z.add_0_r in *. cbn [arrivals flat_map app] in *. unfold sys_main in ST. destruct (y_phase s) as [| |k| |] eqn:PH.
    1,2: destruct (dev_robot A fwd inv l2p p2l limits print (y_dev s)) as [[d e1]|] eqn:R; cbn [bind] in ST; [|discriminate]; injection ST as <- <-;
      exists t; unfold GI; cbn [y_mcp y_dev y_rx y_phase] in *; splits; auto; try (intros X; discriminate);
      unfold dev_robot in R; destruct (process (d_robot (y_dev s))) as [[r evs]|] eqn:RP; cbn [bind] in R; [|discriminate]; injection R as <- <-;
      cbn [d_robot with_robot]; eapply GK_process; eauto; rewrite <- (robot_evs A print evs); exact OK.
    + assert (IDLE_ : forall s' e, Ok (mkSys (y_dev s) (y_mcp s) (y_rx s) PMril, @nil (sys_ev A)) = Ok (s', e) ->
        exists t', GI K s' t' (y_rx s' ++ rest)).
      { intros s2 e2 E. injection E as <- <-. exists t. unfold GI. cbn [y_mcp y_dev y_rx y_phase]. splits; auto. intros X; discriminate. }
      destruct (y_rx s) as [|c rx] eqn:RX; [eapply IDLE_; exact ST|]. destruct (k <? READ_BYTES); [|eapply IDLE_; exact ST]. clear IDLE_.
      unfold sys_mcp in ST. cbn [app map host_ok] in HO. destruct HO as [H1 H2].
      destruct (c_step_refines sgn (y_mcp s) t (CChar c) CI H1) as (m & CS & CI'). rewrite CS in ST. cbn [bind] in ST.
      cbn [app map commands] in NE.
      assert (Y : Forall quiet_e (commands (scur (fst (spec_step t (CChar c)))) (map CChar (rx ++ rest))) /\
        (snd (spec_step t (CChar c)) = [] \/ (exists n, snd (spec_step t (CChar c)) = [MSendFree n]))).
      { cbn [spec_step] in *. destruct (c =? 13).
        - inversion NE as [|? ? F1 F2]; subst.
          assert (C2 : snd (spec_command t (payload (scur t))) = [] \/ exists n, snd (spec_command t (payload (scur t))) = [MSendFree n]).
          { unfold spec_command. destruct (payload (scur t)) as [|c0 r]; [auto|]. destruct (c0 =? 66); [right; eexists; reflexivity|].
            destruct (Z.eqb_spec c0 69) as [->|]; [exfalso; apply (F1 r); reflexivity|].
            destruct (c0 =? 81); [destruct r; auto|]. destruct (c0 =? 87); [destruct r; auto|]. auto. }
          destruct (spec_command t (payload (scur t))) as [t1 a]. cbn [fst snd scur] in *. auto.
        - cbn [fst snd scur]. auto. }
      destruct Y as (Y3 & Y4). exists (fst (spec_step t (CChar c))).
      destruct Y4 as [Y4|[n Y4]]; rewrite Y4 in ST; cbn [sys_acts sys_act bind] in ST; injection ST as <- <-; unfold GI; cbn [y_mcp y_dev y_rx y_phase] in *;
        splits; auto; intros X; discriminate.
    + exists t. destruct (dev_poll_cases A (y_dev s) now lv) as [[FIN E]|[NAF (io & IO & E)]]; rewrite E in ST; injection ST as <- <-;
        unfold GI; cbn [y_mcp y_dev y_rx y_phase d_mril d_robot with_mril with_io pending mdone] in *; splits; auto.
      * intros _ _. apply FIN.
      * intros _ X; discriminate.
    + unfold sys_mcp in ST. set (b := mdone (d_mril (y_dev s))) in *.
      destruct (c_step_refines sgn (y_mcp s) t (CPoll b) CI I) as (m & CS & CI'). rewrite CS in ST. cbn [bind spec_step] in *.
      destruct (sys_acts A fwd p2l pinMap print now (y_dev s) (snd (spec_poll t b))) as [[d1 e1]|] eqn:AR; cbn [bind] in ST; [|discriminate].
      injection ST as <- <-. pose proof (poll_same_host t b) as SH.
      exists (fst (spec_poll t b)). unfold GI. cbn [y_mcp y_dev y_rx y_phase] in *. splits; auto; try (intros X; discriminate).
      * eapply host_ok_same; [exact SH|exact HO].
      * destruct SH as [_ <-]. exact NE.
      * destruct b eqn:B.
        -- pose proof (acts_servos _ _ _ _ _ AR) as X. eapply GK_same; [exact RKK|exact X|]. intros _. left. specialize (P eq_refl eq_refl).
           unfold is_moving in P. destruct (r_state (d_robot (y_dev s))); discriminate.
        -- cbn in AR. injection AR as <- _. exact RKK.
Qed.
Lemma ticks_ms_app a b : ticks_ms (a ++ b) = ticks_ms a + ticks_ms b.
Proof. unfold ticks_ms. rewrite filter_app, zlen_app. lia. Qed.
Lemma ticks_ms_nonneg a : 0 <= ticks_ms a.
Proof. unfold ticks_ms. pose proof (zlen_nonneg (filter (fun x => match x with SystemModel.STick => true | _ => false end) a)). lia. Qed.
Lemma GI_run l : forall K s t s' tr, GI K s t (y_rx s ++ arrivals l) -> K + ticks_ms l < 4294967296 -> run s l = Ok (s', tr) ->
  allowed (commanded tr) -> exists t', GI (K + ticks_ms l) s' t' (y_rx s').
Proof.
  induction l as [|x l IH]; intros K s t s' tr H L E OK; cbn [sys_run] in E.
  - injection E as <- <-. exists t. cbn in H. rewrite !app_nil_r in *. change (ticks_ms []) with 0. rewrite Z.add_0_r. exact H.
  - destruct (step s x) as [[s1 e1]|] eqn:SX; cbn [bind] in E; [|discriminate].
    destruct (run s1 l) as [[s2 e2]|] eqn:R; cbn [bind] in E; [|discriminate]. injection E as <- <-.
    rewrite commanded_app in OK. apply Forall_app in OK as [O1 O2].
    change (x :: l) with ([x] ++ l) in *. rewrite arrivals_app in H. rewrite ticks_ms_app in *. pose proof (ticks_ms_nonneg l).
    destruct (GI_step _ _ _ _ _ _ _ H ltac:(lia) SX O1) as (t1 & H1). rewrite Z.add_assoc. eapply IH; eauto. lia.
Qed.

(** a poll that finds the instruction finished happens with all joints there *)
Lemma finished_there (servos : V6 (servo A)) axs junk mem l s0 stims s tr x s' e :
  axes (fun i => S 0 i (at6 servos i) /\ N i (at6 servos i)) ->
  zlen junk = 300 -> holds sgn mem l -> Forall (fun m => zlen m <= 80) l -> sys_boot A fwd p2l servos axs junk mem = Ok s0 ->
  host_ok (spec_boot l) (map CChar (arrivals stims)) ->
  Forall (fun p => forall r, p <> 69 :: r) (commands [] (map CChar (arrivals stims))) ->
  ticks_ms stims < 4294967296 ->
  run s0 stims = Ok (s, tr) -> allowed (commanded tr) -> step s x = Ok (s', e) -> In (YPoll true) e ->
  GK (ticks_ms stims) (d_robot (y_dev s)) /\ there (d_robot (y_dev s)).
Proof.
  intros FR J H L80 B HO NE TT R OK ST IN.
  destruct (boot_run A fwd p2l sgn junk mem l axs servos s0 J H L80 B) as (CI & RX & P0 & D0).
  assert (K : GI 0 s0 (spec_boot l) (y_rx s0 ++ arrivals stims)).
  { unfold GI. rewrite RX, P0, D0. cbn [app dev_boot d_robot d_mril]. splits; auto; try (intros X; discriminate).
    unfold GK, there, axes in *. cbn [r_servos robot_new with_targets with_method with_maxvel at6] in *. split; [lia|]. tauto. }
  destruct (GI_run stims 0 s0 _ s tr K ltac:(lia) R OK) as (t & _ & _ & _ & G & _). rewrite Z.add_0_l in G. split; [exact G|]. destruct G as (_ & _ & RK3).
  enough (M : is_moving (d_robot (y_dev s)) = false).
  { apply RK3. unfold is_moving in M. destruct (r_state (d_robot (y_dev s))); discriminate. }
  destruct x as [c| |now lv]; cbn [sys_step] in ST.
  - injection ST as <- <-. contradiction.
  - destruct (dev_tick A (y_dev s)); cbn [bind] in ST; [|discriminate]. injection ST as <- <-. contradiction.
  - assert (NQ : forall es, Forall (quiet A) es -> ~ In (YPoll true) es) by (intros es Q I0; rewrite Forall_forall in Q; exact (Q _ I0)).
    unfold sys_main in ST. destruct (y_phase s) as [| |k| |].
    + destruct (dev_robot A fwd inv l2p p2l limits print (y_dev s)) as [[d e1]|]; cbn [bind] in ST; [|discriminate]. injection ST as <- <-.
      destruct IN as [IN|IN]; [discriminate|]. now destruct (NQ _ (dev_quiet A e1)).
    + destruct (dev_robot A fwd inv l2p p2l limits print (y_dev s)) as [[d e1]|]; cbn [bind] in ST; [|discriminate]. injection ST as <- <-.
      now destruct (NQ _ (dev_quiet A e1)).
    + destruct (y_rx s) as [|c rx]; [injection ST as <- <-; contradiction|]. destruct (k <? READ_BYTES); [|injection ST as <- <-; contradiction].
      unfold sys_mcp in ST. destruct (c_step sgn (y_mcp s) (CChar c)) as [[m acts]|]; cbn [bind] in ST; [|discriminate].
      destruct (sys_acts A fwd p2l pinMap print now (y_dev s) acts) as [[d evs]|] eqn:AR; cbn [bind] in ST; [|discriminate]. injection ST as <- <-.
      destruct IN as [IN|IN]; [discriminate|]. now destruct (NQ _ (acts_quiet A fwd p2l pinMap print _ _ _ _ _ AR)).
    + destruct (dev_poll_cases A (y_dev s) now lv) as [[FIN E]|[NAF (io & IO & E)]]; rewrite E in ST; injection ST as <- <-.
      * apply FIN.
      * destruct IN as [IN|IN]; [discriminate|contradiction].
    + unfold sys_mcp in ST. destruct (c_step sgn (y_mcp s) (CPoll _)) as [[m acts]|]; cbn [bind] in ST; [|discriminate].
      destruct (sys_acts A fwd p2l pinMap print now (y_dev s) acts) as [[d evs]|] eqn:AR; cbn [bind] in ST; [|discriminate]. injection ST as <- <-.
      destruct IN as [IN|IN]; [discriminate|]. now destruct (NQ _ (acts_quiet A fwd p2l pinMap print _ _ _ _ _ AR)).
Qed.
End Arrive.
