(** In the whole system, exact arithmetic: when the controller says it is done, the joints have arrived. *)
From Coq Require Import Reals Lra.
From Verif Require Import Base Arith ServoModel ServoSpec ServoProofs RobotModel RobotSpec RobotProofs RobotExact IoModel IoSpec WaitModel RingModel EepromModel EepromSpec MrilModel MrilSpec McpModel McpSpec McpProofs DeviceModel DeviceSpec DeviceProofs SystemModel SystemSpec SystemProofs SystemSafe SystemQueue SystemMore.
Open Scope Z_scope.

(** ** one servo on its way; [K]: time passed since boot *)
Definition SK (K : Z) (s : servo RA) : Prop :=
  0 <= s_elapsed s <= K /\ exists a, MInv a (s_target s) (s_vel s) (s_elapsed s) s.
Lemma SK_later K K' s : SK K s -> K <= K' -> SK K' s.
Proof. intros [E M] L. split; [lia|exact M]. Qed.
Lemma SK_tick K s : SR s -> SK K s -> K + 20 < 4294967296 -> SK (K + 20) (servo_advance RA s 20).
Proof.
  intros H [E [a M]] L. assert (V : (0 < s_vel s)%R) by apply H.
  pose proof (minv_tick a (s_target s) (s_vel s) (s_elapsed s) s 20 V ltac:(lia) ltac:(lia) ltac:(lia) M) as M'.
  pose proof M' as (V' & T' & E' & _). split; [rewrite E'; lia|]. exists a. rewrite V', T', E'. exact M'.
Qed.
Lemma SK_command K s (v a : R) : 0 <= K -> SR s -> SK K (servo_set_target RA (servo_set_vel RA s v) a).
Proof.
  intros H S. assert (V : (0 < s_vel (servo_set_vel RA s v))%R).
  { rewrite set_vel_RA. destruct S as (_ & _ & _ & _ & M & V). cbn. mcases; lra. }
  pose proof (minv_start (servo_set_vel RA s v) a V) as M. split; [cbn; lia|]. exists (s_cur (servo_set_vel RA s v)). exact M.
Qed.
(** how near the target *)
Definition near (s : servo RA) : Prop := (Rabs (s_cur s - s_target s) < 1 / 1000000)%R.
Lemma near_iff s : servo_at_target RA s = true <-> near s.
Proof.
  unfold servo_at_target, near. cbn [dlt f2d fabsf fsub ddec RA].
  assert (E : rdec false 1 (-6) = (1 / 1000000)%R) by (unfold rdec, powerRZ; replace (Pos.to_nat 6) with 6%nat by reflexivity; cbn [pow]; field).
  rewrite E. apply rltb_true.
Qed.
Lemma ideal_nearer a t v T d : (0 < v)%R -> (0 <= T)%R -> (0 <= d)%R -> (Rabs (ideal a t v (T + d) - t) <= Rabs (ideal a t v T - t))%R.
Proof.
  intros V H D. assert (P : (0 <= v * T / 1000 <= v * (T + d) / 1000)%R) by nra.
  unfold ideal. mcases; rabs; lra.
Qed.
Lemma near_tick K s : SR s -> SK K s -> K + 20 < 4294967296 -> near s -> near (servo_advance RA s 20).
Proof.
  intros H [E [a M]] L N. assert (V : (0 < s_vel s)%R) by apply H.
  pose proof (minv_tick a (s_target s) (s_vel s) (s_elapsed s) s 20 V ltac:(lia) ltac:(lia) ltac:(lia) M) as M'. unfold near in *.
  rewrite (minv_cur _ _ _ _ _ M'). rewrite (minv_cur _ _ _ _ _ M) in N. destruct M' as (_ & T' & _ & _). rewrite T', plus_IZR.
  pose proof (ideal_nearer a (s_target s) (s_vel s) (IZR (s_elapsed s)) 20 V ltac:(apply IZR_le; lia) ltac:(lra)). lra.
Qed.

(** ** the motion controller *)
Definition arrived (r : robot RA) : Prop := axes (fun i => near (at6 (r_servos r) i)).
Definition RK (K : Z) (r : robot RA) : Prop :=
  0 <= K /\ RR r /\ axes (fun i => SK K (at6 (r_servos r) i)) /\ (r_state r <> MOVING -> arrived r).
Lemma arrived_iff r : all_at_target RA r = true <-> arrived r.
Proof.
  unfold all_at_target, arrived, axes, list6. cbn [forallb at6]. rewrite !andb_true_iff, !near_iff. tauto.
Qed.

Section Motion.
Context (fwd : V6 R -> V6 R) (inv : V6 R -> option (V6 R)) (l2p p2l : V6 R -> V6 R) (limits : V6 (R * R)).
Context (pinMap : list Z) (print : R -> list Z) (sgn : bool).
Notation step := (sys_step RA fwd inv l2p p2l limits pinMap print sgn).
Notation run := (sys_run RA fwd inv l2p p2l limits pinMap print sgn).
Notation process := (r_process RA fwd inv l2p p2l limits).
Notation start_move := (r_start_move RA fwd inv l2p p2l limits).

Lemma RK_same K r r' : RK K r -> r_servos r' = r_servos r -> (r_state r' <> MOVING -> r_state r <> MOVING \/ arrived r) -> RK K r'.
Proof.
  intros (H0 & H1 & H2 & H3) E S. unfold RK, RR, arrived in *. rewrite E. splits; auto. intros N. destruct (S N); auto.
Qed.
Lemma RK_tick K r r' : RK K r -> K + 20 < 4294967296 -> r_tick RA r 20 = Ok r' -> RK (K + 20) r'.
Proof.
  intros (H0 & H1 & H2 & H3) L E. pose proof H1 as H1'. unfold RR, axes in H1', H2. cbn [at6] in H1', H2.
  destruct H1' as (A0 & A1 & A2 & A3 & A4 & A5). destruct H2 as (B0 & B1 & B2 & B3 & B4 & B5).
  destruct (RR_tick r 20 H1) as (x & Ex & Hx). assert (r' = x) by congruence. subst x. clear Ex.
  unfold r_tick in E.
  destruct (SR_process _ 20 A0) as (s0 & p0 & E0 & _ & Z0). rewrite E0 in E. destruct (SR_process _ 20 A1) as (s1 & p1 & E1 & _ & Z1). rewrite E1 in E.
  destruct (SR_process _ 20 A2) as (s2 & p2 & E2 & _ & Z2). rewrite E2 in E. destruct (SR_process _ 20 A3) as (s3 & p3 & E3 & _ & Z3). rewrite E3 in E.
  destruct (SR_process _ 20 A4) as (s4 & p4 & E4 & _ & Z4). rewrite E4 in E. destruct (SR_process _ 20 A5) as (s5 & p5 & E5 & _ & Z5). rewrite E5 in E.
  cbn [bind] in E. injection E as <-. subst s0 s1 s2 s3 s4 s5. unfold RK. split; [lia|]. split; [exact Hx|]. split.
  - unfold axes. cbn [r_servos with_servos at6 v0 v1 v2 v3 v4 v5]. splits; apply SK_tick; assumption.
  - intros N. specialize (H3 N). unfold arrived, axes in *. cbn [r_servos with_servos at6 v0 v1 v2 v3 v4 v5] in *.
    destruct H3 as (C0 & C1 & C2 & C3 & C4 & C5). splits; eapply near_tick; eauto.
Qed.
Lemma RK_start K r r' e : RK K r -> arrived r -> start_move r = Ok (r', e) -> RK K r'.
Proof.
  intros H AR E. pose proof H as (H0 & H1 & H2 & H3). pose proof (RR_start_move _ _ _ _ _ _ _ _ H1 E) as H1'. pose proof E as E0.
  apply start_move_frame in E0 as (_ & _ & _ & _ & _ & _ & _ & _ & _ & ST).
  apply start_move_commands in E as [[_ X]|(tl & vels & _ & _ & _ & X)].
  - eapply RK_same; eauto.
  - destruct ST as [[ST _]|[ST [X2 _]]]; [|eapply RK_same; eauto].
    unfold RK. split; [exact H0|]. split; [exact H1'|]. split; [|rewrite ST; intros N; now destruct N].
    rewrite X. unfold axes. cbn [at6 zip6 v0 v1 v2 v3 v4 v5 fst snd].
    unfold RR, axes in H1. cbn [at6] in H1. destruct H1 as (A0 & A1 & A2 & A3 & A4 & A5). splits; apply SK_command; assumption.
Qed.
Lemma RK_process K r r' e : RK K r -> process r = Ok (r', e) -> RK K r'.
Proof.
  intros H E. pose proof H as (H0 & H1 & H2 & H3). unfold r_process in E. destruct (r_state r) eqn:ST.
  - injection E as <- <-. exact H.
  - destruct (all_at_target RA r) eqn:AT; [|injection E as <- <-; exact H]. apply arrived_iff in AT.
    destruct (r_cur r =? r_total r); [injection E as <- <-; eapply RK_same; eauto|].
    eapply RK_start; [| |exact E]; [|exact AT]. eapply RK_same; eauto.
  - assert (AR : arrived r) by (apply H3; discriminate). eapply RK_start; eauto.
  - assert (AR : arrived r) by (apply H3; discriminate).
    apply prepare_cases in E as [(_ & -> & _) | [(_ & _ & _ & _ & S & _ & _ & X) | (_ & _ & [(_ & -> & _) | (_ & n & _ & E)])]].
    + exact H.
    + eapply RK_same; eauto.
    + eapply RK_same; eauto. cbn [r_servos with_state]. apply prepared_servos.
    + assert (X : r_servos (with_state RA (with_steps RA (prepared RA fwd inv p2l r) 0 n) START_MOVE) = r_servos r) by exact (prepared_servos RA fwd inv p2l r).
      eapply RK_start; [| |exact E].
      * eapply RK_same; eauto.
      * unfold arrived in *. rewrite X. exact AR.
Qed.
Lemma RK_exec K now l : forall d buf d' buf' e, exec_acts RA fwd p2l pinMap print now d buf l = Ok (d', buf', e) ->
  RK K (d_robot d) -> arrived (d_robot d) -> RK K (d_robot d') /\ arrived (d_robot d').
Proof.
  induction l as [|a l IH]; intros d buf d' buf' e E H AR; cbn [exec_acts] in E; [injection E as <- _ _; auto|].
  destruct (exec_act RA fwd p2l pinMap print now d buf a) as [[[d1 b1] e1]|] eqn:EA; cbn [bind] in E; [|discriminate].
  destruct (exec_acts RA fwd p2l pinMap print now d1 b1 l) as [[[d2 b2] e2]|] eqn:ER; cbn [bind] in E; [|discriminate].
  injection E as <- _ _. eapply IH; [exact ER| |]; clear IH ER.
  - assert (X : r_servos (d_robot d1) = r_servos (d_robot d)); [|eapply RK_same; eauto].
    destruct a as [| |m|v|v|i x|i x|i x|pin st|pin st|ms|n|r|[n|]|]; cbn [exec_act] in EA; try (injection EA as <- _ _; reflexivity).
    + destruct (set_angle RA (d_robot d) i (arg_float RA x)) as [r|] eqn:SA; cbn [bind] in EA; [|discriminate]. injection EA as <- _ _.
      unfold set_angle in SA. destruct ((0 <=? i) && (i <? 6)); [|discriminate]. injection SA as <-. reflexivity.
    + destruct (zget (d_axes d) i); cbn [bind] in EA; [|discriminate]. destruct (zset (d_axes d) i _); cbn [bind] in EA; [|discriminate].
      injection EA as <- _ _. reflexivity.
    + destruct (io_addCondition pinMap (d_io d) pin st) as [[ps io]|]; cbn [bind] in EA; [|discriminate]. injection EA as <- _ _. reflexivity.
    + destruct (io_setOutput pinMap pin st) as [ps|]; cbn [bind] in EA; [|discriminate]. injection EA as <- _ _. reflexivity.
    + destruct (read_item RA fwd p2l print d r); cbn [bind] in EA; [|discriminate]. injection EA as <- _ _. reflexivity.
  - assert (X : r_servos (d_robot d1) = r_servos (d_robot d)); [|unfold arrived in *; rewrite X; exact AR].
    destruct a as [| |m|v|v|i x|i x|i x|pin st|pin st|ms|n|r|[n|]|]; cbn [exec_act] in EA; try (injection EA as <- _ _; reflexivity).
    + destruct (set_angle RA (d_robot d) i (arg_float RA x)) as [r|] eqn:SA; cbn [bind] in EA; [|discriminate]. injection EA as <- _ _.
      unfold set_angle in SA. destruct ((0 <=? i) && (i <? 6)); [|discriminate]. injection SA as <-. reflexivity.
    + destruct (zget (d_axes d) i); cbn [bind] in EA; [|discriminate]. destruct (zset (d_axes d) i _); cbn [bind] in EA; [|discriminate].
      injection EA as <- _ _. reflexivity.
    + destruct (io_addCondition pinMap (d_io d) pin st) as [[ps io]|]; cbn [bind] in EA; [|discriminate]. injection EA as <- _ _. reflexivity.
    + destruct (io_setOutput pinMap pin st) as [ps|]; cbn [bind] in EA; [|discriminate]. injection EA as <- _ _. reflexivity.
    + destruct (read_item RA fwd p2l print d r); cbn [bind] in EA; [|discriminate]. injection EA as <- _ _. reflexivity.
Qed.
Lemma RK_acts K now l : forall d d' e, sys_acts RA fwd p2l pinMap print now d l = Ok (d', e) ->
  RK K (d_robot d) -> arrived (d_robot d) -> RK K (d_robot d').
Proof.
  induction l as [|a l IH]; intros d d' e E H AR; cbn [sys_acts] in E; [injection E as <- <-; exact H|].
  destruct (sys_act RA fwd p2l pinMap print now d a) as [[d1 e1]|] eqn:S; cbn [bind] in E; [|discriminate].
  destruct (sys_acts RA fwd p2l pinMap print now d1 l) as [[d2 e2]|] eqn:R; cbn [bind] in E; [|discriminate]. injection E as <- <-.
  destruct a as [n|t]; cbn [sys_act] in S; [injection S as <- <-; eapply IH; eauto|].
  destruct (dev_parse RA fwd p2l pinMap print now d t) as [[d3 e3]|] eqn:DP; cbn [bind] in S; [|discriminate]. injection S as <- <-.
  unfold dev_parse in DP. destruct (mril_parse t) as [[acts num]|]; cbn [bind] in DP; [|discriminate].
  destruct (exec_acts RA fwd p2l pinMap print now d [] acts) as [[[d4 b4] e4]|] eqn:X; cbn [bind] in DP; [|discriminate]. injection DP as <- <-.
  apply RK_exec with (K := K) in X; auto. cbn in X. eapply IH; [exact R| |]; apply X.
Qed.

(** ** the system *)
Definition no_e (p : list Z) : Prop := forall r, p <> 69 :: r.
Definition MI (K : Z) (s : sys RA) (t : sstate) (future : list Z) : Prop :=
  CInv sgn (y_mcp s) t /\ host_ok t (map CChar future) /\ Forall no_e (commands (scur t) (map CChar future)) /\
  RK K (d_robot (y_dev s)) /\ (y_phase s = PMcp -> mdone (d_mril (y_dev s)) = true -> is_moving (d_robot (y_dev s)) = false).
Definition tick_time (l : list stim) : Z := 20 * zlen (filter (fun x => match x with STick => true | _ => false end) l).

Lemma MI_step K s t x rest s' e : MI K s t (y_rx s ++ arrivals [x] ++ rest) -> K + tick_time [x] < 4294967296 -> step s x = Ok (s', e) ->
  exists t', MI (K + tick_time [x]) s' t' (y_rx s' ++ rest).
Proof.
  intros (CI & HO & NE & RKK & P) L S.
  destruct x as [c| |now lv]; cbn [sys_step] in S.
  - injection S as <- <-. exists t. unfold MI. change (tick_time [SArrive c]) with 0. rewrite Z.add_0_r. cbn [y_mcp y_dev y_rx y_phase] in *. rewrite <- app_assoc. splits; auto.
  - destruct (dev_tick RA (y_dev s)) as [d|] eqn:T; cbn [bind] in S; [|discriminate]. injection S as <- <-.
    destruct (dev_tick_frame _ _ _ T) as (_ & T2 & _ & T4). change (tick_time [STick]) with 20 in *.
    exists t. unfold MI. cbn [y_mcp y_dev y_rx y_phase arrivals flat_map app] in *. rewrite T2, T4. splits; auto.
    unfold dev_tick in T. destruct (r_tick RA (d_robot (y_dev s)) 20) as [r|] eqn:RT; cbn [bind] in T; [|discriminate].
    destruct (tick_axes RA (d_axes (y_dev s)) 20); cbn [bind] in T; [|discriminate]. injection T as <-. cbn [d_robot with_axes with_robot].
    eapply RK_tick; eauto.
  - change (tick_time [SRun now lv]) with 0 in *. rewrite Z.add_0_r in *. cbn [arrivals flat_map app] in *. unfold sys_main in S. destruct (y_phase s) as [| |k| |] eqn:PH.
    1,2: destruct (dev_robot RA fwd inv l2p p2l limits print (y_dev s)) as [[d e1]|] eqn:R; cbn [bind] in S; [|discriminate]; injection S as <- <-;
      exists t; unfold MI; cbn [y_mcp y_dev y_rx y_phase] in *; splits; auto; try (intros X; discriminate);
      unfold dev_robot in R; destruct (process (d_robot (y_dev s))) as [[r evs]|] eqn:RP; cbn [bind] in R; [|discriminate]; injection R as <- <-;
      cbn [d_robot with_robot]; eapply RK_process; eauto.
    + assert (IDLE_ : forall s' e, Ok (mkSys (y_dev s) (y_mcp s) (y_rx s) PMril, @nil (sys_ev RA)) = Ok (s', e) ->
        exists t', MI K s' t' (y_rx s' ++ rest)).
      { intros s2 e2 E. injection E as <- <-. exists t. unfold MI. cbn [y_mcp y_dev y_rx y_phase]. splits; auto. intros X; discriminate. }
      destruct (y_rx s) as [|c rx] eqn:RX; [eapply IDLE_; exact S|]. destruct (k <? READ_BYTES); [|eapply IDLE_; exact S]. clear IDLE_.
      unfold sys_mcp in S. cbn [app map host_ok] in HO. destruct HO as [H1 H2].
      destruct (c_step_refines sgn (y_mcp s) t (CChar c) CI H1) as (m & CS & CI'). rewrite CS in S. cbn [bind] in S.
      cbn [app map commands] in NE.
      assert (Y : Forall no_e (commands (scur (fst (spec_step t (CChar c)))) (map CChar (rx ++ rest))) /\
        (snd (spec_step t (CChar c)) = [] \/ (exists n, snd (spec_step t (CChar c)) = [MSendFree n]))).
      { cbn [spec_step] in *. destruct (c =? 13).
        - inversion NE as [|? ? F1 F2]; subst.
          assert (C2 : snd (spec_command t (payload (scur t))) = [] \/ exists n, snd (spec_command t (payload (scur t))) = [MSendFree n]).
          { unfold spec_command. destruct (payload (scur t)) as [|c0 r]; [auto|]. destruct (c0 =? 66); [right; eexists; reflexivity|].
            destruct (Z.eqb_spec c0 69) as [->|]; [exfalso; apply (F1 r); reflexivity|].
            destruct (c0 =? 81); [destruct r; auto|]. destruct (c0 =? 87); [destruct r; auto|]. auto. }
          destruct (spec_command t (payload (scur t))) as [t1 a]. cbn [fst snd scur] in *. auto.
        - cbn [fst snd scur]. auto. }
      destruct Y as (Y3 & Y4). exists (fst (spec_step t (CChar c))).
      destruct Y4 as [Y4|[n Y4]]; rewrite Y4 in S; cbn [sys_acts sys_act bind] in S; injection S as <- <-; unfold MI; cbn [y_mcp y_dev y_rx y_phase] in *;
        splits; auto; intros X; discriminate.
    + exists t. destruct (dev_poll_cases RA (y_dev s) now lv) as [[FIN E]|[NAF (io & IO & E)]]; rewrite E in S; injection S as <- <-;
        unfold MI; cbn [y_mcp y_dev y_rx y_phase d_mril d_robot with_mril with_io pending mdone] in *; splits; auto.
      * intros _ _. apply FIN.
      * intros _ X; discriminate.
    + unfold sys_mcp in S. set (b := mdone (d_mril (y_dev s))) in *.
      destruct (c_step_refines sgn (y_mcp s) t (CPoll b) CI I) as (m & CS & CI'). rewrite CS in S. cbn [bind spec_step] in *.
      destruct (sys_acts RA fwd p2l pinMap print now (y_dev s) (snd (spec_poll t b))) as [[d1 e1]|] eqn:AR; cbn [bind] in S; [|discriminate].
      injection S as <- <-. pose proof (poll_same_host t b) as SH.
      exists (fst (spec_poll t b)). unfold MI. cbn [y_mcp y_dev y_rx y_phase] in *. splits; auto; try (intros X; discriminate).
      * eapply host_ok_same; [exact SH|exact HO].
      * destruct SH as [_ <-]. exact NE.
      * destruct b eqn:B.
        -- eapply RK_acts; [exact AR|exact RKK|]. specialize (P eq_refl eq_refl). destruct RKK as (_ & _ & _ & RR3). apply RR3.
           unfold is_moving in P. destruct (r_state (d_robot (y_dev s))); discriminate.
        -- cbn in AR. injection AR as <- _. exact RKK.
Qed.
Lemma tick_time_app a b : tick_time (a ++ b) = tick_time a + tick_time b.
Proof. unfold tick_time. rewrite filter_app, zlen_app. lia. Qed.
Lemma tick_time_nonneg a : 0 <= tick_time a.
Proof. unfold tick_time. pose proof (zlen_nonneg (filter (fun x => match x with SystemModel.STick => true | _ => false end) a)). lia. Qed.
Lemma MI_run l : forall K s t s' tr, MI K s t (y_rx s ++ arrivals l) -> K + tick_time l < 4294967296 -> run s l = Ok (s', tr) ->
  exists t', MI (K + tick_time l) s' t' (y_rx s').
Proof.
  induction l as [|x l IH]; intros K s t s' tr H L E; cbn [sys_run] in E.
  - injection E as <- <-. exists t. cbn in H. rewrite !app_nil_r in *. change (tick_time []) with 0. rewrite Z.add_0_r. exact H.
  - destruct (step s x) as [[s1 e1]|] eqn:S; cbn [bind] in E; [|discriminate].
    destruct (run s1 l) as [[s2 e2]|] eqn:R; cbn [bind] in E; [|discriminate]. injection E as <- <-.
    change (x :: l) with ([x] ++ l) in *. rewrite arrivals_app in H. rewrite tick_time_app in *. pose proof (tick_time_nonneg l).
    destruct (MI_step _ _ _ _ _ _ _ H ltac:(lia) S) as (t1 & H1). rewrite Z.add_assoc. eapply IH; eauto. lia.
Qed.
End Motion.
