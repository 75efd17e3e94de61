(** Queue order (C26) and acknowledgements (C49) in the whole system. *)
From Verif Require Import Base Arith ServoModel RobotModel RobotProofs IoModel IoSpec IoProofs WaitModel RingModel RingSpec RingProofs EepromModel EepromSpec MrilModel MrilSpec MrilProofs McpModel McpSpec McpProofs DeviceModel DeviceSpec DeviceProofs SystemModel SystemSpec SystemProofs SystemSafe.
Open Scope Z_scope.

Lemma fifo_run es : forall t, qmode t -> Forall plain_command (commands (scur t) es) -> room t es ->
  taken es (fst (spec_run t es)) ++ squeue (snd (spec_run t es)) = squeue t ++ wanted (commands (scur t) es) /\
  qmode (snd (spec_run t es)).
Proof.
  induction es as [|e es IH]; intros t HM HP HN; cbn [spec_run taken commands room] in *.
  - cbn. rewrite app_nil_r. auto.
  - destruct HN as [HN1 HN2].
    destruct e as [c|done]; cbn [spec_step] in *.
    + destruct (Z.eqb_spec c 13) as [->|Hc].
      * inversion HP as [|? ? P1 P2]; subst.
        destruct (plain_step t HM P1) as [Q1 Q2].
        destruct (spec_command t (payload (scur t))) as [t' a]. cbn [fst snd] in *.
        specialize (IH (mkS (squeue t') (slog t') (snext t') (smode t') [])). cbn [scur squeue] in IH.
        specialize (IH Q2 P2 HN2).
        destruct (spec_run (mkS (squeue t') (slog t') (snext t') (smode t') []) es) as [as_ t2].
        cbn [fst snd] in *. destruct IH as [IH1 IH2]. split; [|exact IH2]. rewrite IH1, Q1. unfold wanted. cbn [flat_map].
        destruct (queueable (payload (scur t))) as [m|]; cbn [app]; auto.
        unfold enqueue. destruct (Z.leb_spec (space (squeue t) + zlen m + 1) 300); [|lia].
        now rewrite <- app_assoc.
      * specialize (IH (mkS (squeue t) (slog t) (snext t) (smode t) (scur t ++ [c])) HM HP HN2).
        destruct (spec_run (mkS (squeue t) (slog t) (snext t) (smode t) (scur t ++ [c])) es) as [as_ t2]. exact IH.
    + assert (K : qmode (fst (spec_poll t done)) /\ scur (fst (spec_poll t done)) = scur t /\
        squeue t = parsed (snd (spec_poll t done)) ++ squeue (fst (spec_poll t done))).
      { clear - HM. unfold spec_poll, qmode in *. destruct done; [|cbn; auto]. destruct HM as [EM|[EM EQ]]; rewrite EM; [|cbn; rewrite EQ; auto].
        destruct (squeue t) as [|q0 q] eqn:Q; cbn; rewrite ?Q, ?EM; auto. }
      destruct K as (K1 & K2 & K3).
      destruct (spec_poll t done) as [t1 a]. cbn [fst snd] in *.
      specialize (IH t1 K1). rewrite K2 in IH. specialize (IH HP HN2).
      destruct (spec_run t1 es) as [as_ t2]. cbn [fst snd] in *. destruct IH as [IH1 IH2]. split; [|exact IH2].
      rewrite <- app_assoc, IH1, K3, <- app_assoc. reflexivity.
Qed.

(** polls do not matter for the host's obligations *)
Fixpoint chars (es : list cev) : list Z := match es with [] => [] | CChar c :: r => c :: chars r | CPoll _ :: r => chars r end.
Lemma host_ok_polls es : forall t rest, host_ok t (map CChar (chars es ++ rest)) -> host_ok t es.
Proof.
  induction es as [|[c|b] es IH]; intros t rest H; [exact I| |]; cbn [chars map host_ok app] in *.
  - destruct H as [H1 H2]. split; [exact H1|]. eapply IH. exact H2.
  - split; [exact I|]. cbn [spec_step]. eapply IH. eapply host_ok_same; [apply poll_same_host|exact H].
Qed.
Lemma commands_app a : forall cur b, exists cur', commands cur (a ++ b) = commands cur a ++ commands cur' b.
Proof.
  induction a as [|[c|d] a IH]; intros cur b; cbn [app commands]; [exists cur; reflexivity| |].
  - destruct (c =? 13); [destruct (IH [] b) as [k E]|destruct (IH (cur ++ [c]) b) as [k E]]; exists k; rewrite E; reflexivity.
  - apply IH.
Qed.
Lemma Forall_commands P cur a b : Forall P (commands cur (a ++ b)) -> Forall P (commands cur a).
Proof. destruct (commands_app a cur b) as [k ->]. intros H. now apply Forall_app in H. Qed.

Section Q.
Context (A : arith) (fwd : V6 (F A) -> V6 (F A)) (inv : V6 (F A) -> option (V6 (F A))).
Context (l2p p2l : V6 (F A) -> V6 (F A)) (limits : V6 (F A * F A)) (pinMap : list Z) (print : D A -> list Z) (sgn : bool).
Notation sys := (sys A).
Notation step := (sys_step A fwd inv l2p p2l limits pinMap print sgn).
Notation run := (sys_run A fwd inv l2p p2l limits pinMap print sgn).
Notation acts_run := (sys_acts A fwd p2l pinMap print).

Lemma chars_handed tr : chars (mcp_events tr) = @handed A tr.
Proof.
  induction tr as [|x tr IH]; [reflexivity|]. unfold mcp_events, handed in *. cbn [flat_map].
  destruct x as [|[c|b] acts| | |]; cbn [app chars]; auto. now rewrite IH.
Qed.

Lemma boot_run junk mem l axs servos s0 : zlen junk = 300 -> holds sgn mem l -> Forall (fun m => zlen m <= 80) l ->
  sys_boot A fwd p2l servos axs junk mem = Ok s0 ->
  CInv sgn (y_mcp s0) (spec_boot l) /\ y_rx s0 = [] /\ y_phase s0 = PRobot1 /\ y_dev s0 = dev_boot A fwd p2l servos axs.
Proof.
  intros J H L B. destruct (c_boot_inv sgn junk mem l J H L) as (m & E & I). unfold sys_boot in B. rewrite E in B. cbn [bind] in B.
  injection B as <-. auto.
Qed.

(** the protocol parser of a run from boot *)
Lemma run_spec s0 t0 stims s tr : CInv sgn (y_mcp s0) t0 -> y_rx s0 = [] -> run s0 stims = Ok (s, tr) ->
  host_ok t0 (map CChar (arrivals stims)) ->
  mcp_acts tr = fst (spec_run t0 (mcp_events tr)) /\ CInv sgn (y_mcp s) (snd (spec_run t0 (mcp_events tr))) /\ host_ok t0 (mcp_events tr).
Proof.
  intros CI RX R HO. pose proof (mcp_projection _ _ _ _ _ _ _ _ _ _ _ _ _ R) as MP.
  pose proof (serial_fifo _ _ _ _ _ _ _ _ _ _ _ _ _ R) as SF. rewrite RX in SF. cbn [app] in SF.
  assert (HE : host_ok t0 (mcp_events tr)).
  { eapply host_ok_polls with (rest := y_rx s). rewrite chars_handed, SF. exact HO. }
  destruct (c_run_refines sgn (mcp_events tr) (y_mcp s0) t0 CI HE) as (m & E & CI'). rewrite E in MP.
  injection MP as MP1 MP2. rewrite <- MP2. auto.
Qed.

Lemma system_fifo s0 t0 stims s tr : CInv sgn (y_mcp s0) t0 -> scur t0 = [] -> y_rx s0 = [] -> qmode t0 -> run s0 stims = Ok (s, tr) ->
  host_ok t0 (map CChar (arrivals stims)) -> Forall plain_command (commands [] (map CChar (arrivals stims))) ->
  room t0 (mcp_events tr) ->
  exists waiting, rabs (mring (cm (y_mcp s))) = enc waiting /\
    started tr ++ waiting = squeue t0 ++ wanted (commands [] (map CChar (handed tr))).
Proof.
  intros CI SC RX Q R HO PC RM. destruct (run_spec _ _ _ _ _ CI RX R HO) as (MA & CI' & HE).
  pose proof (serial_fifo _ _ _ _ _ _ _ _ _ _ _ _ _ R) as SF. rewrite RX in SF. cbn [app] in SF.
  assert (PE : Forall plain_command (commands (scur t0) (mcp_events tr))).
  { rewrite SC, handed_commands. rewrite <- SF, map_app in PC. eapply Forall_commands. exact PC. }
  destruct (fifo_run (mcp_events tr) t0 Q PE RM) as [F _].
  exists (squeue (snd (spec_run t0 (mcp_events tr)))). split; [apply CI'|].
  rewrite started_taken, MA, F, SC, handed_commands. reflexivity.
Qed.

(** ** acknowledgements *)
Lemma messages_app (a b : list (sys_ev A)) : messages (a ++ b) = messages a ++ messages b.
Proof. apply flat_map_app. Qed.
Lemma acks_app (a b : list (sys_ev A)) : acks (a ++ b) = acks a ++ acks b.
Proof. unfold acks. rewrite messages_app. apply filter_app. Qed.
Lemma messages_dev (e : list (dev_ev A)) : messages (map YDev e) = sent e.
Proof. induction e as [|x e IH]; [reflexivity|]. unfold messages, sent in *. cbn [map flat_map]. rewrite IH. destruct x; reflexivity. Qed.
Lemma robot_sends_nothing d d' e : dev_robot A fwd inv l2p p2l limits print d = Ok (d', e) -> sent e = [] /\ d_mril d' = d_mril d.
Proof.
  unfold dev_robot. destruct (r_process A fwd inv l2p p2l limits (d_robot d)) as [[r evs]|]; cbn [bind]; [|discriminate].
  intros E. injection E as <- <-. split; [|reflexivity]. unfold sent. induction evs as [|x evs IH]; [reflexivity|].
  cbn [flat_map]. rewrite flat_map_app, IH, app_nil_r. destruct x; reflexivity.
Qed.

(** the outstanding acknowledgement *)
Definition due (s : sys) : list (list Z) :=
  if 0 <? pending (d_mril (y_dev s)) then [finished_msg (pending (d_mril (y_dev s)))] else [].
Lemma last_number cs n : numbers cs = [n] -> number_of cs = n.
Proof.
  unfold number_of. generalize (-1). induction cs as [|c cs IH]; intros d H; [discriminate|].
  cbn [fold_left]. destruct c; cbn in H; try (apply IH; exact H).
  injection H as H1 H2. clear IH. revert H2. rewrite H1. induction cs as [|c cs IH]; intros H; [reflexivity|].
  cbn [fold_left]. destruct c; cbn in H; try (apply IH; exact H). discriminate.
Qed.
Lemma numbered_parse now d text n d1 e1 : numbered text n -> dev_parse A fwd p2l pinMap print now d text = Ok (d1, e1) ->
  sent e1 = [started_msg n] /\ pending (d_mril d1) = n /\ 0 < n.
Proof.
  intros (cs & -> & NE & OK & N & P & K) E.
  destruct (write_parse A fwd p2l pinMap print now d cs d1 e1 NE OK K E) as [S M].
  rewrite S, N, M. cbn [map pending]. rewrite (last_number _ _ N). auto.
Qed.

Definition AInv (s : sys) (t : sstate) (future : list Z) (tr : list (sys_ev A)) : Prop :=
  CInv sgn (y_mcp s) t /\ host_ok t (map CChar future) /\ Forall ack_frame (commands (scur t) (map CChar future)) /\
  qmode t /\ Forall (fun m => exists n, numbered m n) (squeue t) /\
  (y_phase s = PMcp -> mdone (d_mril (y_dev s)) = true -> pending (d_mril (y_dev s)) <= 0) /\
  (forall ns, Forall2 numbered (started tr) ns -> acks tr ++ due s = ack_sequence ns).

Lemma ack_frame_plain p : ack_frame p -> plain_command p.
Proof.
  intros [->|[[r ->]|(m & n & Q & _)]]; split; try (intros; discriminate).
  - intros ->. discriminate.
  - intros r ->. discriminate.
Qed.
Lemma ack_command t p : qmode t -> ack_frame p -> Forall (fun m => exists n, numbered m n) (squeue t) ->
  Forall (fun m => exists n, numbered m n) (squeue (fst (spec_command t p))) /\
  (snd (spec_command t p) = [] \/ exists n, snd (spec_command t p) = [MSendFree n]).
Proof.
  intros Q F S. assert (EN : forall m, (exists n, numbered m n) -> Forall (fun m => exists n, numbered m n) (enqueue (squeue t) m)).
  { intros m Hm. unfold enqueue. destruct (_ <=? 300); [|exact S]. apply Forall_app; auto. }
  destruct F as [->|[[r ->]|(m & n & QE & N)]]; [cbn; auto|cbn; eauto|].
  unfold queueable, spec_command in *. destruct p as [|c rest]; [discriminate|].
  destruct (c =? 66); [discriminate|]. destruct (c =? 69); [discriminate|]. destruct (c =? 87); [discriminate|]. cbn [orb] in QE.
  destruct (c =? 81).
  - destruct rest; [discriminate|]. injection QE as <-. cbn [fst snd squeue]. split; [apply EN; eauto|auto].
  - injection QE as <-. cbn [fst snd squeue]. split; [apply EN; eauto|auto].
Qed.
Lemma starts_B n : acks [YDev (A := A) (DSend (66 :: int_chars n))] = [].
Proof. reflexivity. Qed.
Lemma acks_started n : filter (fun t : list Z => match t with c :: _ => c =? 78 | [] => false end) [started_msg n] = [started_msg n].
Proof. reflexivity. Qed.

Lemma ack_step s t x rest tr s' e : AInv s t (y_rx s ++ arrivals [x] ++ rest) tr -> step s x = Ok (s', e) ->
  exists t', AInv s' t' (y_rx s' ++ rest) (tr ++ e).
Proof.
  intros (CI & HO & AF & QM & QS & P & AK) S.
  assert (SAME : started e = [] -> messages e = [] -> pending (d_mril (y_dev s')) = pending (d_mril (y_dev s)) ->
    forall ns, Forall2 numbered (started (tr ++ e)) ns -> acks (tr ++ e) ++ due s' = ack_sequence ns).
  { intros E1 E2 E3 ns. destruct (proj_app A tr e) as (_ & _ & _ & ->). rewrite E1, app_nil_r, acks_app. unfold acks at 2. rewrite E2. cbn [filter].
    rewrite app_nil_r. unfold due. rewrite E3. apply AK. }
  destruct x as [c| |now lv]; cbn [sys_step] in S.
  - injection S as <- <-. exists t. unfold AInv. cbn [y_mcp y_dev y_rx y_phase] in *. rewrite <- app_assoc. splits; auto.
  - destruct (dev_tick A (y_dev s)) as [d|] eqn:T; cbn [bind] in S; [|discriminate]. injection S as <- <-.
    destruct (dev_tick_frame _ _ _ T) as (_ & _ & _ & T4).
    exists t. unfold AInv. cbn [y_mcp y_dev y_rx y_phase] in *. rewrite T4. splits; auto. apply SAME; rewrite ?T4; auto.
  - cbn [arrivals flat_map app] in *. unfold sys_main in S. destruct (y_phase s) as [| |k| |] eqn:PH.
    + destruct (dev_robot A fwd inv l2p p2l limits print (y_dev s)) as [[d e1]|] eqn:R; cbn [bind] in S; [|discriminate]. injection S as <- <-.
      destruct (robot_sends_nothing _ _ _ R) as [R1 R2].
      exists t. unfold AInv. cbn [y_mcp y_dev y_rx y_phase] in *. splits; auto; [intros X; discriminate|].
      apply SAME; rewrite ?R2; auto; [|change (messages (YLoop :: map YDev e1)) with (messages (A := A) (map YDev e1)); now rewrite messages_dev].
      apply (quiet_events A _ (dev_quiet A e1)).
    + destruct (dev_robot A fwd inv l2p p2l limits print (y_dev s)) as [[d e1]|] eqn:R; cbn [bind] in S; [|discriminate]. injection S as <- <-.
      destruct (robot_sends_nothing _ _ _ R) as [R1 R2].
      exists t. unfold AInv. cbn [y_mcp y_dev y_rx y_phase] in *. splits; auto; [intros X; discriminate|].
      apply SAME; rewrite ?R2; auto; [|now rewrite messages_dev]. apply (quiet_events A _ (dev_quiet A e1)).
    + assert (IDLE_ : forall s' e, Ok (mkSys (y_dev s) (y_mcp s) (y_rx s) PMril, @nil (sys_ev A)) = Ok (s', e) ->
        exists t', AInv s' t' (y_rx s' ++ rest) (tr ++ e)).
      { intros s2 e2 E. injection E as <- <-. exists t. unfold AInv. cbn [y_mcp y_dev y_rx y_phase]. rewrite app_nil_r. splits; auto. intros X; discriminate. }
      destruct (y_rx s) as [|c rx] eqn:RX; [apply IDLE_; exact S|]. destruct (k <? READ_BYTES); [|apply IDLE_; exact S]. clear IDLE_.
      unfold sys_mcp in S. cbn [app map host_ok] in HO. destruct HO as [H1 H2].
      destruct (c_step_refines sgn (y_mcp s) t (CChar c) CI H1) as (m & CS & CI'). rewrite CS in S. cbn [bind] in S.
      cbn [app map commands] in AF.
      assert (Y : qmode (fst (spec_step t (CChar c))) /\ Forall (fun m => exists n, numbered m n) (squeue (fst (spec_step t (CChar c)))) /\
        Forall ack_frame (commands (scur (fst (spec_step t (CChar c)))) (map CChar (rx ++ rest))) /\
        (snd (spec_step t (CChar c)) = [] \/ (exists n, snd (spec_step t (CChar c)) = [MSendFree n]))).
      { cbn [spec_step] in *. destruct (c =? 13).
        - inversion AF as [|? ? F1 F2]; subst. destruct (ack_command t _ QM F1 QS) as [C1 C2].
          destruct (plain_step t QM (ack_frame_plain _ F1)) as [_ C3].
          destruct (spec_command t (payload (scur t))) as [t1 a]. cbn [fst snd] in *. auto.
        - cbn [fst snd scur]. splits; auto. }
      destruct Y as (Y1 & Y2 & Y3 & Y4). exists (fst (spec_step t (CChar c))).
      destruct Y4 as [Y4|[n Y4]]; rewrite Y4 in S; cbn [sys_acts sys_act bind] in S; injection S as <- <-; unfold AInv; cbn [y_mcp y_dev y_rx y_phase] in *;
        splits; auto; try (intros X; discriminate).
        intros ns HN. destruct (proj_app A tr [YMcp (CChar c) [MSendFree n]; YDev (DSend (66 :: int_chars n))]) as (_ & _ & _ & ES).
        cbn [app] in HN. rewrite ES in HN. cbn in HN. rewrite app_nil_r in HN. rewrite acks_app. cbn [app].
        change (acks [YMcp (CChar c) [MSendFree n]; YDev (DSend (66 :: int_chars n))]) with (@nil (list Z)).
        rewrite app_nil_r. exact (AK ns HN).
    + exists t. destruct (dev_poll_cases A (y_dev s) now lv) as [[FIN E]|[NAF (io & IO & E)]]; rewrite E in S; injection S as <- <-;
        unfold AInv; cbn [y_mcp y_dev y_rx y_phase d_mril with_mril with_io pending mdone] in *.
      * splits; auto.
        { intros _ _. destruct (Z.ltb_spec 0 (pending (d_mril (y_dev s)))); lia. }
        intros ns HN. destruct (proj_app A tr (YPoll true :: map YDev (if 0 <? pending (d_mril (y_dev s)) then [DSend (finished_msg (pending (d_mril (y_dev s))))] else []))) as (_ & _ & _ & ES).
        rewrite ES in HN. assert (Z0 : started (YPoll true :: map YDev (if 0 <? pending (d_mril (y_dev s)) then [DSend (A := A) (finished_msg (pending (d_mril (y_dev s))))] else [])) = []).
        { destruct (0 <? pending (d_mril (y_dev s))); reflexivity. }
        rewrite Z0, app_nil_r in HN. rewrite acks_app, <- app_assoc, <- (AK ns HN). f_equal. unfold due. cbn [y_dev d_mril with_mril pending].
        destruct (0 <? pending (d_mril (y_dev s))) eqn:LT; cbn [Z.ltb Z.compare]; [reflexivity|]. rewrite LT. reflexivity.
      * splits; auto; intros _ X; discriminate.
    + unfold sys_mcp in S. set (b := mdone (d_mril (y_dev s))) in *.
      destruct (c_step_refines sgn (y_mcp s) t (CPoll b) CI I) as (m & CS & CI'). rewrite CS in S. cbn [bind spec_step] in *.
      pose proof (poll_same_host t b) as SH. destruct SH as [SH1 SH2].
      assert (AF' : Forall ack_frame (commands (scur (fst (spec_poll t b))) (map CChar (y_rx s ++ rest)))) by (rewrite <- SH2; exact AF).
      assert (HO' : host_ok (fst (spec_poll t b)) (map CChar (y_rx s ++ rest))) by (eapply host_ok_same; [split; eauto|exact HO]).
      assert (K : qmode (fst (spec_poll t b)) /\ Forall (fun m => exists n, numbered m n) (squeue (fst (spec_poll t b))) /\
        (snd (spec_poll t b) = [] \/ (b = true /\ exists n text, snd (spec_poll t b) = [MSendFree n; MParse text] /\ exists k, numbered text k))).
      { clear - QM QS. unfold spec_poll, qmode in *. destruct b; [|cbn; auto]. destruct QM as [EM|[EM EQ]]; rewrite EM; [|cbn; rewrite EQ, EM; auto].
        destruct (squeue t) as [|q0 q] eqn:Q; [cbn; rewrite Q, EM; auto|]. inversion QS; subst. cbn [fst snd smode squeue].
        splits; auto. right. split; [reflexivity|]. eauto. }
      destruct K as (K1 & K2 & K3). exists (fst (spec_poll t b)).
      destruct K3 as [K3|(B & n & text & K3 & k & NK)]; rewrite K3 in S; cbn [sys_acts sys_act bind] in S.
      * injection S as <- <-. unfold AInv. cbn [y_mcp y_dev y_rx y_phase] in *. splits; auto; try (intros X; discriminate).
      * destruct (dev_parse A fwd p2l pinMap print now (y_dev s) text) as [[d1 e1]|] eqn:DP; cbn [bind] in S; [|discriminate]. injection S as <- <-.
        unfold AInv. cbn [y_mcp y_dev y_rx y_phase] in *. splits; auto; [intros X; discriminate|].
        intros ns HN. rewrite app_nil_r in *. cbn [app] in *.
        match type of HN with Forall2 _ (started (tr ++ ?E0)) _ => set (E1 := E0) in * end.
        destruct (proj_app A tr E1) as (_ & _ & _ & ES). rewrite ES in HN.
        assert (SE : started E1 = [text]).
        { unfold E1. change (text :: started (map (YDev (A := A)) e1) = [text]). f_equal. apply (quiet_events A _ (dev_quiet A e1)). }
        rewrite SE in HN. apply Forall2_app_inv_l in HN as (ns1 & ns2 & F1 & F2 & ->).
        inversion F2 as [|? nk ? ? NUM F3]; subst. inversion F3; subst. clear F2 F3.
        destruct (numbered_parse _ _ _ _ _ _ NUM DP) as (SN & PD & POS).
        assert (ME : acks E1 = [started_msg nk]).
        { unfold E1, acks. change (messages (YMcp (CPoll b) [MSendFree n; MParse text] :: YDev (A := A) (DSend (66 :: int_chars n)) :: YExec text :: map YDev e1))
            with ((66 :: int_chars n) :: messages (A := A) (map YDev e1)). rewrite messages_dev, SN. reflexivity. }
        assert (D0 : due s = []).
        { unfold due. specialize (P eq_refl B). destruct (Z.ltb_spec 0 (pending (d_mril (y_dev s)))); [lia|reflexivity]. }
        specialize (AK ns1 F1). rewrite D0, app_nil_r in AK. rewrite acks_app, AK, ME. unfold due. cbn [y_dev]. rewrite PD.
        destruct (Z.ltb_spec 0 nk); [|lia]. unfold ack_sequence. rewrite flat_map_app. cbn [flat_map app]. now rewrite <- app_assoc.
Qed.
Lemma ack_run l : forall s t tr0 s' tr, AInv s t (y_rx s ++ arrivals l) tr0 -> run s l = Ok (s', tr) ->
  exists t', AInv s' t' (y_rx s') (tr0 ++ tr).
Proof.
  induction l as [|x l IH]; intros s t tr0 s' tr H E; cbn [sys_run] in E.
  - injection E as <- <-. exists t. cbn in H. rewrite !app_nil_r in *. exact H.
  - destruct (step s x) as [[s1 e1]|] eqn:S; cbn [bind] in E; [|discriminate].
    destruct (run s1 l) as [[s2 e2]|] eqn:R; cbn [bind] in E; [|discriminate]. injection E as <- <-.
    change (x :: l) with ([x] ++ l) in H. rewrite arrivals_app in H.
    destruct (ack_step _ _ _ _ _ _ _ H S) as (t1 & H1). rewrite app_assoc. eapply IH; eauto.
Qed.
End Q.
