(** Progress of the serial input, flow control, progress of the queue, replay of the stored program, and
    the motion controller inside the whole system. *)
From Verif Require Import Base Arith ServoModel RobotModel RobotSpec RobotProofs IoModel IoSpec IoProofs WaitModel RingModel RingSpec RingProofs EepromModel EepromSpec MrilModel MrilSpec MrilProofs McpModel McpSpec McpProofs DeviceModel DeviceSpec DeviceProofs SystemModel SystemSpec SystemProofs SystemSafe SystemQueue.
Open Scope Z_scope.

(** ** flow control in the specification *)
Lemma room_app a : forall t b, room t (a ++ b) <-> room t a /\ room (snd (spec_run t a)) b.
Proof.
  induction a as [|e a IH]; intros t b; cbn [app room spec_run snd]; [tauto|].
  destruct (spec_step t e) as [t1 x] eqn:E. cbn [fst]. rewrite (IH t1 b). destruct (spec_run t1 a). cbn [snd]. tauto.
Qed.
Lemma space_app a b : space (a ++ b) = space a + space b.
Proof. induction a as [|m a IH]; cbn [app space]; lia. Qed.
Lemma wanted_app a b : wanted (a ++ b) = wanted a ++ wanted b.
Proof. apply flat_map_app. Qed.
Lemma spec_cur es : forall t, commands (scur t) (es ++ [CChar 13]) =
  commands (scur t) es ++ [payload (scur (snd (spec_run t es)))].
Proof.
  induction es as [|[c|b] es IH]; intros t; cbn [app commands spec_run spec_step]; [reflexivity| |].
  - destruct (c =? 13).
    + destruct (spec_command t (payload (scur t))) as [t1 a]. cbn [app]. f_equal.
      specialize (IH (mkS (squeue t1) (slog t1) (snext t1) (smode t1) [])). cbn [scur] in IH. rewrite IH.
      destruct (spec_run _ es). reflexivity.
    + specialize (IH (mkS (squeue t) (slog t) (snext t) (smode t) (scur t ++ [c]))). cbn [scur] in IH. rewrite IH.
      destruct (spec_run _ es). reflexivity.
  - pose proof (poll_same_host t b) as [_ SH]. destruct (spec_poll t b) as [t1 a]. cbn [fst] in SH. rewrite SH, IH.
    destruct (spec_run t1 es). reflexivity.
Qed.
(** if at every moment what was received exceeds what was taken by at most the buffer, there is room *)
Lemma credit_room es : forall t, qmode t -> scur t = [] -> Forall plain_command (commands [] es) ->
  (forall a b, es = a ++ b -> space (squeue t) + space (wanted (commands [] a)) - space (taken a (fst (spec_run t a))) <= 300) ->
  room t es.
Proof.
  induction es as [|e es IH] using Coq.Lists.List.rev_ind; intros t Q SC PC C; [exact I|].
  assert (PC1 : Forall plain_command (commands [] es)) by (eapply Forall_commands; exact PC).
  assert (RM : room t es).
  { apply IH; auto. intros a b ->. apply (C a (b ++ [e])). now rewrite app_assoc. }
  apply room_app. split; [exact RM|]. cbn [room]. split; [|exact I].
  destruct e as [c|b]; [|exact I]. destruct (Z.eqb_spec c 13) as [->|]; [|exact I].
  destruct (queueable (payload (scur (snd (spec_run t es))))) as [m|] eqn:QE; [|exact I].
  pose proof (C (es ++ [CChar 13]) [] (eq_sym (app_nil_r _))) as C1.
  pose proof (spec_cur es t) as SCUR. rewrite SC in SCUR. rewrite SCUR, wanted_app, space_app in C1. cbn [wanted flat_map] in C1. rewrite QE in C1. cbn [app space] in C1.
  rewrite <- SC in PC1. destruct (fifo_run es t Q PC1 RM) as [F _]. rewrite SC in F.
  assert (T : taken (es ++ [CChar 13]) (fst (spec_run t (es ++ [CChar 13]))) = taken es (fst (spec_run t es))).
  { clear. revert t. induction es as [|[c|b] es IH]; intros t.
    - cbn [app spec_run]. destruct (spec_step t (CChar 13)). reflexivity.
    - cbn [app spec_run]. destruct (spec_step t (CChar c)) as [t1 x]. specialize (IH t1).
      destruct (spec_run t1 (es ++ [CChar 13])), (spec_run t1 es). cbn [fst taken] in *. exact IH.
    - cbn [app spec_run]. destruct (spec_step t (CPoll b)) as [t1 x]. specialize (IH t1).
      destruct (spec_run t1 (es ++ [CChar 13])), (spec_run t1 es). cbn [fst taken] in *. now rewrite IH. }
  rewrite T in C1. apply (f_equal space) in F. rewrite !space_app in F. lia.
Qed.

Section More.
Context (A : arith) (fwd : V6 (F A) -> V6 (F A)) (inv : V6 (F A) -> option (V6 (F A))).
Context (l2p p2l : V6 (F A) -> V6 (F A)) (limits : V6 (F A * F A)) (pinMap : list Z) (print : D A -> list Z) (sgn : bool).
Notation sys := (sys A).
Notation step := (sys_step A fwd inv l2p p2l limits pinMap print sgn).
Notation run := (sys_run A fwd inv l2p p2l limits pinMap print sgn).
Notation acts_run := (sys_acts A fwd p2l pinMap print).

(** ** C47: progress *)
(** main-loop steps needed to hand over the next [r] bytes *)
Definition ahead (p : phase) (r : Z) : Z :=
  r + match p with
      | PRobot1 => 2 + 5 * ((r - 1) / 30)
      | PRobot2 => 1 + 5 * ((r - 1) / 30)
      | PSerial k => 5 * ((r + k - 1) / 30)
      | PMril => 4 + 5 * ((r - 1) / 30)
      | PMcp => 3 + 5 * ((r - 1) / 30)
      end.
Definition phase_ok (p : phase) : Prop := match p with PSerial k => 0 <= k <= 30 | _ => True end.
Lemma input_step s x s' e : step s x = Ok (s', e) -> phase_ok (y_phase s) -> phase_ok (y_phase s') /\
  (match x with SRun _ _ => True | _ => y_phase s' = y_phase s end).
Proof.
  intros S P. destruct x as [c| |now lv]; cbn [sys_step] in S.
  - injection S as <- <-. auto.
  - destruct (dev_tick A (y_dev s)); cbn [bind] in S; [|discriminate]. injection S as <- <-. auto.
  - split; [|exact I]. unfold sys_main in S. destruct (y_phase s) as [| |k| |].
    1,2: destruct (dev_robot A fwd inv l2p p2l limits print (y_dev s)) as [[d e1]|]; cbn [bind] in S; [|discriminate]; injection S as <- <-; cbn; auto; lia.
    + destruct (y_rx s) as [|c rx]; [injection S as <- <-; exact I|]. unfold READ_BYTES in S. destruct (Z.ltb_spec k 30); [|injection S as <- <-; exact I].
      unfold sys_mcp in S. destruct (c_step sgn (y_mcp s) (CChar c)) as [[m acts]|]; cbn [bind] in S; [|discriminate].
      destruct (acts_run now (y_dev s) acts) as [[d evs]|]; cbn [bind] in S; [|discriminate]. injection S as <- <-. cbn in *. lia.
    + destruct (dev_poll A now lv (y_dev s)). injection S as <- <-. exact I.
    + unfold sys_mcp in S. destruct (c_step sgn (y_mcp s) _) as [[m acts]|]; cbn [bind] in S; [|discriminate].
      destruct (acts_run now (y_dev s) acts) as [[d evs]|]; cbn [bind] in S; [|discriminate]. injection S as <- <-. exact I.
Qed.
Lemma div_down r : 0 < r -> (r + 30 - 1) / 30 = 1 + (r - 1) / 30.
Proof. intros H. replace (r + 30 - 1) with (r - 1 + 1 * 30) by lia. rewrite Z.div_add by lia. lia. Qed.
Lemma input_progress l : forall s s' tr a b, run s l = Ok (s', tr) -> phase_ok (y_phase s) -> y_rx s = a ++ b ->
  a = [] \/ ahead (y_phase s) (zlen a) <= loop_steps l -> exists h, handed tr = a ++ h.
Proof.
  induction l as [|x l IH]; intros s s' tr a b E P RX L; cbn [sys_run] in E.
  - injection E as <- <-. destruct L as [->|L]; [exists []; reflexivity|]. destruct a as [|c a]; [exists []; reflexivity|]. exfalso.
    change (loop_steps []) with 0 in L. rewrite zlen_cons in L. pose proof (zlen_nonneg a). unfold ahead in L.
    destruct (y_phase s); cbn [phase_ok] in P;
    match type of L with context [?n / 30] => pose proof (Z.div_pos n 30) end; lia.
  - destruct (step s x) as [[s1 e1]|] eqn:S; cbn [bind] in E; [|discriminate].
    destruct (run s1 l) as [[s2 e2]|] eqn:R; cbn [bind] in E; [|discriminate]. injection E as <- <-.
    destruct (input_step _ _ _ _ S P) as [P1 PS]. destruct (proj_app A e1 e2) as (_ & _ & -> & _).
    destruct a as [|c a]; [eexists; reflexivity|]. destruct L as [L|L]; [discriminate|].
    assert (RP : 0 < zlen (c :: a)) by (rewrite zlen_cons; pose proof (zlen_nonneg a); lia).
    pose proof S as S0. apply step_cases in S0 as [(_ & _ & H & _ & _ & RX')|(ev & acts & now & lv & d' & es & -> & -> & Q & _ & _ & _ & K)].
    + rewrite H. change (exists h, handed e2 = (c :: a) ++ h). rewrite RX, <- app_assoc in RX'. eapply IH; [exact R|exact P1|exact RX'|right].
      destruct x as [c0| |now lv].
      * rewrite PS. exact L.
      * rewrite PS. exact L.
      * assert (SL : loop_steps (SRun now lv :: l) = loop_steps l + 1) by apply zlen_cons. rewrite SL in L. clear IH.
        cbn [sys_step] in S. unfold sys_main in S. destruct (y_phase s) as [| |k| |] eqn:PH; cbn [phase_ok] in P.
        -- destruct (dev_robot A fwd inv l2p p2l limits print (y_dev s)) as [[d e]|]; cbn [bind] in S; [|discriminate]. injection S as <- <-.
           unfold ahead in *. cbn [y_phase]. lia.
        -- destruct (dev_robot A fwd inv l2p p2l limits print (y_dev s)) as [[d e]|]; cbn [bind] in S; [|discriminate]. injection S as <- <-.
           unfold ahead in *. cbn [y_phase]. rewrite Z.add_0_r. lia.
        -- rewrite RX in S. cbn [app] in S. unfold READ_BYTES in S. destruct (Z.ltb_spec k 30).
           ++ unfold sys_mcp in S. destruct (c_step sgn (y_mcp s) (CChar c)) as [[m acts]|]; cbn [bind] in S; [|discriminate].
              destruct (acts_run now (y_dev s) acts) as [[d evs]|]; cbn [bind] in S; [|discriminate]. injection S as <- <-. discriminate H.
           ++ injection S as <- <-. unfold ahead in *. cbn [y_phase]. assert (k = 30) by lia. subst k. rewrite div_down in L by exact RP. lia.
        -- destruct (dev_poll A now lv (y_dev s)). injection S as <- <-. unfold ahead in *. cbn [y_phase]. lia.
        -- unfold sys_mcp in S. destruct (c_step sgn (y_mcp s) (CPoll _)) as [[m acts]|]; cbn [bind] in S; [|discriminate].
           destruct (acts_run now (y_dev s) acts) as [[d evs]|]; cbn [bind] in S; [|discriminate]. injection S as <- <-. unfold ahead in *. cbn [y_phase]. lia.
    + assert (SL : loop_steps (SRun now lv :: l) = loop_steps l + 1) by apply zlen_cons. rewrite SL in L.
      destruct (quiet_events A es Q) as (_ & _ & Q3 & _).
      destruct K as [(k & c0 & rx & -> & PH & LT & RX0 & RX' & PH')|(-> & PH & RX' & PH')].
      * rewrite RX in RX0. cbn [app] in RX0. injection RX0 as <- <-.
        change (handed (YMcp (CChar c) acts :: es)) with (c :: handed es). rewrite Q3. cbn [app].
        destruct (IH s1 s2 e2 a b R P1 RX') as [h ->]; [|exists h; reflexivity].
        destruct a as [|c1 a]; [left; reflexivity|right]. rewrite PH'. rewrite PH in L. unfold ahead in *. rewrite zlen_cons in L.
        replace (zlen (c1 :: a) + (k + 1) - 1) with (zlen (c1 :: a) + 1 + k - 1) by lia. lia.
      * change (handed (YMcp (CPoll (mdone (d_mril (y_dev s)))) acts :: es)) with (handed es). rewrite Q3. rewrite RX in RX'.
        eapply IH; [exact R|exact P1|exact RX'|right]. rewrite PH'. rewrite PH in L. unfold ahead in *. lia.
Qed.

(** prefixes of the protocol parser's calls come from prefixes of the schedule *)
Lemma step_events s x s' e : step s x = Ok (s', e) -> mcp_events e = [] \/ exists v, mcp_events e = [v].
Proof.
  intros S. apply step_cases in S as [(H & _)|(ev & acts & now & lv & d' & es & -> & -> & Q & _)]; [auto|right].
  destruct (quiet_events A es Q) as (Q1 & _). exists ev. change (mcp_events (YMcp ev acts :: es)) with (ev :: mcp_events es). now rewrite Q1.
Qed.
Lemma event_prefix l : forall s s' tr a b, run s l = Ok (s', tr) -> mcp_events tr = a ++ b ->
  exists l1 l2 s1 tr1, l = l1 ++ l2 /\ run s l1 = Ok (s1, tr1) /\ mcp_events tr1 = a.
Proof.
  induction l as [|x l IH] using Coq.Lists.List.rev_ind; intros s s' tr a b E EV.
  - cbn in E. injection E as <- <-. destruct a; [|discriminate]. exists [], [], s, []. auto.
  - pose proof E as E0. apply sys_run_snoc in E0 as (s1 & e1 & e2 & R & S & ->).
    destruct (proj_app A e1 e2) as (PA & _). rewrite PA in EV.
    destruct b as [|v b] using Coq.Lists.List.rev_ind.
    + rewrite app_nil_r in EV. exists (l ++ [x]), [], s', (e1 ++ e2). rewrite app_nil_r, PA. auto.
    + clear IHb. destruct (step_events _ _ _ _ S) as [Z0|[w Z0]]; rewrite Z0 in EV.
      * rewrite app_nil_r in EV. destruct (IH _ _ _ _ _ R EV) as (l1 & l2 & s2 & tr1 & -> & R1 & M).
        exists l1, (l2 ++ [x]), s2, tr1. rewrite <- app_assoc. auto.
      * rewrite app_assoc in EV. apply app_inj_tail in EV as [EV _].
        destruct (IH _ _ _ _ _ R EV) as (l1 & l2 & s2 & tr1 & -> & R1 & M).
        exists l1, (l2 ++ [x]), s2, tr1. rewrite <- app_assoc. auto.
Qed.

(** ** progress of the queue *)
Lemma idle_run l : forall s s' tr, Forall (fun x => match x with SRun _ _ => False | _ => True end) l -> run s l = Ok (s', tr) ->
  tr = [] /\ y_phase s' = y_phase s /\ y_mcp s' = y_mcp s /\ d_mril (y_dev s') = d_mril (y_dev s).
Proof.
  induction l as [|x l IH]; intros s s' tr NR E; cbn [sys_run] in E; [injection E as <- <-; auto|].
  inversion NR as [|? ? N1 N2]; subst.
  destruct (step s x) as [[s1 e1]|] eqn:S; cbn [bind] in E; [|discriminate].
  destruct (run s1 l) as [[s2 e2]|] eqn:R; cbn [bind] in E; [|discriminate]. injection E as <- <-.
  destruct (IH _ _ _ N2 R) as (-> & H2 & H3 & H4). rewrite H2, H3, H4. clear IH R.
  destruct x as [c| |now lv]; [| |contradiction]; cbn [sys_step] in S.
  - injection S as <- <-. auto.
  - destruct (dev_tick A (y_dev s)) as [d|] eqn:T; cbn [bind] in S; [|discriminate]. injection S as <- <-.
    destruct (dev_tick_frame _ _ _ T) as (_ & _ & _ & T4). auto.
Qed.
Lemma queue_progress s t m q now lv between now2 lv2 s' tr : CInv sgn (y_mcp s) t -> smode t = QUEUE -> squeue t = m :: q ->
  y_phase s = PMril -> all_finished (y_dev s) now lv ->
  Forall (fun x => match x with SRun _ _ => False | _ => True end) between ->
  run s (SRun now lv :: between ++ [SRun now2 lv2]) = Ok (s', tr) ->
  started tr = [m] /\ squeue (fst (spec_poll t true)) = q /\ CInv sgn (y_mcp s') (fst (spec_poll t true)).
Proof.
  intros CI MO Q PH AF NR E. cbn [sys_run sys_step] in E. unfold sys_main in E. rewrite PH in E.
  destruct (dev_poll_cases A (y_dev s) now lv) as [[_ EP]|[NAF _]]; [|contradiction]. rewrite EP in E. cbn [bind] in E.
  match type of E with context [run ?x _] => set (s1 := x) in * end.
  destruct (run s1 (between ++ [SRun now2 lv2])) as [[s3 e3]|] eqn:R; cbn [bind] in E; [|discriminate]. injection E as <- <-.
  apply sys_run_snoc in R as (s2 & e1 & e2 & R1 & S & ->).
  destruct (idle_run _ _ _ _ NR R1) as (-> & P2 & M2 & D2). cbn [s1 y_phase y_mcp y_dev d_mril with_mril] in P2, M2, D2.
  cbn [sys_step] in S. unfold sys_main in S. rewrite P2, D2 in S. unfold sys_mcp in S. rewrite M2 in S. cbn [mdone] in S.
  destruct (c_step_refines sgn (y_mcp s) t (CPoll true) CI I) as (m1 & CS & CI'). rewrite CS in S. cbn [bind spec_step] in S, CI'.
  assert (SP : spec_poll t true = (mkS q (slog t) (snext t) QUEUE (scur t), [MSendFree (300 - space (m :: q)); MParse m])).
  { unfold spec_poll. rewrite MO, Q. reflexivity. }
  remember (300 - space (m :: q)) as fr eqn:FR. clear FR.
  rewrite SP in S, CI' |- *. cbn [fst snd squeue] in *.
  destruct (acts_run now2 (y_dev s2) _) as [[d evs]|] eqn:AR; cbn [bind] in S; [|discriminate]. injection S as <- <-.
  pose proof (quiet_events A _ (acts_quiet A fwd p2l pinMap print _ _ _ _ _ AR)) as (_ & _ & _ & Q4).
  split; [|split; [reflexivity|exact CI']].
  match goal with |- started (YPoll _ :: map YDev ?f ++ ?r) = _ => change (started (map (YDev (A := A)) f ++ r) = [m]);
    destruct (proj_app A (map YDev f) r) as (_ & _ & _ & ->); destruct (quiet_events A _ (dev_quiet A f)) as (_ & _ & _ & ->) end.
  cbn [app]. change (m :: started evs = [m]). rewrite Q4. reflexivity.
Qed.

(** ** the stored program *)
(** the k-th instruction of the replay: line 1, 2, ..., n-1, 1, 2, ... (line 0 is never replayed) *)
Lemma replay_run l es : forall k, zlen l >= 2 -> Forall (fun e => match e with CPoll _ => True | _ => False end) es ->
  forall t, slog t = l -> smode t = EEPROM -> 0 <= k -> (snext t = 1 + k mod (zlen l - 1) \/ (snext t = zlen l /\ k mod (zlen l - 1) = 0)) ->
  forall i, (i < length (taken es (fst (spec_run t es))))%nat ->
  nth_error (taken es (fst (spec_run t es))) i = nth_error l (Z.to_nat (1 + (k + Z.of_nat i) mod (zlen l - 1))).
Proof.
  induction es as [|e es IH]; intros k L2 F t SL SM K SN i; [cbn; lia|].
  inversion F as [|? ? F1 F2]; subst. destruct e as [c|b]; [contradiction|]. cbn [spec_run spec_step].
  destruct b.
  - unfold spec_poll. rewrite SM.
    set (j := if zlen (slog t) <=? snext t then 1 else snext t).
    assert (J : j = 1 + k mod (zlen (slog t) - 1)).
    { unfold j. pose proof (Z.mod_pos_bound k (zlen (slog t) - 1) ltac:(lia)).
      destruct SN as [SN|[SN KM]]; destruct (Z.leb_spec (zlen (slog t)) (snext t)); lia. }
    pose proof (Z.mod_pos_bound k (zlen (slog t) - 1) ltac:(lia)) as MB.
    destruct (nth_error (slog t) (Z.to_nat j)) as [m|] eqn:N.
    2:{ apply nth_error_None in N. unfold zlen in *. lia. }
    set (t1 := mkS _ _ _ _ _).
    assert (I2 : snext t1 = 1 + (k + 1) mod (zlen (slog t) - 1) \/ (snext t1 = zlen (slog t) /\ (k + 1) mod (zlen (slog t) - 1) = 0)).
    { cbn [t1 snext]. rewrite J. destruct (Z.eq_dec (k mod (zlen (slog t) - 1)) (zlen (slog t) - 2)) as [E|E].
      - right. split; [lia|]. rewrite Z.add_mod, E by lia. destruct (Z.eq_dec (zlen (slog t)) 2) as [E2|E2].
        + rewrite E2. reflexivity.
        + rewrite (Z.mod_small 1) by lia. replace (zlen (slog t) - 2 + 1) with (zlen (slog t) - 1) by lia. apply Z.mod_same. lia.
      - left. rewrite (Z.add_mod k 1) by lia. destruct (Z.eq_dec (zlen (slog t)) 2) as [E2|E2]; [rewrite E2 in *; cbn in *; lia|].
        rewrite (Z.mod_small 1) by lia. rewrite (Z.mod_small (_ + 1)) by lia. lia. }
    specialize (IH (k + 1) L2 F2 t1 eq_refl eq_refl ltac:(lia) I2).
    destruct (spec_run t1 es) as [as_ t2]. cbn [fst taken parsed flat_map app length] in *.
    destruct i as [|i]; intros LT; cbn [nth_error].
    + rewrite Z.add_0_r, <- J. symmetry. exact N.
    + rewrite (IH i ltac:(lia)). do 3 f_equal. f_equal. lia.
  - cbn [spec_poll]. specialize (IH k L2 F2 t eq_refl SM K SN).
    unfold spec_poll. destruct (spec_run t es) as [as_ t2]. cbn [fst taken parsed flat_map app] in *. apply IH.
Qed.

(** ** the motion controller inside the system *)
Notation r_runs := (r_run A fwd inv l2p p2l limits).
Definition never_stop (o : RobotModel.rop A) : Prop := match o with OStop => False | _ => True end.
Definition RP (d d' : device A) (cs : list (Z * F A * F A)) : Prop :=
  exists os evs, r_runs (d_robot d) os = Ok (d_robot d', evs) /\ servo_cmds evs = cs /\ Forall never_stop os.
Lemma RP_refl d d' : d_robot d' = d_robot d -> RP d d' [].
Proof. intros E. exists [], []. cbn. rewrite E. splits; auto. Qed.
Lemma RP_one d d' o evs cs : r_step A fwd inv l2p p2l limits (d_robot d) o = Ok (d_robot d', evs) -> never_stop o -> servo_cmds evs = cs -> RP d d' cs.
Proof.
  intros E N S. exists [o], evs. cbn [r_run]. rewrite E. cbn [bind]. rewrite app_nil_r. splits; auto.
Qed.
Lemma RP_trans d1 d2 d3 a b : RP d1 d2 a -> RP d2 d3 b -> RP d1 d3 (a ++ b).
Proof.
  intros (o1 & e1 & R1 & S1 & N1) (o2 & e2 & R2 & S2 & N2). exists (o1 ++ o2), (e1 ++ e2).
  rewrite run_app, R1. cbn [bind]. rewrite R2. cbn [bind]. rewrite servo_cmds_app, S1, S2. splits; auto. apply Forall_app; auto.
Qed.
Lemma commanded_app (a b : list (sys_ev A)) : commanded (a ++ b) = commanded a ++ commanded b.
Proof. apply flat_map_app. Qed.
Lemma exec_RP now l : forall d buf d' buf' e, exec_acts A fwd p2l pinMap print now d buf l = Ok (d', buf', e) -> RP d d' [] /\ commanded (map YDev e) = [].
Proof.
  induction l as [|a l IH]; intros d buf d' buf' e E; cbn [exec_acts] in E; [injection E as <- _ <-; split; [apply RP_refl|]; reflexivity|].
  destruct (exec_act A fwd p2l pinMap print now d buf a) as [[[d1 b1] e1]|] eqn:EA; cbn [bind] in E; [|discriminate].
  destruct (exec_acts A fwd p2l pinMap print now d1 b1 l) as [[[d2 b2] e2]|] eqn:ER; cbn [bind] in E; [|discriminate].
  injection E as <- _ <-. apply IH in ER as [R2 C2]. clear IH. rewrite map_app, commanded_app, C2, app_nil_r.
  cut (RP d d1 [] /\ commanded (map YDev e1) = []); [intros [R1 C1]; split; [exact (RP_trans _ _ _ _ _ R1 R2)|exact C1]|].
  clear R2 C2. destruct a as [| |m|v|v|i x|i x|i x|pin st|pin st|ms|n|r|[n|]|]; cbn [exec_act] in EA.
  - injection EA as <- _ <-. split; [|reflexivity]. apply (RP_one _ _ OStart [] []); [reflexivity|exact I|reflexivity].
  - injection EA as <- _ <-. split; [|reflexivity]. apply (RP_one _ _ OEnd [] []); [reflexivity|exact I|reflexivity].
  - injection EA as <- _ <-. split; [|reflexivity]. apply (RP_one _ _ (OMethod (if m =? 0 then P2P else LINEAR)) [] []); [reflexivity|exact I|reflexivity].
  - injection EA as <- _ <-. split; [|reflexivity]. apply (RP_one _ _ (OVel (d2f A (num_double A v))) [] []); [reflexivity|exact I|reflexivity].
  - injection EA as <- _ <-. split; [apply RP_refl|]; reflexivity.
  - injection EA as <- _ <-. split; [|reflexivity]. apply (RP_one _ _ (OSetPose i (arg_float A x)) [] []); [reflexivity|exact I|reflexivity].
  - destruct (set_angle A (d_robot d) i (arg_float A x)) as [r|] eqn:SA; cbn [bind] in EA; [|discriminate]. injection EA as <- _ <-.
    split; [|reflexivity]. apply (RP_one _ _ (OSetAngle i (arg_float A x)) [] []); [cbn [r_step]; rewrite SA; reflexivity|exact I|reflexivity].
  - destruct (zget (d_axes d) i); cbn [bind] in EA; [|discriminate]. destruct (zset (d_axes d) i _); cbn [bind] in EA; [|discriminate].
    injection EA as <- _ <-. split; [apply RP_refl|]; reflexivity.
  - destruct (io_addCondition pinMap (d_io d) pin st) as [[ps io]|]; cbn [bind] in EA; [|discriminate]. injection EA as <- _ <-.
    split; [apply RP_refl; reflexivity|]. clear. induction ps; [reflexivity|exact IHps].
  - destruct (io_setOutput pinMap pin st) as [ps|]; cbn [bind] in EA; [|discriminate]. injection EA as <- _ <-.
    split; [apply RP_refl; reflexivity|]. clear. induction ps; [reflexivity|exact IHps].
  - injection EA as <- _ <-. split; [apply RP_refl|]; reflexivity.
  - injection EA as <- _ <-. split; [apply RP_refl|]; reflexivity.
  - destruct (read_item A fwd p2l print d r); cbn [bind] in EA; [|discriminate]. injection EA as <- _ <-. split; [apply RP_refl|]; reflexivity.
  - injection EA as <- _ <-. split; [apply RP_refl|]; reflexivity.
  - injection EA as <- _ <-. split; [apply RP_refl|]; reflexivity.
  - injection EA as <- _ <-. split; [apply RP_refl|]; reflexivity.
Qed.
Lemma acts_RP now l : forall d d' e, acts_run now d l = Ok (d', e) -> RP d d' (commanded e).
Proof.
  induction l as [|a l IH]; intros d d' e E; cbn [sys_acts] in E; [injection E as <- <-; apply RP_refl; reflexivity|].
  destruct (sys_act A fwd p2l pinMap print now d a) as [[d1 e1]|] eqn:S; cbn [bind] in E; [|discriminate].
  destruct (acts_run now d1 l) as [[d2 e2]|] eqn:R; cbn [bind] in E; [|discriminate]. injection E as <- <-.
  rewrite commanded_app. eapply RP_trans; [|exact (IH _ _ _ R)].
  destruct a as [n|t]; cbn [sys_act] in S; [injection S as <- <-; apply RP_refl; reflexivity|].
  destruct (dev_parse A fwd p2l pinMap print now d t) as [[d3 e3]|] eqn:DP; cbn [bind] in S; [|discriminate]. injection S as <- <-.
  unfold dev_parse in DP. destruct (mril_parse t) as [[acts num]|]; cbn [bind] in DP; [|discriminate].
  destruct (exec_acts A fwd p2l pinMap print now d [] acts) as [[[d4 b4] e4]|] eqn:X; cbn [bind] in DP; [|discriminate]. injection DP as <- <-.
  apply exec_RP in X as [X C]. change (commanded (YExec t :: map YDev e4)) with (commanded (A := A) (map YDev e4)). rewrite C.
  rewrite <- (app_nil_r []). eapply RP_trans; [exact X|apply RP_refl; reflexivity].
Qed.
Lemma robot_evs evs : commanded (A := A) (map YDev (flat_map (robot_ev A print) evs)) = servo_cmds evs.
Proof. induction evs as [|x evs IH]; [reflexivity|]. cbn [flat_map]. rewrite map_app, commanded_app, IH. destruct x; reflexivity. Qed.
Lemma robot_RP d d' e : dev_robot A fwd inv l2p p2l limits print d = Ok (d', e) -> RP d d' (commanded (map YDev e)).
Proof.
  unfold dev_robot. destruct (r_process A fwd inv l2p p2l limits (d_robot d)) as [[r evs]|] eqn:R; cbn [bind]; [|discriminate].
  intros E. injection E as <- <-. rewrite robot_evs. apply (RP_one _ _ OProcess evs); [exact R|exact I|reflexivity].
Qed.
Lemma step_RP s x s' e : step s x = Ok (s', e) -> RP (y_dev s) (y_dev s') (commanded e).
Proof.
  destruct x as [c| |now lv]; cbn [sys_step].
  - intros E. injection E as <- <-. apply RP_refl. reflexivity.
  - unfold dev_tick. destruct (r_tick A (d_robot (y_dev s)) 20) as [r|] eqn:RT; cbn [bind]; [|discriminate].
    destruct (tick_axes A (d_axes (y_dev s)) 20); cbn [bind]; [|discriminate]. intros E. injection E as <- <-.
    apply (RP_one _ _ (OTick 20) []); [cbn [r_step]; rewrite RT; reflexivity|exact I|reflexivity].
  - assert (M : forall ev rx p, sys_mcp A fwd p2l pinMap print sgn now s ev rx p = Ok (s', e) -> RP (y_dev s) (y_dev s') (commanded e)).
    { intros ev rx p E. unfold sys_mcp in E. destruct (c_step sgn (y_mcp s) ev) as [[m acts]|]; cbn [bind] in E; [|discriminate].
      destruct (acts_run now (y_dev s) acts) as [[d evs]|] eqn:AR; cbn [bind] in E; [|discriminate]. injection E as <- <-.
      exact (acts_RP _ _ _ _ _ AR). }
    unfold sys_main. destruct (y_phase s) as [| |k| |].
    + destruct (dev_robot A fwd inv l2p p2l limits print (y_dev s)) as [[d e1]|] eqn:R; cbn [bind]; [|discriminate].
      intros E. injection E as <- <-. exact (robot_RP _ _ _ R).
    + destruct (dev_robot A fwd inv l2p p2l limits print (y_dev s)) as [[d e1]|] eqn:R; cbn [bind]; [|discriminate].
      intros E. injection E as <- <-. exact (robot_RP _ _ _ R).
    + destruct (y_rx s) as [|c rx]; [intros E; injection E as <- <-; apply RP_refl; reflexivity|].
      destruct (k <? READ_BYTES); [apply M|intros E; injection E as <- <-; apply RP_refl; reflexivity].
    + destruct (dev_poll_cases A (y_dev s) now lv) as [[_ EP]|[_ (io & _ & EP)]]; rewrite EP; intros E; injection E as <- <-.
      * change (commanded (YPoll (mdone (mkMril (if 0 <? pending (d_mril (y_dev s)) then -1 else pending (d_mril (y_dev s))) true)) ::
          map YDev (if 0 <? pending (d_mril (y_dev s)) then [DSend (A := A) (finished_msg (pending (d_mril (y_dev s))))] else []))) with
          (commanded (map YDev (if 0 <? pending (d_mril (y_dev s)) then [DSend (A := A) (finished_msg (pending (d_mril (y_dev s))))] else []))).
        destruct (0 <? pending (d_mril (y_dev s))); apply RP_refl; reflexivity.
      * apply RP_refl; reflexivity.
    + apply M.
Qed.
(** every run of the system is, for the motion controller, a sequence of its calls (stop is never called) *)
Lemma robot_projection l : forall s s' tr, run s l = Ok (s', tr) -> RP (y_dev s) (y_dev s') (commanded tr).
Proof.
  induction l as [|x l IH]; intros s s' tr E; cbn [sys_run] in E; [injection E as <- <-; apply RP_refl; reflexivity|].
  destruct (step s x) as [[s1 e1]|] eqn:S; cbn [bind] in E; [|discriminate].
  destruct (run s1 l) as [[s2 e2]|] eqn:R; cbn [bind] in E; [|discriminate]. injection E as <- <-.
  rewrite commanded_app. exact (RP_trans _ _ _ _ _ (step_RP _ _ _ _ S) (IH _ _ _ R)).
Qed.
End More.
