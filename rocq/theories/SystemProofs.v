(** Proofs about SystemModel. *)
From Verif Require Import Base Arith ServoModel RobotModel RobotProofs IoModel IoSpec IoProofs WaitModel RingModel RingSpec EepromModel EepromSpec MrilModel MrilSpec MrilProofs McpModel McpSpec McpProofs DeviceModel DeviceSpec DeviceProofs SystemModel SystemSpec.
Open Scope Z_scope.

Section Sys.
Context (A : arith) (fwd : V6 (F A) -> V6 (F A)) (inv : V6 (F A) -> option (V6 (F A))).
Context (l2p p2l : V6 (F A) -> V6 (F A)) (limits : V6 (F A * F A)) (pinMap : list Z) (print : D A -> list Z) (sgn : bool).
Notation sys := (sys A).
Notation step := (sys_step A fwd inv l2p p2l limits pinMap print sgn).
Notation run := (sys_run A fwd inv l2p p2l limits pinMap print sgn).
Notation acts_run := (sys_acts A fwd p2l pinMap print).
Notation mcp_call := (sys_mcp A fwd p2l pinMap print sgn).

Lemma sys_run_app a : forall b s,
  run s (a ++ b) = do (s1, e1) <- run s a; do (s2, e2) <- run s1 b; Ok (s2, e1 ++ e2).
Proof.
  induction a as [|x a IH]; intros b d; cbn [app sys_run bind].
  - destruct (run d b) as [[? ?]|]; reflexivity.
  - destruct (step d x) as [[d1 e1]|]; cbn [bind]; [|reflexivity]. rewrite IH.
    destruct (run d1 a) as [[d2 e2]|]; cbn [bind]; [|reflexivity].
    destruct (run d2 b) as [[d3 e3]|]; cbn [bind]; [|reflexivity]. now rewrite app_assoc.
Qed.
Lemma sys_run_snoc l x s s' e : run s (l ++ [x]) = Ok (s', e) ->
  exists s1 e1 e2, run s l = Ok (s1, e1) /\ step s1 x = Ok (s', e2) /\ e = e1 ++ e2.
Proof.
  rewrite sys_run_app. destruct (run s l) as [[s1 e1]|]; cbn [bind]; [|discriminate].
  cbn [sys_run]. destruct (step s1 x) as [[s2 e2]|] eqn:S; cbn [bind]; [|discriminate].
  intros E. injection E as <- <-. exists s1, e1, e2. rewrite app_nil_r. auto.
Qed.

(** ** what the calls of the protocol parser produce *)
Definition quiet (x : sys_ev A) : Prop := match x with YMcp _ _ | YLoop | YPoll _ => False | _ => True end.
Lemma acts_quiet now l : forall d d' e, acts_run now d l = Ok (d', e) -> Forall quiet e.
Proof.
  induction l as [|a l IH]; intros d d' e E; cbn [sys_acts] in E; [injection E as <- <-; constructor|].
  destruct (sys_act A fwd p2l pinMap print now d a) as [[d1 e1]|] eqn:S; cbn [bind] in E; [|discriminate].
  destruct (acts_run now d1 l) as [[d2 e2]|] eqn:R; cbn [bind] in E; [|discriminate]. injection E as <- <-.
  apply Forall_app; split; [|eapply IH; eauto].
  destruct a as [n|t]; cbn [sys_act] in S; [injection S as <- <-; repeat constructor|].
  destruct (dev_parse A fwd p2l pinMap print now d t) as [[d3 e3]|]; cbn [bind] in S; [|discriminate]. injection S as <- <-.
  constructor; [exact I|]. clear. induction e3; constructor; auto. exact I.
Qed.
Lemma quiet_events e : Forall quiet e -> mcp_events e = [] /\ mcp_acts e = [] /\ handed e = [] /\ started e = [].
Proof.
  induction 1 as [|x e Q H (IH1 & IH2 & IH3 & IH4)]; [auto|].
  unfold mcp_events, mcp_acts, handed, started in *. cbn [flat_map]. destruct x; try contradiction; cbn [app]; auto.
Qed.
Lemma dev_quiet e : Forall quiet (map YDev e).
Proof. induction e; constructor; auto. exact I. Qed.

(** the four projections of a step *)
Lemma step_cases s x s' e : step s x = Ok (s', e) ->
  (mcp_events e = [] /\ mcp_acts e = [] /\ handed e = [] /\ started e = [] /\ y_mcp s' = y_mcp s /\
   y_rx s' = y_rx s ++ arrivals [x]) \/
  (exists ev acts now lv d' es, x = SRun now lv /\ e = YMcp ev acts :: es /\ Forall quiet es /\
     c_step sgn (y_mcp s) ev = Ok (y_mcp s', acts) /\ acts_run now (y_dev s) acts = Ok (d', es) /\ y_dev s' = d' /\
     ((exists k c rx, ev = CChar c /\ y_phase s = PSerial k /\ k < 30 /\ y_rx s = c :: rx /\ y_rx s' = rx /\ y_phase s' = PSerial (k + 1)) \/
      (ev = CPoll (mdone (d_mril (y_dev s))) /\ y_phase s = PMcp /\ y_rx s' = y_rx s /\ y_phase s' = PRobot1))).
Proof.
  assert (Q : forall (p : list (sys_ev A)), Forall quiet p -> mcp_events p = [] /\ mcp_acts p = [] /\ handed p = [] /\ started p = []) by apply quiet_events.
  destruct x as [c| |now lv]; cbn [sys_step].
  - intros E. injection E as <- <-. left. auto 10.
  - destruct (dev_tick A (y_dev s)); cbn [bind]; [|discriminate]. intros E. injection E as <- <-. left. cbn. rewrite app_nil_r. auto 10.
  - unfold sys_main. destruct (y_phase s) as [| |k| |] eqn:P.
    + destruct (dev_robot A fwd inv l2p p2l limits print (y_dev s)) as [[d e1]|]; cbn [bind]; [|discriminate].
      intros E. injection E as <- <-. left. destruct (Q _ (dev_quiet e1)) as (Q1 & Q2 & Q3 & Q4). cbn. rewrite app_nil_r.
      unfold mcp_events, mcp_acts, handed, started in *. auto 10.
    + destruct (dev_robot A fwd inv l2p p2l limits print (y_dev s)) as [[d e1]|]; cbn [bind]; [|discriminate].
      intros E. injection E as <- <-. left. destruct (Q _ (dev_quiet e1)) as (Q1 & Q2 & Q3 & Q4). cbn. rewrite app_nil_r. auto 10.
    + destruct (y_rx s) as [|c rx] eqn:RX; [intros E; injection E as <- <-; left; auto 10|].
      unfold READ_BYTES. destruct (Z.ltb_spec k 30); [|intros E; injection E as <- <-; left; cbn; rewrite ?app_nil_r; auto 10].
      unfold sys_mcp. destruct (c_step sgn (y_mcp s) (CChar c)) as [[m acts]|] eqn:CS; cbn [bind]; [|discriminate].
      destruct (acts_run now (y_dev s) acts) as [[d evs]|] eqn:AR; cbn [bind]; [|discriminate].
      intros E. injection E as <- <-. right. exists (CChar c), acts, now, lv, d, evs.
      split; [reflexivity|]. split; [reflexivity|]. split; [eapply acts_quiet; eauto|]. cbn [y_mcp y_dev]. split; [exact CS|]. split; [exact AR|].
      split; [reflexivity|]. left. exists k, c, rx. auto 10.
    + destruct (dev_poll A now lv (y_dev s)) as [d e1]. intros E. injection E as <- <-. left.
      destruct (Q _ (dev_quiet e1)) as (Q1 & Q2 & Q3 & Q4). cbn. rewrite app_nil_r. unfold mcp_events, mcp_acts, handed, started in *. auto 10.
    + unfold sys_mcp. destruct (c_step sgn (y_mcp s) (CPoll (mdone (d_mril (y_dev s))))) as [[m acts]|] eqn:CS; cbn [bind]; [|discriminate].
      destruct (acts_run now (y_dev s) acts) as [[d evs]|] eqn:AR; cbn [bind]; [|discriminate].
      intros E. injection E as <- <-. right. exists (CPoll (mdone (d_mril (y_dev s)))), acts, now, lv, d, evs.
      split; [reflexivity|]. split; [reflexivity|]. split; [eapply acts_quiet; eauto|]. cbn [y_mcp y_dev]. split; [exact CS|]. split; [exact AR|].
      split; [reflexivity|]. right. auto.
Qed.

Lemma proj_app (a b : list (sys_ev A)) :
  mcp_events (a ++ b) = mcp_events a ++ mcp_events b /\ mcp_acts (a ++ b) = mcp_acts a ++ mcp_acts b /\
  handed (a ++ b) = handed a ++ handed b /\ started (a ++ b) = started a ++ started b.
Proof. unfold mcp_events, mcp_acts, handed, started. rewrite !flat_map_app. auto. Qed.
Lemma arrivals_app a b : arrivals (a ++ b) = arrivals a ++ arrivals b.
Proof. apply flat_map_app. Qed.

(** ** C47 *)
Lemma serial_fifo l : forall s s' tr, run s l = Ok (s', tr) -> handed tr ++ y_rx s' = y_rx s ++ arrivals l.
Proof.
  induction l as [|x l IH]; intros s s' tr E; cbn [sys_run] in E.
  - injection E as <- <-. cbn. now rewrite app_nil_r.
  - destruct (step s x) as [[s1 e1]|] eqn:S; cbn [bind] in E; [|discriminate].
    destruct (run s1 l) as [[s2 e2]|] eqn:R; cbn [bind] in E; [|discriminate]. injection E as <- <-.
    destruct (proj_app e1 e2) as (_ & _ & -> & _). rewrite <- app_assoc, (IH _ _ _ R).
    change (x :: l) with ([x] ++ l). rewrite arrivals_app, !app_assoc. f_equal.
    apply step_cases in S as [(_ & _ & -> & _ & _ & ->)|(ev & acts & now & lv & d' & es & -> & -> & Q & _ & _ & _ & K)].
    + reflexivity.
    + destruct (quiet_events es Q) as (_ & _ & Q3 & _). cbn [arrivals flat_map]. rewrite app_nil_r.
      destruct K as [(k & c & rx & -> & _ & _ & -> & -> & _)|(-> & _ & -> & _)];
        unfold handed in *; cbn [flat_map app]; rewrite Q3; reflexivity.
Qed.

(** bytes read in the current iteration; 30 also stands for "no more bytes in this iteration" *)
Definition read_so_far (p : phase) : Z := match p with PSerial k => k | PMril | PMcp | PRobot1 => 30 | PRobot2 => 0 end.
Lemma quiet_noloop e : Forall quiet e -> ~ In YLoop e.
Proof. intros H I. rewrite Forall_forall in H. exact (H _ I). Qed.
Lemma handed_sub (a b c : list (sys_ev A)) : zlen (handed b) <= zlen (handed (a ++ b ++ c)).
Proof.
  destruct (proj_app a (b ++ c)) as (_ & _ & -> & _). destruct (proj_app b c) as (_ & _ & -> & _). rewrite !zlen_app.
  pose proof (zlen_nonneg (handed a)). pose proof (zlen_nonneg (handed c)). lia.
Qed.
Lemma visit_step s x s' e : step s x = Ok (s', e) -> 0 <= read_so_far (y_phase s) <= 30 ->
  0 <= read_so_far (y_phase s') <= 30 /\
  ((exists e', e = YLoop :: e' /\ handed e = [] /\ read_so_far (y_phase s') = 0) \/
   (~ In YLoop e /\ zlen (handed e) + read_so_far (y_phase s) <= read_so_far (y_phase s'))).
Proof.
  intros S R. pose proof S as S0.
  apply step_cases in S as [(_ & _ & H & _ & _ & _)|(ev & acts & now & lv & d' & es & -> & -> & Q & _ & _ & _ & K)].
  - rewrite H. change (zlen (@nil Z)) with 0.
    destruct x as [c| |now lv]; cbn [sys_step] in S0.
    + injection S0 as <- <-. cbn [y_phase]. split; [exact R|]. right. split; [intros []|lia].
    + destruct (dev_tick A (y_dev s)); cbn [bind] in S0; [|discriminate]. injection S0 as <- <-. cbn [y_phase]. split; [exact R|].
      right. split; [intros []|lia].
    + unfold sys_main in S0. destruct (y_phase s) as [| |k| |] eqn:P; cbn [read_so_far] in *.
      * destruct (dev_robot A fwd inv l2p p2l limits print (y_dev s)) as [[d e1]|]; cbn [bind] in S0; [|discriminate].
        injection S0 as <- <-. cbn [y_phase read_so_far]. split; [lia|]. left. exists (map YDev e1). auto.
      * destruct (dev_robot A fwd inv l2p p2l limits print (y_dev s)) as [[d e1]|]; cbn [bind] in S0; [|discriminate].
        injection S0 as <- <-. cbn [y_phase read_so_far]. split; [lia|]. right. split; [apply quiet_noloop, dev_quiet|lia].
      * destruct (y_rx s) as [|c rx] eqn:RX; [injection S0 as <- <-; cbn [y_phase read_so_far]; split; [lia|right; split; [intros []|lia]]|].
        unfold READ_BYTES in S0. destruct (Z.ltb_spec k 30); [|injection S0 as <- <-; cbn [y_phase read_so_far]; split; [lia|right; split; [intros []|lia]]].
        unfold sys_mcp in S0. destruct (c_step sgn (y_mcp s) (CChar c)) as [[m acts]|] eqn:CS; cbn [bind] in S0; [|discriminate].
        destruct (acts_run now (y_dev s) acts) as [[d evs]|] eqn:AR; cbn [bind] in S0; [|discriminate]. injection S0 as <- <-. discriminate.
      * destruct (dev_poll A now lv (y_dev s)) as [d e1]. injection S0 as <- <-. cbn [y_phase read_so_far]. split; [lia|].
        right. split; [|lia]. intros [X|X]; [discriminate|]. exact (quiet_noloop _ (dev_quiet e1) X).
      * unfold sys_mcp in S0. destruct (c_step sgn (y_mcp s) (CPoll (mdone (d_mril (y_dev s))))) as [[m acts]|] eqn:CS; cbn [bind] in S0; [|discriminate].
        destruct (acts_run now (y_dev s) acts) as [[d evs]|] eqn:AR; cbn [bind] in S0; [|discriminate]. injection S0 as <- <-.
        cbn [y_phase read_so_far]. split; [lia|]. right. split; [|lia]. intros [X|X]; [discriminate|].
        exact (quiet_noloop _ (acts_quiet _ _ _ _ _ AR) X).
  - destruct (quiet_events es Q) as (_ & _ & Q3 & _).
    assert (NL : ~ In YLoop (YMcp ev acts :: es)) by (intros [X|X]; [discriminate|]; exact (quiet_noloop _ Q X)).
    destruct K as [(k & c & rx & -> & P & L & _ & _ & P')|(-> & P & _ & P')]; rewrite P, P' in *; cbn [read_so_far] in *.
    + split; [lia|]. right. split; [exact NL|]. change (handed (YMcp (CChar c) acts :: es)) with (c :: handed es). rewrite Q3. change (zlen [c]) with 1. lia.
    + split; [lia|]. right. split; [exact NL|]. match goal with |- zlen ?h + _ <= _ => change h with (handed es) end. rewrite Q3. change (zlen (@nil Z)) with 0. lia.
Qed.
Lemma visit_prefix l : forall s s' tr, run s l = Ok (s', tr) -> 0 <= read_so_far (y_phase s) <= 30 ->
  forall b c, tr = b ++ c -> ~ In YLoop b -> zlen (handed b) <= 30 - read_so_far (y_phase s).
Proof.
  induction l as [|x l IH]; intros s s' tr E R b c EB NB; cbn [sys_run] in E.
  - injection E as <- <-. destruct b; [|discriminate]. change (zlen (@handed A [])) with 0. lia.
  - destruct (step s x) as [[s1 e1]|] eqn:S; cbn [bind] in E; [|discriminate].
    destruct (run s1 l) as [[s2 e2]|] eqn:RR; cbn [bind] in E; [|discriminate]. injection E as <- <-.
    destruct (visit_step _ _ _ _ S R) as [R1 [(e' & -> & _ & _)|[NL C]]].
    + destruct b as [|y b]; [change (zlen (@handed A [])) with 0; lia|]. cbn in EB. injection EB as <- _. exfalso. apply NB. left. reflexivity.
    + apply app_eq_app in EB as (m & [[E1 E2]|[E1 E2]]).
      * pose proof (handed_sub [] b m) as HS. cbn [app] in HS. rewrite <- E1 in HS. lia.
      * subst b. destruct (proj_app e1 m) as (_ & _ & -> & _). rewrite zlen_app.
        pose proof (IH _ _ _ RR R1 m c E2) as IM. assert (~ In YLoop m) by (intros X; apply NB; apply in_or_app; auto).
        specialize (IM H). lia.
Qed.
Lemma visit_segment l : forall s s' tr, run s l = Ok (s', tr) -> 0 <= read_so_far (y_phase s) <= 30 ->
  forall a b c, tr = a ++ b ++ c -> ~ In YLoop b -> zlen (handed b) <= 30.
Proof.
  induction l as [|x l IH]; intros s s' tr E R a b c EB NB; cbn [sys_run] in E.
  - injection E as <- <-. destruct a; [|discriminate]. destruct b; [|discriminate]. change (zlen (@handed A [])) with 0. lia.
  - destruct (step s x) as [[s1 e1]|] eqn:S; cbn [bind] in E; [|discriminate].
    destruct (run s1 l) as [[s2 e2]|] eqn:RR; cbn [bind] in E; [|discriminate]. injection E as <- <-.
    destruct (visit_step _ _ _ _ S R) as [R1 V].
    apply app_eq_app in EB as (m & [[E1 E2]|[E1 E2]]); [|eapply IH; eauto].
    symmetry in E2. apply app_eq_app in E2 as (q & [[E3 E4]|[E3 E4]]).
    + (* m = b ++ q *) 
      assert (L : zlen (handed b) <= zlen (handed e1)) by (subst e1 m; apply handed_sub).
      destruct V as [(e' & -> & H & _)|[_ C]]; [rewrite H in L; change (zlen (@nil Z)) with 0 in L; lia|lia].
    + (* b = m ++ q *) subst b. destruct (proj_app m q) as (_ & _ & -> & _). rewrite zlen_app.
      assert (NQ : ~ In YLoop q) by (intros X; apply NB; apply in_or_app; auto).
      pose proof (visit_prefix _ _ _ _ RR R1 q c E4 NQ) as P.
      assert (L : zlen (handed m) <= zlen (handed e1)).
      { subst e1. pose proof (handed_sub a m []) as HS. now rewrite app_nil_r in HS. }
      destruct V as [(e0 & -> & H & Z0)|[_ C]]; [rewrite H in L; change (zlen (@nil Z)) with 0 in L; lia|lia].
Qed.

(** ** the protocol parser inside the system *)
Lemma mcp_projection l : forall s s' tr, run s l = Ok (s', tr) ->
  c_run sgn (y_mcp s) (mcp_events tr) = Ok (mcp_acts tr, y_mcp s').
Proof.
  induction l as [|x l IH]; intros s s' tr E; cbn [sys_run] in E.
  - injection E as <- <-. reflexivity.
  - destruct (step s x) as [[s1 e1]|] eqn:S; cbn [bind] in E; [|discriminate].
    destruct (run s1 l) as [[s2 e2]|] eqn:R; cbn [bind] in E; [|discriminate]. injection E as <- <-.
    destruct (proj_app e1 e2) as (-> & -> & _ & _). apply IH in R.
    apply step_cases in S as [(-> & -> & _ & _ & M & _)|(ev & acts & now & lv & d' & es & -> & -> & Q & CS & _ & _ & K)].
    + rewrite M in R. exact R.
    + destruct (quiet_events es Q) as (Q1 & Q2 & _ & _). unfold mcp_events, mcp_acts in *. cbn [flat_map app]. rewrite Q1, Q2.
      cbn [app c_run]. rewrite CS. cbn [bind]. rewrite R. reflexivity.
Qed.
Lemma started_taken tr : started tr = taken (mcp_events tr) (@mcp_acts A tr).
Proof.
  induction tr as [|x tr IH]; [reflexivity|]. unfold started, mcp_events, mcp_acts in *. cbn [flat_map].
  destruct x as [|e acts| | |]; cbn [app]; auto. destruct e; cbn [app taken]; [exact IH|]. now rewrite IH.
Qed.
Lemma handed_commands tr : forall cur, commands cur (mcp_events tr) = commands cur (map CChar (@handed A tr)).
Proof.
  induction tr as [|x tr IH]; intros cur; [reflexivity|]. unfold handed, mcp_events in *. cbn [flat_map].
  destruct x as [|e acts| | |]; cbn [app]; auto. destruct e; cbn [app map commands]; [|apply IH].
  destruct (c =? 13); rewrite IH; reflexivity.
Qed.

(** ** starting an instruction *)
Definition finished_before (s0 : sys) (l : list stim) (s : sys) : Prop :=
  (exists l1 t lv1 l2 s1 e1, l = l1 ++ SRun t lv1 :: l2 /\
     Forall (fun x => match x with SRun _ _ => False | _ => True end) l2 /\
     run s0 l1 = Ok (s1, e1) /\ y_phase s1 = PMril /\ all_finished (y_dev s1) t lv1) /\
  d_io (y_dev s) = [] /\ is_moving (d_robot (y_dev s)) = false.
Lemma dev_tick_frame d d' : dev_tick A d = Ok d' ->
  d_io d' = d_io d /\ is_moving (d_robot d') = is_moving (d_robot d) /\ d_wait d' = d_wait d /\ d_mril d' = d_mril d.
Proof.
  unfold dev_tick. destruct (r_tick A (d_robot d) 20) as [r|] eqn:RT; cbn [bind]; [|discriminate].
  destruct (tick_axes A (d_axes d) 20); cbn [bind]; [|discriminate]. intros E. injection E as <-.
  apply tick_frame in RT as [sv ->]. cbn. auto.
Qed.
Lemma mcp_phase_finished s0 l : forall s tr, y_phase s0 = PRobot1 -> run s0 l = Ok (s, tr) ->
  y_phase s = PMcp -> mdone (d_mril (y_dev s)) = true -> finished_before s0 l s.
Proof.
  induction l as [|x l IH] using Coq.Lists.List.rev_ind; intros s tr P0 E P M.
  - cbn in E. injection E as <- <-. congruence.
  - apply sys_run_snoc in E as (s1 & e1 & e2 & R & S & ->).
    destruct x as [c| |now lv]; cbn [sys_step] in S.
    + injection S as <- <-. cbn [y_phase y_dev] in *.
      destruct (IH _ _ P0 R P M) as ((l1 & t & lv1 & l2 & s2 & e2' & -> & NR & R2 & P2 & AF) & IO & MV).
      split; [|auto]. exists l1, t, lv1, (l2 ++ [SArrive c]), s2, e2'. rewrite <- app_assoc. cbn [app]. splits; auto.
      apply Forall_app; split; auto.
    + destruct (dev_tick A (y_dev s1)) as [d|] eqn:T; cbn [bind] in S; [|discriminate]. injection S as <- <-. cbn [y_phase y_dev] in *.
      destruct (dev_tick_frame _ _ T) as (T1 & T2 & T3 & T4). rewrite T4 in M.
      destruct (IH _ _ P0 R P M) as ((l1 & t & lv1 & l2 & s2 & e2' & -> & NR & R2 & P2 & AF) & IO & MV).
      unfold finished_before. cbn [y_dev]. rewrite T1, T2. split; [|auto].
      exists l1, t, lv1, (l2 ++ [STick]), s2, e2'. rewrite <- app_assoc. cbn [app]. splits; auto. apply Forall_app; split; auto.
    + unfold sys_main in S. destruct (y_phase s1) as [| |k| |] eqn:P1.
      * destruct (dev_robot A fwd inv l2p p2l limits print (y_dev s1)) as [[d e]|]; cbn [bind] in S; [|discriminate]. injection S as <- <-. discriminate.
      * destruct (dev_robot A fwd inv l2p p2l limits print (y_dev s1)) as [[d e]|]; cbn [bind] in S; [|discriminate]. injection S as <- <-. discriminate.
      * destruct (y_rx s1) as [|c rx]; [injection S as <- <-; discriminate|]. destruct (k <? READ_BYTES); [|injection S as <- <-; discriminate].
        unfold sys_mcp in S. destruct (c_step sgn (y_mcp s1) (CChar c)) as [[m acts]|]; cbn [bind] in S; [|discriminate].
        destruct (acts_run now (y_dev s1) acts) as [[d evs]|]; cbn [bind] in S; [|discriminate]. injection S as <- <-. discriminate.
      * destruct (dev_poll_cases A (y_dev s1) now lv) as [[AF E]|[NAF (io & _ & E)]]; rewrite E in S; injection S as <- <-;
          cbn [y_dev d_mril with_mril mdone] in M; [|discriminate].
        unfold finished_before. cbn [y_dev]. split.
        -- exists l, now, lv, [], s1, e1. splits; auto.
        -- split; [reflexivity|]. destruct AF as (_ & MV & _). exact MV.
      * unfold sys_mcp in S. destruct (c_step sgn (y_mcp s1) (CPoll (mdone (d_mril (y_dev s1))))) as [[m acts]|]; cbn [bind] in S; [|discriminate].
        destruct (acts_run now (y_dev s1) acts) as [[d evs]|]; cbn [bind] in S; [|discriminate]. injection S as <- <-. discriminate.
Qed.
Lemma started_finished s0 l s tr x s' e : y_phase s0 = PRobot1 -> run s0 l = Ok (s, tr) ->
  step s x = Ok (s', e) -> started e <> [] -> finished_before s0 l s.
Proof.
  intros P0 R S ST. apply step_cases in S as [(_ & _ & _ & Z0 & _ & _)|(ev & acts & now & lv & d' & es & -> & -> & Q & CS & _ & _ & K)]; [contradiction|].
  destruct (quiet_events es Q) as (_ & _ & _ & Q4).
  destruct K as [(k & c & rx & -> & _)|(-> & P & _)]; [exfalso; apply ST; exact Q4|].
  destruct (mdone (d_mril (y_dev s))) eqn:M; [eapply mcp_phase_finished; eauto|].
  exfalso. apply ST. cbn [c_step] in CS.
  assert (B : m_process sgn false (cm (y_mcp s)) = Ok (cm (y_mcp s), [])) by (destruct (cm (y_mcp s)) as [[] ? ?]; reflexivity).
  rewrite B in CS. cbn [bind] in CS. injection CS as _ <-. exact Q4.
Qed.

(** ** FIFO *)
Definition qmode (t : sstate) : Prop := smode t = QUEUE \/ (smode t = EXECUTE /\ squeue t = []).
Lemma plain_step t : qmode t -> plain_command (payload (scur t)) ->
  let t' := fst (spec_command t (payload (scur t))) in
  squeue t' = (match queueable (payload (scur t)) with Some m => enqueue (squeue t) m | None => squeue t end) /\ qmode t'.
Proof.
  intros Q [P1 P2]. unfold spec_command, queueable, qmode in *. destruct (payload (scur t)) as [|c rest]; [cbn; auto|].
  destruct (Z.eqb_spec c 66); [cbn; auto|]. destruct (Z.eqb_spec c 69); [cbn; auto|].
  destruct (Z.eqb_spec c 81) as [->|N81].
  - destruct rest; [congruence|]. cbn. auto.
  - destruct (Z.eqb_spec c 87) as [->|N87]; [exfalso; apply (P2 rest); reflexivity|]. cbn. auto.
Qed.
End Sys.
