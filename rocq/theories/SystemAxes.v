(** The whole system in exact arithmetic: additional axes, and the absence of every fault. *)
From Coq Require Import Reals Lra.
From Verif Require Import Base Arith ServoModel ServoSpec ServoProofs RobotModel RobotSpec RobotProofs RobotExact IoModel IoSpec WaitModel RingModel EepromModel EepromSpec MrilModel MrilSpec MrilProofs McpModel McpSpec McpProofs DeviceModel DeviceSpec DeviceProofs SystemModel SystemSpec SystemProofs SystemSafe SystemQueue SystemOrigin SystemMore.
Open Scope Z_scope.

(** additional axes: in working order, limits as configured *)
Definition AX1 (o x : servo RA) : Prop := SR x /\ s_min x = s_min o /\ s_max x = s_max o.
Definition AXI (orig cur : list (servo RA)) : Prop := Forall2 AX1 orig cur.
(** an event that does not send an additional axis out of its limits *)
Definition axis_ok (orig : list (servo RA)) (e : dev_ev RA) : Prop :=
  match e with DAxis i a => forall o, nth_error orig (Z.to_nat i) = Some o -> (s_min o <= a <= s_max o)%R | _ => True end.

Lemma AX1_command o x (a : R) : AX1 o x -> (s_min o <= a <= s_max o)%R -> AX1 o (servo_set_target RA x a).
Proof.
  intros ((S & A & B & C & M & V) & E1 & E2) R. unfold AX1, SR, sane, in_range in *; cbn. rewrite E1, E2 in *. splits; try tauto; lra.
Qed.
Lemma AX1_vel o x (v : R) : AX1 o x -> AX1 o (servo_set_vel RA x v).
Proof.
  intros ((S & A & B & C & M & V) & E1 & E2). rewrite set_vel_RA. unfold AX1, SR, sane, in_range in *; cbn. splits; try tauto; mcases; lra.
Qed.
Lemma AXI_tick orig cur : AXI orig cur -> exists cur', tick_axes RA cur 20 = Ok cur' /\ AXI orig cur'.
Proof.
  induction 1 as [|o x orig cur H _ (cur' & E & IH)]; cbn [tick_axes]; [exists []; split; [reflexivity|constructor]|].
  destruct H as (SX & E1 & E2). destruct (SR_process x 20 SX) as (x' & p & -> & SX' & ->). cbn [bind]. rewrite E. cbn [bind].
  eexists. split; [reflexivity|]. apply Forall2_cons; [|exact IH].
  destruct (advance_config x 20) as (C1 & C2 & C3 & C4 & C5). split; [exact SX'|]. split; congruence.
Qed.
Lemma AXI_vel orig cur (v : R) : AXI orig cur -> AXI orig (map (fun s => servo_set_vel RA s v) cur).
Proof. induction 1; cbn; constructor; auto. now apply AX1_vel. Qed.
Lemma AXI_nth orig cur i x : AXI orig cur -> nth_error cur i = Some x -> exists o, nth_error orig i = Some o /\ AX1 o x.
Proof.
  intros H. revert i. induction H as [|o y orig cur H _ IH]; intros [|i] E; try discriminate; cbn in *; [|auto].
  injection E as ->. eauto.
Qed.
Lemma AXI_upd orig cur i x : AXI orig cur -> (forall o, nth_error orig i = Some o -> AX1 o x) -> AXI orig (upd cur i x).
Proof.
  intros H. revert i. induction H as [|o y orig cur H HR IH]; intros [|i] E; cbn [upd] in *; try (apply Forall2_nil).
  - apply Forall2_cons; [apply E; reflexivity|exact HR].
  - apply Forall2_cons; [exact H|]. apply IH. exact E.
Qed.

Section Axes.
Context (fwd : V6 R -> V6 R) (inv : V6 R -> option (V6 R)) (l2p p2l : V6 R -> V6 R) (limits : V6 (R * R)).
Context (pinMap : list Z) (print : R -> list Z) (sgn : bool) (orig : list (servo RA)).
Notation step := (sys_step RA fwd inv l2p p2l limits pinMap print sgn).
Notation run := (sys_run RA fwd inv l2p p2l limits pinMap print sgn).
Notation acts_run := (sys_acts RA fwd p2l pinMap print).

Lemma exec_AXI now l : forall d buf d' buf' e, exec_acts RA fwd p2l pinMap print now d buf l = Ok (d', buf', e) ->
  AXI orig (d_axes d) -> Forall (axis_ok orig) e -> AXI orig (d_axes d').
Proof.
  induction l as [|a l IH]; intros d buf d' buf' e E H OK; cbn [exec_acts] in E; [injection E as <- _ _; exact H|].
  destruct (exec_act RA fwd p2l pinMap print now d buf a) as [[[d1 b1] e1]|] eqn:EA; cbn [bind] in E; [|discriminate].
  destruct (exec_acts RA fwd p2l pinMap print now d1 b1 l) as [[[d2 b2] e2]|] eqn:ER; cbn [bind] in E; [|discriminate].
  injection E as <- _ <-. apply Forall_app in OK as [O1 O2]. apply (IH _ _ _ _ _ ER); [|exact O2]. clear IH ER O2.
  destruct a as [| |m|v|v|i x|i x|i x|pin st|pin st|ms|n|r|[n|]|]; cbn [exec_act] in EA; try (injection EA as <- _ _; exact H).
  - injection EA as <- _ _. cbn [d_axes with_axes]. now apply AXI_vel.
  - destruct (set_angle RA (d_robot d) i (arg_float RA x)); cbn [bind] in EA; [|discriminate]. injection EA as <- _ _. exact H.
  - destruct (zget (d_axes d) i) as [s|] eqn:G; cbn [bind] in EA; [|discriminate].
    destruct (zset (d_axes d) i (servo_set_target RA s (arg_float RA x))) as [l1|] eqn:ZS; cbn [bind] in EA; [|discriminate].
    injection EA as <- _ <-. cbn [d_axes with_axes]. unfold zget in G. unfold zset in ZS.
    destruct ((0 <=? i) && (i <? zlen (d_axes d))); [|discriminate]. injection ZS as <-.
    destruct (nth_error (d_axes d) (Z.to_nat i)) as [s1|] eqn:N; [|discriminate]. injection G as ->.
    destruct (AXI_nth _ _ _ _ H N) as (o & NO & A1). apply AXI_upd; [exact H|]. intros o' NO'.
    assert (o' = o) by congruence. subst o'. apply AX1_command; [exact A1|]. inversion O1 as [|? ? K _]; subst. exact (K o NO).
  - destruct (io_addCondition pinMap (d_io d) pin st) as [[ps io]|]; cbn [bind] in EA; [|discriminate]. injection EA as <- _ _. exact H.
  - destruct (io_setOutput pinMap pin st) as [ps|]; cbn [bind] in EA; [|discriminate]. injection EA as <- _ _. exact H.
  - destruct (read_item RA fwd p2l print d r); cbn [bind] in EA; [|discriminate]. injection EA as <- _ _. exact H.
Qed.
(** the same for events of the system *)
Definition axis_ok_ev (e : sys_ev RA) : Prop := match e with YDev d => axis_ok orig d | _ => True end.
Lemma axis_ok_map e : Forall axis_ok_ev (map YDev e) -> Forall (axis_ok orig) e.
Proof. induction e as [|x e IH]; cbn [map]; intros H; inversion H; subst; constructor; auto. Qed.
Lemma acts_AXI now l : forall d d' e, acts_run now d l = Ok (d', e) -> AXI orig (d_axes d) -> Forall axis_ok_ev e -> AXI orig (d_axes d').
Proof.
  induction l as [|a l IH]; intros d d' e E H OK; cbn [sys_acts] in E; [injection E as <- <-; exact H|].
  destruct (sys_act RA fwd p2l pinMap print now d a) as [[d1 e1]|] eqn:S; cbn [bind] in E; [|discriminate].
  destruct (acts_run now d1 l) as [[d2 e2]|] eqn:R; cbn [bind] in E; [|discriminate]. injection E as <- <-.
  apply Forall_app in OK as [O1 O2]. apply (IH _ _ _ R); [|exact O2].
  destruct a as [n|t]; cbn [sys_act] in S; [injection S as <- <-; exact H|].
  destruct (dev_parse RA fwd p2l pinMap print now d t) as [[d3 e3]|] eqn:DP; cbn [bind] in S; [|discriminate]. injection S as <- <-.
  unfold dev_parse in DP. destruct (mril_parse t) as [[acts num]|]; cbn [bind] in DP; [|discriminate].
  destruct (exec_acts RA fwd p2l pinMap print now d [] acts) as [[[d4 b4] e4]|] eqn:X; cbn [bind] in DP; [|discriminate]. injection DP as <- <-.
  inversion O1 as [|? ? _ O3]; subst. apply exec_AXI in X; auto. now apply axis_ok_map.
Qed.
Lemma step_AXI s x s' e : step s x = Ok (s', e) -> AXI orig (d_axes (y_dev s)) -> Forall axis_ok_ev e -> AXI orig (d_axes (y_dev s')).
Proof.
  intros E H OK. destruct x as [c| |now lv]; cbn [sys_step] in E.
  - injection E as <- <-. exact H.
  - unfold dev_tick in E. destruct (r_tick RA (d_robot (y_dev s)) 20) as [r|]; cbn [bind] in E; [|discriminate].
    destruct (AXI_tick _ _ H) as (cur' & T & H'). rewrite T in E. cbn [bind] in E. injection E as <- <-. exact H'.
  - assert (M : forall ev rx p, sys_mcp RA fwd p2l pinMap print sgn now s ev rx p = Ok (s', e) -> AXI orig (d_axes (y_dev s'))).
    { intros ev rx p X. unfold sys_mcp in X. destruct (c_step sgn (y_mcp s) ev) as [[m acts]|]; cbn [bind] in X; [|discriminate].
      destruct (acts_run now (y_dev s) acts) as [[d evs]|] eqn:AR; cbn [bind] in X; [|discriminate]. injection X as <- <-.
      inversion OK; subst. eapply acts_AXI; eauto. }
    assert (RB : forall d1 e1, dev_robot RA fwd inv l2p p2l limits print (y_dev s) = Ok (d1, e1) -> d_axes d1 = d_axes (y_dev s)).
    { intros d1 e1 X. unfold dev_robot in X. destruct (r_process RA fwd inv l2p p2l limits (d_robot (y_dev s))) as [[r evs]|]; cbn [bind] in X; [|discriminate].
      injection X as <- _. reflexivity. }
    unfold sys_main in E. destruct (y_phase s) as [| |k| |].
    + destruct (dev_robot RA fwd inv l2p p2l limits print (y_dev s)) as [[d e1]|] eqn:R; cbn [bind] in E; [|discriminate].
      injection E as <- <-. cbn [y_dev]. rewrite (RB _ _ eq_refl). exact H.
    + destruct (dev_robot RA fwd inv l2p p2l limits print (y_dev s)) as [[d e1]|] eqn:R; cbn [bind] in E; [|discriminate].
      injection E as <- <-. cbn [y_dev]. rewrite (RB _ _ eq_refl). exact H.
    + destruct (y_rx s) as [|c rx]; [injection E as <- <-; exact H|].
      destruct (k <? READ_BYTES); [eapply M; eauto|injection E as <- <-; exact H].
    + destruct (dev_poll_cases RA (y_dev s) now lv) as [[_ EP]|[_ (io & _ & EP)]]; rewrite EP in E; injection E as <- <-; exact H.
    + eapply M; eauto.
Qed.
Lemma run_AXI l : forall s s' tr, run s l = Ok (s', tr) -> AXI orig (d_axes (y_dev s)) -> Forall axis_ok_ev tr -> AXI orig (d_axes (y_dev s')).
Proof.
  induction l as [|x l IH]; intros s s' tr E H OK; cbn [sys_run] in E; [injection E as <- <-; exact H|].
  destruct (step s x) as [[s1 e1]|] eqn:S; cbn [bind] in E; [|discriminate].
  destruct (run s1 l) as [[s2 e2]|] eqn:R; cbn [bind] in E; [|discriminate]. injection E as <- <-.
  apply Forall_app in OK as [O1 O2]. eapply IH; eauto. eapply step_AXI; eauto.
Qed.
End Axes.

(** ** No fault at all *)
Definition posB (p : V6 R) : Prop := (Rabs (v0 p) <= 100000000)%R /\ (Rabs (v1 p) <= 100000000)%R /\ (Rabs (v2 p) <= 100000000)%R.
Lemma posB_set6 p i (x : R) : posB p -> (0 <= i < 3 -> (Rabs x <= 100000000)%R) -> posB (set6 p i x).
Proof.
  intros (P0 & P1 & P2) H. unfold posB, set6. cbn [v0 v1 v2].
  splits.
  - destruct (Z.eqb_spec i 0); [apply H; lia|exact P0].
  - destruct (Z.eqb_spec i 1); [apply H; lia|exact P1].
  - destruct (Z.eqb_spec i 2); [apply H; lia|exact P2].
Qed.
Lemma to_int_RA (x : R) : (0 <= x <= 2147483647)%R -> exists n, to_int RA x = Ok n.
Proof.
  intros H. unfold to_int. cbn [ftoz RA]. destruct (rtrunc_pos x) as [[L _] P]; [lra|].
  assert (U : (IZR (rtrunc x) <= 2147483647)%R) by lra. apply le_IZR in U.
  destruct (Z.leb_spec (-2147483648) (rtrunc x)); [|lia]. destruct (Z.leb_spec (rtrunc x) 2147483647); [|lia]. eexists; reflexivity.
Qed.
Lemma sqrt_le_abs3 x y z : (sqrt (x * x + y * y + z * z) <= Rabs x + Rabs y + Rabs z)%R.
Proof.
  assert (P : forall u, (0 <= Rabs u)%R) by apply Rabs_pos. pose proof (P x). pose proof (P y). pose proof (P z).
  rewrite <- (sqrt_square (Rabs x + Rabs y + Rabs z)) by lra. apply sqrt_le_1_alt.
  assert (Q : forall u, (u * u = Rabs u * Rabs u)%R) by (intros u; unfold Rabs; destruct (Rcase_abs u); ring).
  rewrite (Q x), (Q y), (Q z). nra.
Qed.
Lemma linear_RA a b : posB a -> posB b -> exists n, linear_steps RA a b = Ok n.
Proof.
  intros (A0 & A1 & A2) (B0 & B1 & B2). unfold linear_steps.
  set (dist := dist3 RA _ _ _).
  assert (D : (0 <= dist <= 600000000)%R).
  { unfold dist, dist3. cbn [d2f f2d dsqrt dadd dmul fsub RA]. split; [apply sqrt_pos|].
    eapply Rle_trans; [apply sqrt_le_abs3|].
    assert (T : forall u v, (Rabs u <= 100000000)%R -> (Rabs v <= 100000000)%R -> (Rabs (u - v) <= 200000000)%R).
    { intros u v U V. eapply Rle_trans; [apply Rabs_triang|]. rewrite Rabs_Ropp. lra. }
    apply Rle_trans with (200000000 + 200000000 + 200000000)%R; [|lra].
    apply Rplus_le_compat; [apply Rplus_le_compat|]; apply T; assumption. }
  assert (H5 : (f_dec RA 5 (-1) : R) = (1 / 2)%R).
  { unfold f_dec. cbn [d2f ddec RA]. change (F RA) with R. unfold rdec, powerRZ. replace (Pos.to_nat 1) with 1%nat by reflexivity. cbn [pow]. field. }
  cbn [fadd fdiv fofz RA]. rewrite H5.
  destruct (to_int_RA (dist / (1 / 2) + 1)) as [n ->].
  { replace (dist / (1 / 2) + 1)%R with (2 * dist + 1)%R by field. lra. }
  cbn [bind].
  assert (RO : (0 <= rotation_angle RA a b <= PI)%R).
  { unfold rotation_angle. destruct (norm3 RA (orient RA a)) as [[a0 a1] a2], (norm3 RA (orient RA b)) as [[b0 b1] b2]. apply acos_bound. }
  pose proof PI_4. destruct (to_int_RA (rotation_angle RA a b / 15 + 1)) as [k ->]; [lra|]. cbn [bind]. eexists; reflexivity.
Qed.

Section NoFault.
Context (fwd : V6 R -> V6 R) (inv : V6 R -> option (V6 R)) (l2p p2l : V6 R -> V6 R) (limits : V6 (R * R)).
Context (pinMap : list Z) (print : R -> list Z) (sgn : bool) (orig : list (servo RA)).
Context (FB : forall a, posB (fwd a)) (PM : zlen pinMap = 10).
Notation step := (sys_step RA fwd inv l2p p2l limits pinMap print sgn).
Notation run := (sys_run RA fwd inv l2p p2l limits pinMap print sgn).
Notation acts_run := (sys_acts RA fwd p2l pinMap print).
Notation process := (r_process RA fwd inv l2p p2l limits).
Notation start_move := (r_start_move RA fwd inv l2p p2l limits).

Definition BR (r : robot RA) : Prop := RR r /\ posB (r_targetP r) /\ nc RA r.
Lemma start_BR r : BR r -> exists r' e, start_move r = Ok (r', e) /\ BR r'.
Proof.
  intros (H1 & H2 & H3).
  assert (E : exists r' e, start_move r = Ok (r', e)).
  { unfold r_start_move, r_plan. cbn [r_method with_steps]. unfold nc in H3.
    destruct (r_method r); [| |congruence]; cbn [bind].
    - destruct (outside _ _ _ _); [eauto|]. destruct (outside _ _ _ _); [eauto|]. destruct (negb _); [destruct (command_servos _ _ _ _); eauto|eauto].
    - destruct (inv _); cbn [bind]; [|eauto]. destruct (outside _ _ _ _); [eauto|]. destruct (outside _ _ _ _); [eauto|]. destruct (negb _); [destruct (command_servos _ _ _ _); eauto|eauto]. }
  destruct E as (r' & e & E). exists r', e. split; [exact E|]. split; [eapply RR_start_move; eauto|].
  apply start_move_frame in E as (M & _ & _ & _ & _ & _ & _ & _ & _ & T). split; [|unfold nc; rewrite M; exact H3].
  destruct T as [(_ & _ & ->)|(_ & _ & _ & ->)]; [exact H2|apply FB].
Qed.
Lemma process_BR r : BR r -> exists r' e, process r = Ok (r', e) /\ BR r'.
Proof.
  intros H. pose proof H as (H1 & H2 & H3). unfold r_process. destruct (r_state r); [eauto| | |].
  - destruct (all_at_target RA r); [|eauto]. destruct (r_cur r =? r_total r); [|apply start_BR; exact H]. do 2 eexists. split; [reflexivity|exact H].
  - apply start_BR. exact H.
  - unfold r_prepare. destruct (r_trans r); [eauto|].
    set (r1 := if r_achg r then _ else _).
    assert (N1 : BR r1).
    { unfold r1. destruct (r_achg r); [split; [exact H1|split; [apply FB|exact H3]]|]. destruct (r_pchg r); exact H. }
    clearbody r1. destruct (r_pchg r && r_achg r); [do 2 eexists; split; [reflexivity|exact N1]|].
    set (r3 := with_starts RA _ _ _). assert (N3 : BR r3) by exact N1. assert (S3 : posB (r_startP r3)) by apply FB. clearbody r3. cbv zeta.
    destruct (angles_equal RA (r_startA r3) (r_targetA r3)); [do 2 eexists; split; [reflexivity|exact N3]|].
    destruct (r_method r3) eqn:M.
    + cbn [bind]. apply start_BR. exact N3.
    + destruct N3 as (K1 & K2 & K3). destruct (linear_RA _ _ S3 K2) as [n E]. rewrite E. cbn [bind]. apply start_BR. split; [exact K1|split; [exact K2|exact K3]].
    + destruct N3 as (_ & _ & K3). congruence.
Qed.

(** an action with small coordinates and admissible axis targets *)
Definition good_act (a : act) : Prop :=
  match a with
  | APose i x => 0 <= i < 3 -> (Rabs (arg_float RA x) <= 100000000)%R
  | AAxis i x => axis_ok orig (DAxis i (arg_float RA x))
  | _ => True
  end.
Definition good_text (t : list Z) : Prop := forall acts num, mril_parse t = Ok (acts, num) -> Forall good_act acts.
Lemma exec_good now l : forall d buf d' buf' e, exec_acts RA fwd p2l pinMap print now d buf l = Ok (d', buf', e) ->
  Forall good_act l -> BR (d_robot d) -> BR (d_robot d') /\ Forall (axis_ok orig) e.
Proof.
  induction l as [|a l IH]; intros d buf d' buf' e E G H; cbn [exec_acts] in E; [injection E as <- _ <-; auto|].
  destruct (exec_act RA fwd p2l pinMap print now d buf a) as [[[d1 b1] e1]|] eqn:EA; cbn [bind] in E; [|discriminate].
  destruct (exec_acts RA fwd p2l pinMap print now d1 b1 l) as [[[d2 b2] e2]|] eqn:ER; cbn [bind] in E; [|discriminate].
  injection E as <- _ <-. inversion G as [|? ? G1 G2]; subst.
  enough (K : BR (d_robot d1) /\ Forall (axis_ok orig) e1).
  { destruct K as [K1 K2]. destruct (IH _ _ _ _ _ ER G2 K1) as [L1 L2]. split; [exact L1|]. apply Forall_app; auto. }
  clear IH ER. destruct H as (H1 & H2 & H3).
  assert (PS : forall ps, Forall (axis_ok orig) (map DPin ps)) by (induction ps; [apply Forall_nil|apply Forall_cons; [exact I|auto]]).
  destruct a as [| |m|v|v|i x|i x|i x|pin st|pin st|ms|n|r|[n|]|]; cbn [exec_act] in EA;
    try (injection EA as <- _ <-; split; [split; [exact H1|split; [exact H2|exact H3]]|repeat (apply Forall_cons; [exact I|]); apply Forall_nil]; fail).
  - injection EA as <- _ <-. split; [|apply Forall_nil]. split; [exact H1|]. split; [exact H2|]. unfold nc. cbn. destruct (m =? 0); discriminate.
  - injection EA as <- _ <-. split; [|apply Forall_nil]. split; [exact H1|]. split; [|exact H3]. cbn. apply posB_set6; auto.
  - destruct (set_angle RA (d_robot d) i (arg_float RA x)) as [r|] eqn:SA; cbn [bind] in EA; [|discriminate]. injection EA as <- _ <-.
    unfold set_angle in SA. destruct ((0 <=? i) && (i <? 6)); [|discriminate]. injection SA as <-. split; [|apply Forall_nil]. split; [exact H1|split; [exact H2|exact H3]].
  - destruct (zget (d_axes d) i) as [s|]; cbn [bind] in EA; [|discriminate].
    destruct (zset (d_axes d) i (servo_set_target RA s (arg_float RA x))) as [l1|]; cbn [bind] in EA; [|discriminate].
    injection EA as <- _ <-. split; [split; [exact H1|split; [exact H2|exact H3]]|]. apply Forall_cons; [exact G1|apply Forall_nil].
  - destruct (io_addCondition pinMap (d_io d) pin st) as [[ps io]|]; cbn [bind] in EA; [|discriminate]. injection EA as <- _ <-. split; [split; [exact H1|split; [exact H2|exact H3]]|apply PS].
  - destruct (io_setOutput pinMap pin st) as [ps|]; cbn [bind] in EA; [|discriminate]. injection EA as <- _ <-. split; [split; [exact H1|split; [exact H2|exact H3]]|apply PS].
  - destruct (read_item RA fwd p2l print d r); cbn [bind] in EA; [|discriminate]. injection EA as <- _ <-. split; [split; [exact H1|split; [exact H2|exact H3]]|apply Forall_nil].
Qed.
Lemma map_axis_ok e : Forall (axis_ok orig) e -> Forall (axis_ok_ev orig) (map YDev e).
Proof. induction 1; cbn [map]; constructor; auto. Qed.
Lemma acts_good now l : forall d d' e, acts_run now d l = Ok (d', e) -> Forall good_text (executed e) -> BR (d_robot d) ->
  BR (d_robot d') /\ Forall (axis_ok_ev orig) e.
Proof.
  induction l as [|a l IH]; intros d d' e E G H; cbn [sys_acts] in E; [injection E as <- <-; auto|].
  destruct (sys_act RA fwd p2l pinMap print now d a) as [[d1 e1]|] eqn:S; cbn [bind] in E; [|discriminate].
  destruct (acts_run now d1 l) as [[d2 e2]|] eqn:R; cbn [bind] in E; [|discriminate]. injection E as <- <-.
  unfold executed in G. rewrite flat_map_app in G. apply Forall_app in G as [G1 G2].
  enough (K : BR (d_robot d1) /\ Forall (axis_ok_ev orig) e1).
  { destruct K as [K1 K2]. destruct (IH _ _ _ R G2 K1) as [L1 L2]. split; [exact L1|]. apply Forall_app; auto. }
  destruct a as [n|t]; cbn [sys_act] in S; [injection S as <- <-; split; [exact H|]; repeat (apply Forall_cons; [exact I|]); apply Forall_nil|].
  destruct (dev_parse RA fwd p2l pinMap print now d t) as [[d3 e3]|] eqn:DP; cbn [bind] in S; [|discriminate]. injection S as <- <-.
  cbn [flat_map app] in G1. inversion G1 as [|? ? GT _]; subst.
  unfold dev_parse in DP. destruct (mril_parse t) as [[acts num]|] eqn:MP; cbn [bind] in DP; [|discriminate].
  destruct (exec_acts RA fwd p2l pinMap print now d [] acts) as [[[d4 b4] e4]|] eqn:X; cbn [bind] in DP; [|discriminate]. injection DP as <- <-.
  destruct (exec_good _ _ _ _ _ _ _ X (GT _ _ MP) H) as [K1 K2]. split; [exact K1|]. apply Forall_cons; [exact I|]. now apply map_axis_ok.
Qed.
Definition BD (s : sys RA) : Prop := BR (d_robot (y_dev s)) /\ AXI orig (d_axes (y_dev s)).
Lemma BD_tick d : BR (d_robot d) -> AXI orig (d_axes d) -> exists d', dev_tick RA d = Ok d' /\ BR (d_robot d') /\ AXI orig (d_axes d').
Proof.
  intros (H1 & H2 & H3) H. unfold dev_tick. destruct (RR_tick _ 20 H1) as (r' & E & K). rewrite E. cbn [bind].
  destruct (AXI_tick _ _ H) as (cur' & T & H'). rewrite T. cbn [bind]. eexists. split; [reflexivity|]. split; [|exact H'].
  cbn [d_robot with_axes with_robot]. apply tick_frame in E as [sv ->]. split; [exact K|]. split; [exact H2|exact H3].
Qed.
Lemma BD_robot d : BR (d_robot d) -> exists d' e, dev_robot RA fwd inv l2p p2l limits print d = Ok (d', e) /\ BR (d_robot d') /\ d_axes d' = d_axes d.
Proof.
  intros H. unfold dev_robot. destruct (process_BR _ H) as (r' & e & -> & K). cbn [bind]. do 2 eexists. split; [reflexivity|]. split; [exact K|reflexivity].
Qed.
Lemma step_BD s x s' e : step s x = Ok (s', e) -> BD s -> Forall good_text (executed e) -> BD s'.
Proof.
  intros E [B1 B2] G. destruct x as [c| |now lv]; cbn [sys_step] in E.
  - injection E as <- <-. split; assumption.
  - destruct (BD_tick _ B1 B2) as (d' & T & K1 & K2). rewrite T in E. cbn [bind] in E. injection E as <- <-. split; assumption.
  - assert (M : forall ev rx p, sys_mcp RA fwd p2l pinMap print sgn now s ev rx p = Ok (s', e) -> BD s').
    { intros ev rx p X. unfold sys_mcp in X. destruct (c_step sgn (y_mcp s) ev) as [[m acts]|]; cbn [bind] in X; [|discriminate].
      destruct (acts_run now (y_dev s) acts) as [[d evs]|] eqn:AR; cbn [bind] in X; [|discriminate]. injection X as <- <-.
      destruct (acts_good _ _ _ _ _ AR G B1) as [K1 K2]. split; [exact K1|]. eapply acts_AXI; eauto. }
    unfold sys_main in E. destruct (y_phase s) as [| |k| |].
    + destruct (BD_robot _ B1) as (d' & e1 & R & K1 & K2). rewrite R in E. cbn [bind] in E. injection E as <- <-. split; [exact K1|]. cbn [y_dev]. rewrite K2. exact B2.
    + destruct (BD_robot _ B1) as (d' & e1 & R & K1 & K2). rewrite R in E. cbn [bind] in E. injection E as <- <-. split; [exact K1|]. cbn [y_dev]. rewrite K2. exact B2.
    + destruct (y_rx s) as [|c rx]; [injection E as <- <-; split; assumption|].
      destruct (k <? READ_BYTES); [eapply M; eauto|injection E as <- <-; split; assumption].
    + destruct (dev_poll_cases RA (y_dev s) now lv) as [[_ EP]|[_ (io & _ & EP)]]; rewrite EP in E; injection E as <- <-; split; assumption.
    + eapply M; eauto.
Qed.
Lemma run_BD l : forall s s' tr, run s l = Ok (s', tr) -> BD s -> Forall good_text (executed tr) -> BD s'.
Proof.
  induction l as [|x l IH]; intros s s' tr E H G; cbn [sys_run] in E; [injection E as <- <-; exact H|].
  destruct (step s x) as [[s1 e1]|] eqn:S; cbn [bind] in E; [|discriminate].
  destruct (run s1 l) as [[s2 e2]|] eqn:R; cbn [bind] in E; [|discriminate]. injection E as <- <-.
  unfold executed in G. rewrite flat_map_app in G. apply Forall_app in G as [G1 G2]. eapply IH; eauto. eapply step_BD; eauto.
Qed.
(** a step of such a system does not fail *)
Lemma step_defined s t x rest : SInv RA sgn s t (y_rx s ++ arrivals [x] ++ rest) -> BD s -> exists p, step s x = Ok p.
Proof.
  intros (CI & HO & SF & ST & D & P) [B1 B2]. destruct x as [c| |now lv]; cbn [sys_step].
  - eauto.
  - destruct (BD_tick _ B1 B2) as (d' & T & _). rewrite T. cbn [bind]. eauto.
  - cbn [arrivals flat_map app] in *. unfold sys_main. destruct (y_phase s) as [| |k| |] eqn:PH.
    + destruct (BD_robot _ B1) as (d' & e1 & R & _). rewrite R. cbn [bind]. eauto.
    + destruct (BD_robot _ B1) as (d' & e1 & R & _). rewrite R. cbn [bind]. eauto.
    + destruct (y_rx s) as [|c rx]; [eauto|]. destruct (k <? READ_BYTES); [|eauto].
      unfold sys_mcp. cbn [app map host_ok] in HO. destruct HO as [H1 H2].
      destruct (c_step_refines sgn (y_mcp s) t (CChar c) CI H1) as (m & CS & CI'). rewrite CS. cbn [bind].
      cbn [app map commands] in SF.
      assert (Y3 : snd (spec_step t (CChar c)) = [] \/ (exists n, snd (spec_step t (CChar c)) = [MSendFree n]) \/
         exists r, snd (spec_step t (CChar c)) = [MParse r] /\ safe_text 0 r).
      { cbn [spec_step] in *. destruct (c =? 13); [|auto].
        inversion SF as [|? ? F1 F2]; subst. destruct (command_safe t _ ST F1) as [C1 C2].
        destruct (spec_command t (payload (scur t))) as [t1 a]. exact C2. }
      destruct Y3 as [->|[[n ->]|(r & -> & SR)]]; cbn [sys_acts sys_act bind]; [eauto|eauto|].
      destruct (parse_fine RA fwd p2l pinMap print PM now (y_dev s) r 0 D SR) as (d' & e & E & D'); [destruct D as (_ & IO & _); lia|]. rewrite E. cbn. eauto.
    + destruct (dev_poll_cases RA (y_dev s) now lv) as [[AF E]|[NAF (io & IO & E)]]; rewrite E; cbn; eauto.
    + unfold sys_mcp. set (b := mdone (d_mril (y_dev s))) in *.
      destruct (c_step_refines sgn (y_mcp s) t (CPoll b) CI I) as (m & CS & CI'). rewrite CS. cbn [bind spec_step] in *.
      destruct (poll_safe t b ST) as [Y1 Y2]. destruct Y2 as [->|(B & pre & r & -> & SR & PRE)]; [cbn; eauto|].
      destruct (parse_fine RA fwd p2l pinMap print PM now (y_dev s) r 10 D SR) as (d' & e & E & D').
      { rewrite (P eq_refl B). unfold zlen; cbn; lia. }
      destruct PRE as [->|[n ->]]; cbn [app sys_acts sys_act bind]; rewrite E; cbn; eauto.
Qed.
Lemma run_SInv l : forall s t rest s' tr, SInv RA sgn s t (y_rx s ++ arrivals l ++ rest) -> run s l = Ok (s', tr) ->
  exists t', SInv RA sgn s' t' (y_rx s' ++ rest).
Proof.
  induction l as [|x l IH]; intros s t rest s' tr H E; cbn [sys_run] in E; [injection E as <- <-; exists t; exact H|].
  destruct (step s x) as [[s1 e1]|] eqn:S; cbn [bind] in E; [|discriminate].
  destruct (run s1 l) as [[s2 e2]|] eqn:R; cbn [bind] in E; [|discriminate]. injection E as <- <-.
  change (x :: l) with ([x] ++ l) in H. rewrite arrivals_app, <- app_assoc in H.
  pose proof (step_fine RA fwd inv l2p p2l limits pinMap print sgn PM s t x (arrivals l ++ rest) H) as F. rewrite S in F.
  destruct F as [t' H']. exact (IH s1 t' rest s2 e2 H' R).
Qed.
Lemma prefix_defined s0 t0 stims : CInv sgn (y_mcp s0) t0 -> scur t0 = [] -> y_rx s0 = [] -> PT good_text t0 -> BD s0 ->
  SInv RA sgn s0 t0 (arrivals stims) ->
  Forall (fun p => Forall good_text (frame_text p)) (commands [] (map CChar (arrivals stims))) ->
  forall pre post, stims = pre ++ post -> exists p, run s0 pre = Ok p.
Proof.
  intros CI SC RX HP B0 SI FP pre. induction pre as [|x pre IH] using Coq.Lists.List.rev_ind; intros post E; [eexists; reflexivity|].
  rewrite <- app_assoc in E. destruct (IH _ E) as [[s tr] R]. clear IH.
  assert (AE : arrivals stims = arrivals pre ++ arrivals [x] ++ arrivals post) by (rewrite E, !arrivals_app; reflexivity).
  assert (HO : host_ok t0 (map CChar (arrivals pre))).
  { destruct SI as (_ & HO & _). rewrite AE in HO. apply host_ok_polls with (rest := arrivals [x] ++ arrivals post).
    replace (chars (map CChar (arrivals pre))) with (arrivals pre); [exact HO|]. clear. induction (arrivals pre); cbn; congruence. }
  assert (FP' : Forall (fun p => Forall good_text (frame_text p)) (commands [] (map CChar (arrivals pre)))).
  { rewrite AE, map_app in FP. eapply Forall_commands. exact FP. }
  pose proof (executed_origin RA fwd inv l2p p2l limits pinMap print sgn good_text s0 t0 pre s tr CI SC RX HP R HO FP') as G.
  pose proof (run_BD _ _ _ _ R B0 G) as BS.
  assert (SI' : SInv RA sgn s0 t0 (y_rx s0 ++ arrivals pre ++ arrivals [x] ++ arrivals post)) by (rewrite RX; cbn [app]; rewrite <- AE; exact SI).
  destruct (run_SInv _ _ _ _ _ _ SI' R) as [t' S'].
  destruct (step_defined s t' x (arrivals post) S' BS) as [[s1 e1] ST].
  rewrite sys_run_app, R. cbn [bind sys_run]. rewrite ST. cbn [bind]. eexists; reflexivity.
Qed.
End NoFault.
