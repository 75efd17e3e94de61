(** * The joint coupling of the kit, and the additional axes, in the arithmetic of the device *)
From Coq Require Import Reals Lra ZArith Lia Floats.SpecFloat.
From Flocq Require Import Core BinarySingleNaN.
From Verif Require Import Base Arith FloatBridge ServoModel ServoSpec ServoProofs ServoFloat.
From Verif Require Import RobotModel RobotSpec RobotProofs ConfigModel PropRobot PropFloat PropFloatMoves.
From Verif Require Import IoModel IoSpec WaitModel RingModel EepromModel EepromSpec MrilModel MrilSpec MrilProofs McpModel McpSpec McpProofs.
From Verif Require Import DeviceModel DeviceSpec DeviceProofs SystemModel SystemSpec SystemProofs SystemSafe SystemQueue SystemOrigin SystemMore.
From Verif Require Import PropProgress PropFloatHost.
Open Scope Z_scope.

(** ** C40: back and forth *)
Lemma round_trip a b x y : v32 x a -> v32 y b -> (Rabs a <= 100)%R -> (Rabs b <= 100)%R ->
  exists r, v32 (SFsub 24 128 (SFadd 24 128 x y) y) r /\ (Rabs (r - a) <= 2 / 100000)%R.
Proof.
  intros Va Vb Ba Bb. apply Rabs_bounds in Ba. apply Rabs_bounds in Bb. pose proof tiny_small as T.
  assert (S1 : (Rabs (a + b) <= 200)%R) by (apply Rabs_le; lra). pose proof (r32_near (a + b) 200 S1) as N1.
  assert (V1 : v32 (SFadd 24 128 x y) (r32 (a + b))) by (apply v_add; auto; lra). set (s := r32 (a + b)) in *. clearbody s.
  assert (S2 : (Rabs (s - b) <= 101)%R) by (apply Rabs_le; lra). pose proof (r32_near (s - b) 101 S2) as N2.
  exists (r32 (s - b)). split; [apply v_sub; auto; lra|]. apply Rabs_le. lra.
Qed.
Lemma round_trip' a b x y : v32 x a -> v32 y b -> (Rabs a <= 100)%R -> (Rabs b <= 100)%R ->
  exists r, v32 (SFadd 24 128 (SFsub 24 128 x y) y) r /\ (Rabs (r - a) <= 2 / 100000)%R.
Proof.
  intros Va Vb Ba Bb. apply Rabs_bounds in Ba. apply Rabs_bounds in Bb. pose proof tiny_small as T.
  assert (S1 : (Rabs (a - b) <= 200)%R) by (apply Rabs_le; lra). pose proof (r32_near (a - b) 200 S1) as N1.
  assert (V1 : v32 (SFsub 24 128 x y) (r32 (a - b))) by (apply v_sub; auto; lra). set (s := r32 (a - b)) in *. clearbody s.
  assert (S2 : (Rabs (s + b) <= 101)%R) by (apply Rabs_le; lra). pose proof (r32_near (s + b) 101 S2) as N2.
  exists (r32 (s + b)). split; [apply v_add; auto; lra|]. apply Rabs_le. lra.
Qed.
(** Joints 0, 1, 3, 4, 5 come back unchanged, joint 2 to within 2*10^-5 rad (angles of at most 100 rad), in both directions. *)
Theorem C40_kit_ieee (L : libm) (x : V6 (F (IEEE L))) (a b : R) :
  v32 (v2 x) a -> v32 (v1 x) b -> (Rabs a <= 100)%R -> (Rabs b <= 100)%R ->
  let A := IEEE L in
  forall y, y = kit_p2l A (kit_l2p A x) \/ y = kit_l2p A (kit_p2l A x) ->
  v0 y = v0 x /\ v1 y = v1 x /\ v3 y = v3 x /\ v4 y = v4 x /\ v5 y = v5 x /\
  exists r, v32 (v2 y) r /\ (Rabs (r - a) <= 2 / 100000)%R.
Proof.
  intros Va Vb Ba Bb A y [-> | ->]; unfold kit_p2l, kit_l2p; cbn [v0 v1 v2 v3 v4 v5 fadd fsub IEEE A].
  - do 5 (split; [reflexivity|]). eapply round_trip; eauto.
  - do 5 (split; [reflexivity|]). eapply round_trip'; eauto.
Qed.
(** getCurrentPhysicalAngles: the servos' angles, joint 2 to within 2*10^-5 rad *)
Theorem C40_kit_current_physical_ieee (L : libm) (r : robot (IEEE L)) (a b : R) :
  v32 (s_cur (v2 (r_servos r))) a -> v32 (s_cur (v1 (r_servos r))) b -> (Rabs a <= 100)%R -> (Rabs b <= 100)%R ->
  let A := IEEE L in let y := current_physical A (kit_l2p A) (kit_p2l A) r in let x := servo_angles A r in
  v0 y = v0 x /\ v1 y = v1 x /\ v3 y = v3 x /\ v4 y = v4 x /\ v5 y = v5 x /\
  exists c, v32 (v2 y) c /\ (Rabs (c - a) <= 2 / 100000)%R.
Proof.
  intros Va Vb Ba Bb A y x. apply (C40_kit_ieee L x a b); auto.
Qed.
Print Assumptions C40_kit_current_physical_ieee.

(** ** C58 *)
Section Axes.
Context (L : libm).
Notation A := (IEEE L).
Context (fwd : V6 (F A) -> V6 (F A)) (inv : V6 (F A) -> option (V6 (F A))) (l2p p2l : V6 (F A) -> V6 (F A)) (limits : V6 (F A * F A)).
Context (pinMap : list Z) (print : D A -> list Z) (sgn : bool) (lims : list (R * R * R)).
Notation step := (sys_step A fwd inv l2p p2l limits pinMap print sgn).
Notation run := (sys_run A fwd inv l2p p2l limits pinMap print sgn).
Notation acts_run := (sys_acts A fwd p2l pinMap print).
Notation AXI := (axs_inside L lims).
(** an event that does not send an additional axis out of its limits *)
Definition axis_ok32 (e : dev_ev A) : Prop :=
  match e with
  | DAxis i t => forall a b m, nth_error lims (Z.to_nat i) = Some (a, b, m) -> exists r, v32 t r /\ (a <= r <= b)%R
  | DAxisVel v => number32 v
  | _ => True
  end.
Lemma exec_AXI now l : forall d buf d' buf' e, exec_acts A fwd p2l pinMap print now d buf l = Ok (d', buf', e) ->
  AXI (d_axes d) -> Forall axis_ok32 e -> AXI (d_axes d').
Proof.
  induction l as [|a l IH]; intros d buf d' buf' e E H OK; cbn [exec_acts] in E; [injection E as <- _ _; exact H|].
  destruct (exec_act A fwd p2l pinMap print now d buf a) as [[[d1 b1] e1]|] eqn:EA; cbn [bind] in E; [|discriminate].
  destruct (exec_acts A fwd p2l pinMap print now d1 b1 l) as [[[d2 b2] e2]|] eqn:ER; cbn [bind] in E; [|discriminate].
  injection E as <- _ <-. apply Forall_app in OK as [O1 O2]. apply (IH _ _ _ _ _ ER); [|exact O2]. clear IH ER O2.
  destruct a as [| |m|v|v|i x|i x|i x|pin st|pin st|ms|n|r|[n|]|]; cbn [exec_act] in EA; try (injection EA as <- _ _; exact H).
  - injection EA as <- _ <-. cbn [d_axes with_axes]. inversion O1 as [|? ? K _]; subst. now apply axs_vel.
  - destruct (set_angle A (d_robot d) i (arg_float A x)); cbn [bind] in EA; [|discriminate]. injection EA as <- _ _. exact H.
  - unfold zget, zset in EA. destruct ((0 <=? i) && (i <? zlen (d_axes d))); cbn [bind] in EA; [|discriminate].
    destruct (nth_error (d_axes d) (Z.to_nat i)) as [y|] eqn:N; cbn [bind] in EA; [|discriminate]. injection EA as <- _ <-.
    cbn [d_axes with_axes]. apply axs_target; auto. inversion O1 as [|? ? K _]; subst. exact K.
  - destruct (io_addCondition pinMap (d_io d) pin st) as [[ps io]|]; cbn [bind] in EA; [|discriminate]. injection EA as <- _ _. exact H.
  - destruct (io_setOutput pinMap pin st) as [ps|]; cbn [bind] in EA; [|discriminate]. injection EA as <- _ _. exact H.
  - destruct (read_item A fwd p2l print d r); cbn [bind] in EA; [|discriminate]. injection EA as <- _ _. exact H.
Qed.
Definition axis_ok_ev (e : sys_ev A) : Prop := match e with YDev d => axis_ok32 d | _ => True end.
Lemma axis_ok_map e : Forall axis_ok_ev (map YDev e) -> Forall axis_ok32 e.
Proof. induction e as [|x e IH]; cbn [map]; intros H; inversion H; subst; constructor; auto. Qed.
Lemma acts_AXI now l : forall d d' e, acts_run now d l = Ok (d', e) -> AXI (d_axes d) -> Forall axis_ok_ev e -> AXI (d_axes d').
Proof.
  induction l as [|a l IH]; intros d d' e E H OK; cbn [sys_acts] in E; [injection E as <- <-; exact H|].
  destruct (sys_act A fwd p2l pinMap print now d a) as [[d1 e1]|] eqn:S; cbn [bind] in E; [|discriminate].
  destruct (acts_run now d1 l) as [[d2 e2]|] eqn:R; cbn [bind] in E; [|discriminate]. injection E as <- <-.
  apply Forall_app in OK as [O1 O2]. apply (IH _ _ _ R); [|exact O2].
  destruct a as [n|t]; cbn [sys_act] in S; [injection S as <- <-; exact H|].
  destruct (dev_parse A fwd p2l pinMap print now d t) as [[d3 e3]|] eqn:DP; cbn [bind] in S; [|discriminate]. injection S as <- <-.
  unfold dev_parse in DP. destruct (mril_parse t) as [[acts num]|]; cbn [bind] in DP; [|discriminate].
  destruct (exec_acts A fwd p2l pinMap print now d [] acts) as [[[d4 b4] e4]|] eqn:X; cbn [bind] in DP; [|discriminate]. injection DP as <- <-.
  inversion O1 as [|? ? _ O3]; subst. apply exec_AXI in X; auto. now apply axis_ok_map.
Qed.
Lemma step_AXI s x s' e : step s x = Ok (s', e) -> AXI (d_axes (y_dev s)) -> Forall axis_ok_ev e -> AXI (d_axes (y_dev s')).
Proof.
  intros E H OK. destruct x as [c| |now lv]; cbn [sys_step] in E.
  - injection E as <- <-. exact H.
  - unfold dev_tick in E. destruct (r_tick A (d_robot (y_dev s)) 20) as [r|]; cbn [bind] in E; [|discriminate].
    destruct (axs_tick L lims _ H) as (cur' & T & H'). rewrite T in E. cbn [bind] in E. injection E as <- <-. exact H'.
  - assert (M : forall ev rx p, sys_mcp A fwd p2l pinMap print sgn now s ev rx p = Ok (s', e) -> AXI (d_axes (y_dev s'))).
    { intros ev rx p X. unfold sys_mcp in X. destruct (c_step sgn (y_mcp s) ev) as [[m acts]|]; cbn [bind] in X; [|discriminate].
      destruct (acts_run now (y_dev s) acts) as [[d evs]|] eqn:AR; cbn [bind] in X; [|discriminate]. injection X as <- <-.
      inversion OK; subst. eapply acts_AXI; eauto. }
    assert (RB : forall d1 e1, dev_robot A fwd inv l2p p2l limits print (y_dev s) = Ok (d1, e1) -> d_axes d1 = d_axes (y_dev s)).
    { intros d1 e1 X. unfold dev_robot in X. destruct (r_process A fwd inv l2p p2l limits (d_robot (y_dev s))) as [[r evs]|]; cbn [bind] in X; [|discriminate].
      injection X as <- _. reflexivity. }
    unfold sys_main in E. destruct (y_phase s) as [| |k| |].
    + destruct (dev_robot A fwd inv l2p p2l limits print (y_dev s)) as [[d e1]|] eqn:R; cbn [bind] in E; [|discriminate].
      injection E as <- <-. cbn [y_dev]. rewrite (RB _ _ eq_refl). exact H.
    + destruct (dev_robot A fwd inv l2p p2l limits print (y_dev s)) as [[d e1]|] eqn:R; cbn [bind] in E; [|discriminate].
      injection E as <- <-. cbn [y_dev]. rewrite (RB _ _ eq_refl). exact H.
    + destruct (y_rx s) as [|c rx]; [injection E as <- <-; exact H|].
      destruct (k <? READ_BYTES); [eapply M; eauto|injection E as <- <-; exact H].
    + destruct (dev_poll_cases A (y_dev s) now lv) as [[_ EP]|[_ (io & _ & EP)]]; rewrite EP in E; injection E as <- <-; exact H.
    + eapply M; eauto.
Qed.
Lemma run_AXI l : forall s s' tr, run s l = Ok (s', tr) -> AXI (d_axes (y_dev s)) -> Forall axis_ok_ev tr -> AXI (d_axes (y_dev s')).
Proof.
  induction l as [|x l IH]; intros s s' tr E H OK; cbn [sys_run] in E; [injection E as <- <-; exact H|].
  destruct (step s x) as [[s1 e1]|] eqn:S; cbn [bind] in E; [|discriminate].
  destruct (run s1 l) as [[s2 e2]|] eqn:R; cbn [bind] in E; [|discriminate]. injection E as <- <-.
  apply Forall_app in OK as [O1 O2]. eapply IH; eauto. eapply step_AXI; eauto.
Qed.

(** Full claim: the additional axes stay inside their limits.  Proved with the floats of the device, on every schedule, for
    hosts that command only finite targets inside the limits and speeds that are numbers: the axes stay within m/4000000 rad of
    their limits, their pulses within 1 us of the calibration, and their ticks never fault. *)
Theorem C58_axes_stay_inside_ieee_partial (servos : V6 (servo A)) (axs : list (servo A)) junk mem s0 stims s tr :
  Forall2 (fun '(a, b, m) x => inside32 L x a b m) lims axs ->
  sys_boot A fwd p2l servos axs junk mem = Ok s0 -> run s0 stims = Ok (s, tr) ->
  (forall i t a b m, In (YDev (DAxis i t)) tr -> nth_error lims (Z.to_nat i) = Some (a, b, m) -> exists r, v32 t r /\ (a <= r <= b)%R) ->
  (forall v, In (YDev (DAxisVel v)) tr -> number32 v) ->
  Forall2 (fun '(a, b, m) (x : servo A) => (exists c, v32 (s_cur x) c /\ (a - m / 4000000 <= c <= b + m / 4000000)%R) /\
      forall dt, exists x' p, servo_process A x dt = Ok (x', p) /\ Z.min (s_minF x) (s_maxF x) - 1 <= p <= Z.max (s_minF x) (s_maxF x))
    lims (d_axes (y_dev s)).
Proof.
  intros W B R OT OV.
  assert (H0 : AXI (d_axes (y_dev s0))).
  { unfold sys_boot in B. destruct (c_boot junk mem); cbn [bind] in B; [|discriminate]. injection B as <-. exact W. }
  assert (OK : Forall axis_ok_ev tr).
  { apply Forall_forall. intros e IN. destruct e; try exact I. destruct e; try exact I; cbn [axis_ok_ev axis_ok32]; eauto. }
  pose proof (run_AXI stims s0 s tr R H0 OK) as H. unfold axs_inside in H.
  clear - H. induction H as [|[[a b] m] x l cur I _ IH]; constructor; auto. split.
  - destruct I as (_ & _ & _ & _ & X & _). exact X.
  - intros dt. destruct (tick_inside L x a b m dt I) as (x' & p & E & _ & B & _). eauto.
Qed.
End Axes.
Print Assumptions C58_axes_stay_inside_ieee_partial.

(** the second additional axis of the kit: ":V9R740" turns it to 40 degrees *)
Definition demo_axis_host : list stim :=
  map SArrive [58; 86; 57; 82; 55; 52; 48; 13] ++ repeat (SRun 10 (fun _ _ => false)) 15 ++ idle_loops 5.
Example C58_ieee_reachable :
  match kit_system demo_axis_host with
  | Ok (s, tr) => existsb (fun e : sys_ev IF => match e with YDev (DAxis 1 t) => SFleb (s_min (nth 1 (kit_axis_servos IF) demo_s)) t && SFleb t (s_max (nth 1 (kit_axis_servos IF) demo_s)) | _ => false end) tr = true /\
      existsb (fun e : sys_ev IF => match e with YDev (DAxisVel v) => SFeqb v (fi 9) | _ => false end) tr = true
  | Ub _ => False
  end.
Proof. vm_compute. splits; reflexivity. Qed.
