(** * C57 in the arithmetic of the device: finished means arrived *)
From Coq Require Import Reals Lra ZArith Lia Floats.SpecFloat.
From Flocq Require Import Core BinarySingleNaN.
From Verif Require Import Base Arith FloatBridge ServoModel ServoSpec ServoProofs ServoFloat.
From Verif Require Import RobotModel RobotSpec RobotProofs ConfigModel PropRobot PropFloat PropFloatMoves PropFloatSync KinModel KinBounded.
From Verif Require Import IoModel IoSpec WaitModel RingModel EepromModel EepromSpec MrilModel MrilSpec MrilProofs McpModel McpSpec McpProofs.
From Verif Require Import DeviceModel DeviceSpec DeviceProofs SystemModel SystemSpec SystemProofs SystemSafe SystemQueue SystemOrigin SystemMore SystemDefined.
From Verif Require Import PropProgress PropFloatHost SystemArrive.
Open Scope Z_scope.

Section One.
Context (L : libm).
Notation A := (IEEE L).
Notation inside32 := (inside32 L).

(** the servo has been moving from a to t at speed v for its elapsed time *)
Definition moving32 (x : servo A) (mn mx M a t v : R) : Prop :=
  v32 (s_target x) t /\ v32 (s_vel x) v /\ r32 a = a /\ (mn - slack M <= a <= mx + slack M)%R /\
  v32 (s_cur x) (rstep a t (rdelta v (s_elapsed x))) /\
  ((Rabs (r32 (t - a)) < rdelta v (s_elapsed x))%R /\ s_start x = s_target x \/ v32 (s_start x) a).
Definition S32 (mn mx M : R) (K : Z) (x : servo A) : Prop :=
  inside32 x mn mx M /\ 0 <= s_elapsed x <= K /\ s_elapsed x < 4294967296 /\ exists a t v, moving32 x mn mx M a t v.
(** at some moment since it was sent off it was within 10^-6 of the target *)
Definition N32 (mn mx M : R) (x : servo A) : Prop :=
  inside32 x mn mx M /\ exists a t v T, moving32 x mn mx M a t v /\ 0 <= T <= s_elapsed x /\ s_elapsed x < 4294967296 /\
    (Rabs (rstep a t (rdelta v T) - t) <= 1 / 1000000 * (1 + 1 / 1000000))%R.

Lemma moving_tick (x x' : servo A) p mn mx M a t v K : inside32 x mn mx M -> 0 <= s_elapsed x <= K -> K + 20 < 4294967296 ->
  moving32 x mn mx M a t v -> servo_process A x 20 = Ok (x', p) ->
  inside32 x' mn mx M /\ s_elapsed x' = s_elapsed x + 20 /\ moving32 x' mn mx M a t v.
Proof.
  intros I E H (Vt & Vv & Ea & Ba & Vc & St) P. pose proof I as (_ & _ & _ & _ & _ & (t' & Vt' & Bt)). pose proof (fv_inj 24 128 _ _ _ Vt Vt') as ET. subst t'.
  destruct (run_ticks L a t v mn mx M (s_target x) [20] Vt Bt Ba Ea ltac:(repeat constructor; lia) (s_elapsed x) x) as (s' & R & I' & Vv' & Et & Eg & Vc' & St'); auto; try lia.
  { unfold total. cbn. lia. }
  unfold ticks in R. cbn [map sop_run sop_step] in R. rewrite P in R. cbn [bind sop_run] in R. injection R as <-.
  change (total [20]) with 20 in *. split; [exact I'|]. split; [exact Et|]. unfold moving32. rewrite Eg, Et. auto 10.
Qed.
Lemma S32_tick mn mx M K (x x' : servo A) p : S32 mn mx M K x -> K + 20 < 4294967296 -> servo_process A x 20 = Ok (x', p) -> S32 mn mx M (K + 20) x'.
Proof.
  intros (I & E & _ & a & t & v & W) H P. destruct (moving_tick x x' p mn mx M a t v K I E H W P) as (I' & E' & W').
  split; [exact I'|]. split; [lia|]. split; [lia|]. eauto.
Qed.
Lemma N32_tick mn mx M K (x x' : servo A) p : S32 mn mx M K x -> N32 mn mx M x -> K + 20 < 4294967296 -> servo_process A x 20 = Ok (x', p) -> N32 mn mx M x'.
Proof.
  intros (I & E & _) (_ & a & t & v & T & W & HT & _ & B) H P. destruct (moving_tick x x' p mn mx M a t v K I E H W P) as (I' & E' & W').
  split; [exact I'|]. exists a, t, v, T. split; [exact W'|]. split; [lia|]. split; [lia|exact B].
Qed.
Lemma S32_cmd mn mx M K (x : servo A) v a : 0 <= K -> S32 mn mx M K x -> number v /\ number a -> not_outside A a (s_min x) (s_max x) ->
  S32 mn mx M K (servo_set_target A (servo_set_vel A x v) a).
Proof.
  intros H (I & _) [Nv Na] O. pose proof (command_inside L x mn mx M v a I Nv Na O) as I'. split; [exact I'|].
  set (y := servo_set_target A (servo_set_vel A x v) a) in *.
  assert (E : s_elapsed y = 0 /\ s_start y = s_cur y).
  { unfold y, servo_set_target, set_target_1, set_target_2, set_target_3. split; reflexivity. }
  destruct E as [E1 E2]. split; [lia|]. split; [lia|]. destruct I' as (_ & (w & Vw & _) & _ & _ & (c & Vc & Bc) & (t & Vt & _)).
  pose proof (v32_r _ _ Vc) as Ec. exists c, t, w. unfold moving32. rewrite E1, E2, rdelta_0, rstep_0 by exact Ec. auto 10.
Qed.
Lemma dec_m6 : v64 (sf_dec 53 1024 false 1 (-6)) (SF2R radix2 (sf_dec 53 1024 false 1 (-6))) /\ (SF2R radix2 (sf_dec 53 1024 false 1 (-6)) <= 1 / 1000000 * (1 + 1 / 100000000000))%R.
Proof.
  split.
  - let y := eval vm_compute in (sf_dec 53 1024 false 1 (-6)) in change (sf_dec 53 1024 false 1 (-6)) with y. apply fv_valid; reflexivity.
  - lits. lra.
Qed.
(** isAtTargetRadAngle says yes: the computed angle is within 10^-6, up to one millionth of that *)
Lemma at_target_means (x : servo A) c t : v32 (s_cur x) c -> v32 (s_target x) t -> (Rabs c <= 2000)%R -> (Rabs t <= 2000)%R ->
  servo_at_target A x = true -> (Rabs (c - t) <= 1 / 1000000 * (1 + 1 / 1000000))%R.
Proof.
  intros Vc Vt Bc Bt H. apply Rabs_bounds in Bc, Bt. unfold servo_at_target in H. cbn [dlt f2d fabsf fsub ddec IEEE] in H.
  assert (V1 : v32 (SFabs (SFsub 24 128 (s_cur x) (s_target x))) (Rabs (r32 (c - t)))) by (apply fv_abs, v_sub; auto; apply Rabs_le; lra).
  pose proof (r32_error (c - t)) as E1. pose proof tiny_36 as T1. pose proof tiny_pos as T0.
  assert (B4 : (Rabs (c - t) <= 4000)%R) by (apply Rabs_le; lra).
  assert (B5 : (Rabs (r32 (c - t)) <= 4001)%R) by (destruct (r32_near (c - t) 4000 B4); apply Rabs_bounds in B4; apply Rabs_le; lra).
  set (y := r32 (c - t)) in *. pose proof (Rabs_pos y) as Y0.
  assert (V2 : v64 (sf_conv 53 1024 (SFabs (SFsub 24 128 (s_cur x) (s_target x)))) (r64 (Rabs y))).
  { apply (fv_conv 24 128 53 1024); auto. apply r64_bound. rewrite Rabs_pos_eq; lra. }
  destruct dec_m6 as [V3 B3]. rewrite (fv_lt 53 1024 _ _ _ _ V2 V3) in H. apply rltb_true in H.
  pose proof (r64_error (Rabs y)) as E2. rewrite (Rabs_pos_eq (Rabs y)) in E2 by exact Y0. apply Rabs_bounds in E2.
  apply Rabs_bounds in E1. set (z := (c - t)%R) in *.
  assert (NY : (- Rabs y <= y <= Rabs y)%R) by (apply Rabs_bounds; lra).
  assert (NZ : (Rabs z <= Rabs y + (Rabs z * / 16777216 + tiny))%R).
  { pose proof (Rabs_triang (z - y) y) as TR. replace (z - y + y)%R with z in TR by ring.
    assert (Rabs (z - y) <= Rabs z * / 16777216 + tiny)%R by (apply Rabs_le; lra). lra. }
  lra.
Qed.
Lemma S32_at mn mx M K (x : servo A) : S32 mn mx M K x -> servo_at_target A x = true -> N32 mn mx M x.
Proof.
  intros (I & E & H & a & t & v & W) AT. split; [exact I|]. exists a, t, v, (s_elapsed x). split; [exact W|]. split; [lia|]. split; [lia|].
  destruct W as (Vt & Vv & Ea & Ba & Vc & St).
  pose proof I as (C & _ & _ & _ & (c & Vc' & Bc) & (t' & Vt' & Bt)). pose proof (fv_inj 24 128 _ _ _ Vt Vt') as ET. subst t'.
  pose proof (fv_inj 24 128 _ _ _ Vc Vc') as EC. subst c.
  pose proof (M_bounds _ _ _ _ _ C) as HM. pose proof (slack_bounds M HM) as HS.
  assert (HX : (- M <= mn /\ mx <= M)%R) by (destruct C as (_ & _ & _ & X & Y & _); split; assumption). destruct HX as [HX HY].
  apply (at_target_means x); auto; apply Rabs_le; lra.
Qed.
(** and it does not leave the target again *)
Lemma N32_means mn mx M (x : servo A) : N32 mn mx M x ->
  exists c t, v32 (s_cur x) c /\ v32 (s_target x) t /\ (Rabs (c - t) <= 1 / 1000000 * (1 + 1 / 1000000) + M / 4000000)%R.
Proof.
  intros (I & a & t & v & T & (Vt & Vv & Ea & Ba & Vc & St) & HT & HE & B). eexists. exists t. split; [exact Vc|]. split; [exact Vt|].
  pose proof I as (C & (v' & Vv' & Bv) & _ & _ & _ & (t' & Vt' & Bt)). pose proof (fv_inj 24 128 _ _ _ Vt Vt') as ET. subst t'.
  pose proof (fv_inj 24 128 _ _ _ Vv Vv') as EV. subst v'.
  pose proof (M_bounds _ _ _ _ _ C) as HM. pose proof (slack_bounds M HM) as HS.
  assert (HX : (- M <= mn /\ mx <= M)%R) by (destruct C as (_ & _ & _ & X & Y & _); split; assumption). destruct HX as [HX HY].
  destruct (rdelta_chain v T Bv ltac:(lia)) as (_ & _ & _ & _ & _ & P1 & _).
  destruct (rdelta_chain v (s_elapsed x) Bv ltac:(lia)) as (_ & _ & _ & _ & _ & P2 & _).
  pose proof (rdelta_mono v T (s_elapsed x) ltac:(lra) ltac:(lia)) as MO. pose proof (v32_r _ _ Vt) as Et.
  set (d1 := rdelta v T) in *. set (d2 := rdelta v (s_elapsed x)) in *. clearbody d1 d2. apply Rabs_bounds in B. apply Rabs_le.
  destruct (Rle_dec a t) as [O|O].
  - destruct (rstep_up a t d1 M P1 HM Ea Et ltac:(lra) ltac:(lra) O) as [B1 K1].
    destruct (rstep_up a t d2 M P2 HM Ea Et ltac:(lra) ltac:(lra) O) as [B2 K2]. unfold slack in *. split; [|lra].
    unfold rstep in *. rewrite (Rabs_pos_eq d1 P1), (Rabs_pos_eq d2 P2) in *. rewrite (Rabs_pos_eq (r32 (t - a))) in * by (apply r32_pos; lra). unfold rltb in *.
    destruct (Rlt_dec (r32 (t - a)) d2) as [Q2|Q2]; [lra|]. destruct (Rlt_dec (r32 (t - a)) d1) as [Q1|Q1]; [lra|].
    destruct (Rlt_dec a t) as [X|X].
    + assert (r32 (a + d1) <= r32 (a + d2))%R by (apply r32_le; lra). lra.
    + assert (a = t) by lra. subst t. lra.
  - destruct (rstep_down a t d1 M P1 HM Ea Et ltac:(lra) ltac:(lra) ltac:(lra)) as [B1 K1].
    destruct (rstep_down a t d2 M P2 HM Ea Et ltac:(lra) ltac:(lra) ltac:(lra)) as [B2 K2]. unfold slack in *. split; [lra|].
    unfold rstep in *. rewrite (Rabs_pos_eq d1 P1), (Rabs_pos_eq d2 P2) in *. unfold rltb in *.
    destruct (Rlt_dec (Rabs (r32 (t - a))) d2) as [Q2|Q2]; [lra|]. destruct (Rlt_dec (Rabs (r32 (t - a))) d1) as [Q1|Q1]; [lra|].
    destruct (Rlt_dec a t) as [X|X]; [lra|].
    assert (r32 (a - d2) <= r32 (a - d1))%R by (apply r32_le; lra). lra.
Qed.
(** a servo as the constructor leaves it *)
Definition fresh32 (x : servo A) (mn mx M : R) : Prop :=
  inside32 x mn mx M /\ s_start x = s_target x /\ s_cur x = s_target x /\ s_elapsed x = 0.
Lemma fresh_S32 (x : servo A) mn mx M : fresh32 x mn mx M -> S32 mn mx M 0 x /\ N32 mn mx M x.
Proof.
  intros (I & E1 & E2 & E3). pose proof I as (C & (v & Vv & Bv) & _ & _ & (c & Vc & Bc) & (t & Vt & Bt)).
  rewrite E2 in Vc. pose proof (fv_inj 24 128 _ _ _ Vt Vc) as ET. subst c. pose proof (v32_r _ _ Vt) as Et.
  assert (W : moving32 x mn mx M t t v).
  { unfold moving32. rewrite E1, E2, E3, rdelta_0, rstep_0 by exact Et. auto 10. }
  split; (split; [exact I|]).
  - split; [lia|]. split; [lia|]. eauto.
  - exists t, t, v, 0. split; [exact W|]. rewrite E3. split; [lia|]. split; [lia|]. rewrite rdelta_0, rstep_0 by exact Et.
    rewrite Rminus_diag_eq, Rabs_R0 by reflexivity. lra.
Qed.
End One.

Section Sys.
Context (L : libm).
Notation A := (IEEE L).
Context (fwd : V6 (F A) -> V6 (F A)) (inv : V6 (F A) -> option (V6 (F A))) (l2p p2l : V6 (F A) -> V6 (F A)) (limits : V6 (F A * F A)).
Context (mn mx M : Z -> R) (pinMap : list Z) (print : D A -> list Z) (sgn : bool).

(** Full claim: whenever the controller finds its instruction finished, every joint is at its target.  With the floats of the
    device, on every schedule of less than 49.7 days without E frames, unless a NaN is commanded: the poll that finds the
    instruction finished happens with every joint within 10^-6 rad of its target (and one millionth of that, and M/4000000). *)
Theorem C57_finished_means_arrived_ieee_partial (servos : V6 (servo A)) axs junk mem l s0 stims s tr x s' e :
  axes (fun i => fresh32 L (at6 servos i) (mn i) (mx i) (M i)) ->
  zlen junk = 300 -> holds sgn mem l -> Forall (fun m => zlen m <= 80) l -> sys_boot A fwd p2l servos axs junk mem = Ok s0 ->
  host_ok (spec_boot l) (map CChar (arrivals stims)) ->
  Forall (fun p => forall r, p <> 69 :: r) (commands [] (map CChar (arrivals stims))) ->
  20 * zlen (filter (fun x => match x with SystemModel.STick => true | _ => false end) stims) < 4294967296 ->
  sys_run A fwd inv l2p p2l limits pinMap print sgn s0 stims = Ok (s, tr) ->
  Forall (fun '(i, v, a) => number v /\ number a) (commanded tr) ->
  sys_step A fwd inv l2p p2l limits pinMap print sgn s x = Ok (s', e) -> In (YPoll true) e ->
  axes (fun i => let j := at6 (r_servos (d_robot (y_dev s))) i in
    exists c t, v32 (s_cur j) c /\ v32 (s_target j) t /\ (Rabs (c - t) <= 1 / 1000000 * (1 + 1 / 1000000) + M i / 4000000)%R).
Proof.
  intros FR J H L80 B HO NE TT R NN ST IN.
  destruct (finished_there A fwd inv l2p p2l limits pinMap print sgn (fun K i => S32 L (mn i) (mx i) (M i) K) (fun i => N32 L (mn i) (mx i) (M i))
    (fun v a => number v /\ number a)) with (servos := servos) (axs := axs) (junk := junk) (mem := mem) (l := l) (s0 := s0) (stims := stims) (s := s) (tr := tr) (x := x) (s' := s') (e := e) as [_ T]; auto.
  - intros K i y y' p. apply S32_tick.
  - intros K i y y' p. apply N32_tick.
  - intros K i y v a. apply S32_cmd.
  - intros K i y. apply S32_at.
  - unfold axes in *. destruct FR as (F0 & F1 & F2 & F3 & F4 & F5). split; [|split; [|split; [|split; [|split]]]]; apply fresh_S32; assumption.
  - unfold there, axes in *. destruct T as (T0 & T1 & T2 & T3 & T4 & T5). split; [|split; [|split; [|split; [|split]]]]; cbv zeta;
      [exact (N32_means L _ _ _ _ T0)|exact (N32_means L _ _ _ _ T1)|exact (N32_means L _ _ _ _ T2)|exact (N32_means L _ _ _ _ T3)|exact (N32_means L _ _ _ _ T4)|exact (N32_means L _ _ _ _ T5)].
Qed.

(** ** point-to-point hosts command numbers *)
Context (lims : list (R * R * R)).
Context (L2P : forall a, six (fin 1000000) a -> six (fin 10000000) (l2p a)).
Context (P2L : forall a, six (fin 1100) a -> six (fin 1000000) (p2l a)).
Context (INV : forall p a, inv p = Some a -> six (fin 1000000) a).
Notation cdev := (calm_device L mn mx M lims).
Notation acts_run := (sys_acts A fwd p2l pinMap print).
Notation step := (sys_step A fwd inv l2p p2l limits pinMap print sgn).
Notation run := (sys_run A fwd inv l2p p2l limits pinMap print sgn).
Lemma calm_numbers (r r' : robot A) e : calm L mn mx M r -> r_process A fwd inv l2p p2l limits r = Ok (r', e) -> PropFloat.numbers (servo_cmds e).
Proof.
  intros [RD [MP|ID]] E; unfold r_process in E.
  - destruct (r_state r).
    + injection E as <- <-. apply Forall_nil.
    + destruct (all_at_target A r); [|injection E as <- <-; apply Forall_nil]. destruct (r_cur r =? r_total r); [injection E as <- <-; apply Forall_nil|].
      destruct (start_steady L fwd inv l2p p2l limits mn mx M L2P P2L (with_state A r START_MOVE)) as (r1 & e1 & E1 & _ & _ & N); auto.
      rewrite E in E1. injection E1 as <- <-. exact N.
    + destruct (start_steady L fwd inv l2p p2l limits mn mx M L2P P2L r) as (r1 & e1 & E1 & _ & _ & N); auto.
      rewrite E in E1. injection E1 as <- <-. exact N.
    + destruct (prepare_steady L fwd inv l2p p2l limits mn mx M L2P P2L INV r) as (r1 & e1 & E1 & _ & _ & N); auto.
      rewrite E in E1. injection E1 as <- <-. exact N.
  - rewrite ID in E. injection E as <- <-. apply Forall_nil.
Qed.
Lemma acts_silent now l : forall d d' e, acts_run now d l = Ok (d', e) -> commanded e = [].
Proof.
  induction l as [|a l IH]; intros d d' e E; cbn [sys_acts] in E; [injection E as <- <-; reflexivity|].
  destruct (sys_act A fwd p2l pinMap print now d a) as [[d1 e1]|] eqn:SX; cbn [bind] in E; [|discriminate].
  destruct (acts_run now d1 l) as [[d2 e2]|] eqn:R; cbn [bind] in E; [|discriminate]. injection E as <- <-.
  rewrite commanded_app, (IH _ _ _ R), app_nil_r.
  destruct a as [n|t]; cbn [sys_act] in SX; [injection SX as <- <-; reflexivity|].
  destruct (dev_parse A fwd p2l pinMap print now d t) as [[d3 e3]|] eqn:DP; cbn [bind] in SX; [|discriminate]. injection SX as <- <-.
  unfold dev_parse in DP. destruct (mril_parse t) as [[acts num]|]; cbn [bind] in DP; [|discriminate].
  destruct (exec_acts A fwd p2l pinMap print now d [] acts) as [[[d4 b4] e4]|] eqn:X; cbn [bind] in DP; [|discriminate]. injection DP as <- <-.
  destruct (exec_RP A fwd inv l2p p2l limits pinMap print _ _ _ _ _ _ _ X) as [_ C]. exact C.
Qed.
Lemma step_numbers s x s' e : step s x = Ok (s', e) -> cdev (y_dev s) -> PropFloat.numbers (commanded e).
Proof.
  intros E B. destruct x as [c| |now lv]; cbn [sys_step] in E.
  - injection E as <- <-. apply Forall_nil.
  - destruct (dev_tick A (y_dev s)); cbn [bind] in E; [|discriminate]. injection E as <- <-. apply Forall_nil.
  - assert (W : forall ev rx p, sys_mcp A fwd p2l pinMap print sgn now s ev rx p = Ok (s', e) -> PropFloat.numbers (commanded e)).
    { intros ev rx p X. unfold sys_mcp in X. destruct (c_step sgn (y_mcp s) ev) as [[m acts]|]; cbn [bind] in X; [|discriminate].
      destruct (acts_run now (y_dev s) acts) as [[d evs]|] eqn:AR; cbn [bind] in X; [|discriminate]. injection X as <- <-.
      pose proof (acts_silent _ _ _ _ _ AR) as Q. unfold PropFloat.numbers. cbn [commanded flat_map app] in *. unfold commanded in Q. cbn [flat_map app]. rewrite Q. apply Forall_nil. }
    assert (RB : forall d1 e1, dev_robot A fwd inv l2p p2l limits print (y_dev s) = Ok (d1, e1) -> PropFloat.numbers (commanded (map YDev e1))).
    { intros d1 e1 X. unfold dev_robot in X. destruct (r_process A fwd inv l2p p2l limits (d_robot (y_dev s))) as [[r evs]|] eqn:RP; cbn [bind] in X; [|discriminate].
      injection X as <- <-. rewrite robot_evs. eapply calm_numbers; [|exact RP]. apply B. }
    unfold sys_main in E. destruct (y_phase s) as [| |k| |].
    + destruct (dev_robot A fwd inv l2p p2l limits print (y_dev s)) as [[d e1]|] eqn:R; cbn [bind] in E; [|discriminate]. injection E as <- <-. exact (RB _ _ eq_refl).
    + destruct (dev_robot A fwd inv l2p p2l limits print (y_dev s)) as [[d e1]|] eqn:R; cbn [bind] in E; [|discriminate]. injection E as <- <-. exact (RB _ _ eq_refl).
    + destruct (y_rx s) as [|c rx]; [injection E as <- <-; apply Forall_nil|].
      destruct (k <? READ_BYTES); [eapply W; eauto|injection E as <- <-; apply Forall_nil].
    + destruct (dev_poll_cases A (y_dev s) now lv) as [[_ EP]|[_ (io & _ & EP)]]; rewrite EP in E; injection E as <- <-; [destruct (0 <? pending (d_mril (y_dev s)))|]; apply Forall_nil.
    + eapply W; eauto.
Qed.
Lemma run_numbers l : forall s s' tr, run s l = Ok (s', tr) -> cdev (y_dev s) -> Forall (calm_text L lims) (executed tr) -> PropFloat.numbers (commanded tr).
Proof.
  induction l as [|x l IH]; intros s s' tr E H G; cbn [sys_run] in E; [injection E as <- <-; apply Forall_nil|].
  destruct (step s x) as [[s1 e1]|] eqn:SX; cbn [bind] in E; [|discriminate].
  destruct (run s1 l) as [[s2 e2]|] eqn:R; cbn [bind] in E; [|discriminate]. injection E as <- <-.
  unfold executed in G. rewrite flat_map_app in G. apply Forall_app in G as [G1 G2]. unfold PropFloat.numbers. rewrite commanded_app. apply Forall_app. split.
  - exact (step_numbers _ _ _ _ SX H).
  - eapply IH; eauto. eapply (step_Bd A fwd inv l2p p2l limits pinMap print sgn (calm_text L lims) cdev) in SX; eauto.
    + apply tick_calm.
    + apply (robot_calm L fwd inv l2p p2l limits mn mx M L2P P2L INV).
    + intros now d t d' e. apply parse_calm.
    + intros d d' E1 E2 [X Y]. unfold calm_device. rewrite E1, E2. split; assumption.
Qed.

(** For hosts that move point to point (the hosts of C59) nothing has to be assumed about what is commanded. *)
Theorem C57_point_to_point_ieee_partial (servos : V6 (servo A)) axs junk mem l s0 stims s tr x s' e :
  axes (fun i => fresh32 L (at6 servos i) (mn i) (mx i) (M i) /\ exists w, v32 (s_maxvel (at6 servos i)) w /\ (1 / 1000 <= w)%R) ->
  Forall2 (fun '(a, b, m) x => inside32 L x a b m) lims axs ->
  zlen junk = 300 -> holds sgn mem l -> Forall (fun m => zlen m <= 80) l -> sys_boot A fwd p2l servos axs junk mem = Ok s0 ->
  host_ok (spec_boot l) (map CChar (arrivals stims)) ->
  Forall (fun p => forall r, p <> 69 :: r) (commands [] (map CChar (arrivals stims))) ->
  Forall (calm_text L lims) l ->
  Forall (fun p => Forall (calm_text L lims) (frame_text p)) (commands [] (map CChar (arrivals stims))) ->
  20 * zlen (filter (fun x => match x with SystemModel.STick => true | _ => false end) stims) < 4294967296 ->
  run s0 stims = Ok (s, tr) -> step s x = Ok (s', e) -> In (YPoll true) e ->
  axes (fun i => let j := at6 (r_servos (d_robot (y_dev s))) i in
    exists c t, v32 (s_cur j) c /\ v32 (s_target j) t /\ (Rabs (c - t) <= 1 / 1000000 * (1 + 1 / 1000000) + M i / 4000000)%R).
Proof.
  intros WS WA J H L80 B HO NE ML MF TT R ST IN.
  assert (WF : axes (fun i => fresh32 L (at6 servos i) (mn i) (mx i) (M i))) by (unfold axes in *; tauto).
  assert (WI : axes (fun i => inside32 L (at6 servos i) (mn i) (mx i) (M i) /\ exists w, v32 (s_maxvel (at6 servos i)) w /\ (1 / 1000 <= w)%R)).
  { unfold axes, fresh32 in *. tauto. }
  eapply C57_finished_means_arrived_ieee_partial; eauto.
  destruct (boot_run A fwd p2l sgn junk mem l axs servos s0 J H L80 B) as (CI & RX & P0 & D0).
  assert (B0 : cdev (y_dev s0)).
  { rewrite D0. cbn [dev_boot]. split; [|exact WA]. split; [|right; reflexivity]. cbn [d_robot].
    pose proof (new_ready L fwd p2l mn mx M P2L servos WI) as (R1 & R2 & R3 & R4 & _). unfold steady. split; [exact R1|]. split; [exact R2|]. split; [exact R3|]. split; [exact R4|].
    exists 10%R. split; [apply (v_int 10); lia|lra]. }
  assert (GP : PT (calm_text L lims) (spec_boot l)) by (split; [constructor|exact ML]).
  pose proof (executed_origin A fwd inv l2p p2l limits pinMap print sgn (calm_text L lims) s0 (spec_boot l) stims s tr CI eq_refl RX GP R HO MF) as G.
  exact (run_numbers _ _ _ _ R B0 G).
Qed.
End Sys.
Print Assumptions C57_finished_means_arrived_ieee_partial.
Print Assumptions C57_point_to_point_ieee_partial.

(** ** the kit *)
Theorem C57_kit_ieee_partial (L : libm) (pinMap : list Z) (print : spec_float -> list Z) sgn junk mem l s0 stims s tr x s' e :
  tame_libm L -> zlen junk = 300 -> holds sgn mem l -> Forall (fun m => zlen m <= 80) l ->
  let A := IEEE L in let K := kin_new A (kit_geom A) in
  sys_boot A (kin_forward A K) (kit_p2l A) (kit_servos A) (kit_axis_servos A) junk mem = Ok s0 ->
  host_ok (spec_boot l) (map CChar (arrivals stims)) ->
  Forall (fun p => forall r, p <> 69 :: r) (commands [] (map CChar (arrivals stims))) ->
  Forall (calm_text L (kit_axis_limits L)) l ->
  Forall (fun p => Forall (calm_text L (kit_axis_limits L)) (frame_text p)) (commands [] (map CChar (arrivals stims))) ->
  20 * zlen (filter (fun x => match x with SystemModel.STick => true | _ => false end) stims) < 4294967296 ->
  sys_run A (kin_forward A K) (kin_inv A K) (kit_l2p A) (kit_p2l A) (kit_limits A) pinMap print sgn s0 stims = Ok (s, tr) ->
  sys_step A (kin_forward A K) (kin_inv A K) (kit_l2p A) (kit_p2l A) (kit_limits A) pinMap print sgn s x = Ok (s', e) -> In (YPoll true) e ->
  axes (fun i => let j := at6 (r_servos (d_robot (y_dev s))) i in
    exists c t, v32 (s_cur j) c /\ v32 (s_target j) t /\ (Rabs (c - t) <= 2 / 1000000)%R).
Proof.
  intros TL J H L80 A K B HO NE ML MF TT R ST IN.
  assert (W := C57_point_to_point_ieee_partial L (kin_forward A K) (kin_inv A K) (kit_l2p A) (kit_p2l A) (kit_limits A) (kit_mn L) (kit_mx L) (fun _ => 3%R) pinMap print sgn
    (kit_axis_limits L) (kit_l2p_fin L) (kit_p2l_fin L) (kin_inv_fin L TL (kit_geom A)) (kit_servos A) (kit_axis_servos A) junk mem l s0 stims s tr x s' e).
  assert (Q : forall P Q : Z -> Prop, (forall i, P i -> Q i) -> axes P -> axes Q) by (intros P Q' I X; unfold axes in *; intuition).
  eapply Q; [|apply W; auto]; clear W.
  - intros i (c & t & V1 & V2 & B1). exists c, t. split; [exact V1|]. split; [exact V2|]. lra.
  - pose proof (kit_servos_ready L) as KR. unfold axes, fresh32 in *. cbn [at6 kit_servos v0 v1 v2 v3 v4 v5] in *. fold A in KR.
    destruct KR as ((I0 & W0) & (I1 & W1) & (I2 & W2) & (I3 & W3) & (I4 & W4) & (I5 & W5)).
    split; [|split; [|split; [|split; [|split]]]]; (split; [split; [assumption|split; [reflexivity|split; reflexivity]]|assumption]).
  - destruct (C30_kit_calibrated_ieee L) as [_ F]. unfold kit_axis_limits.
    assert (Q2 : forall xs : list (servo (IEEE L)), Forall (fun s => inside32 L s (SF2R radix2 (s_min s)) (SF2R radix2 (s_max s)) 3) xs ->
      Forall2 (fun '(a, b, m) x => inside32 L x a b m) (map (fun s : servo (IEEE L) => (SF2R radix2 (s_min s), SF2R radix2 (s_max s), 3%R)) xs) xs)
      by (induction 1; cbn [map]; constructor; auto).
    exact (Q2 _ F).
Qed.
Print Assumptions C57_kit_ieee_partial.

(** ":M0V20R130": joint 1 to 30 degrees.  The move is commanded, the polls in between find it unfinished, and the poll that
    finds it finished comes with the servo turned to its target. *)
Definition demo_arrive : list stim :=
  map SArrive [58; 77; 48; 86; 50; 48; 82; 49; 51; 48; 13] ++ repeat (SRun 10 (fun _ _ => false)) 25 ++ idle_loops 85.
Definition poll_value (e : sys_ev IF) : list bool := match e with YPoll b => [b] | _ => [] end.
Example C57_ieee_reachable :
  match kit_system demo_arrive with
  | Ok (s, tr) =>
      negb (forallb (fun x => x) (flat_map poll_value tr)) = true /\ last (flat_map poll_value tr) false = true /\
      length (commanded tr) = 6%nat /\
      forallb (fun '(i, v, a) => valid_binary 24 128 v && negb (is_nan_SF v) && valid_binary 24 128 a && negb (is_nan_SF a)) (commanded tr) = true /\
      s_cur (v1 (r_servos (d_robot (y_dev s)))) = s_target (v1 (r_servos (d_robot (y_dev s)))) /\
      SFeqb (s_cur (v1 (r_servos (d_robot (y_dev s))))) (s_home (v1 (r_servos (d_robot (y_dev s))))) = false
  | Ub _ => False
  end.
Proof. vm_compute. splits; reflexivity. Qed.
