(** * C66 for the whole controller: interrupts anywhere, also inside process(). *)
From Coq Require Import Reals Lra Floats.SpecFloat.
From Verif Require Import Base Arith ServoModel ServoSpec ServoProofs RobotModel RobotSpec RobotProofs RobotExact.
From Verif Require Import MrilModel McpModel DeviceModel SystemModel SystemSpec SystemMore ConfigModel ServoFloat PropRobot PropProgress PropFloat.
From Verif Require Import FineModel FineProofs FineSystem PropFine PropFineFloat.
Open Scope Z_scope.
Set Default Goal Selector "!".

Section Any.
Context (A : arith).
Context (fwd : V6 (F A) -> V6 (F A)) (inv : V6 (F A) -> option (V6 (F A))).
Context (l2p p2l : V6 (F A) -> V6 (F A)) (limits : V6 (F A * F A)).
Context (pinMap : list Z) (print : D A -> list Z) (sgn : bool).
Notation frun := (fine_run A fwd inv l2p p2l limits).
Notation fsrun := (fsys_run A fwd inv l2p p2l limits pinMap print sgn).

Lemma fine_run_app a : forall r b, frun r (a ++ b) =
  do (x, l1) <- frun r a; let (r1, e1) := x in do (y, l2) <- frun r1 b; let (r2, e2) := y in Ok (r2, e1 ++ e2, l1 ++ l2).
Proof.
  induction a as [|o a IH]; intros r b; cbn [app fine_run bind].
  - destruct (frun r b) as [[[? ?] ?]|]; reflexivity.
  - destruct (fine_step A fwd inv l2p p2l limits r o) as [[[r1 e1] l1]|]; cbn [bind]; [|reflexivity]. rewrite IH.
    destruct (frun r1 a) as [[[r2 e2] l2]|]; cbn [bind]; [|reflexivity]. destruct (frun r2 b) as [[[r3 e3] l3]|]; cbn [bind]; [|reflexivity].
    now rewrite !app_assoc.
Qed.
(** what the motion controller does in a run of the system *)
Definition FP (d d' : device A) (cs : list (Z * F A * F A)) (ps : list (V6 Z)) : Prop :=
  exists os evs ps', frun (d_robot d) os = Ok (d_robot d', evs, ps') /\ servo_cmds evs = cs /\ incl ps ps'.
Lemma FP_one d d' o evs ps cs : fine_step A fwd inv l2p p2l limits (d_robot d) o = Ok (d_robot d', evs, ps) -> servo_cmds evs = cs -> FP d d' cs ps.
Proof. intros E S. exists [o], evs, ps. cbn [fine_run]. rewrite E. cbn [bind]. rewrite !app_nil_r. split; [reflexivity|]. split; [exact S|apply incl_refl]. Qed.
Lemma FP_trans d1 d2 d3 a b p q : FP d1 d2 a p -> FP d2 d3 b q -> FP d1 d3 (a ++ b) (p ++ q).
Proof.
  intros (o1 & e1 & p1 & R1 & S1 & I1) (o2 & e2 & p2 & R2 & S2 & I2). exists (o1 ++ o2), (e1 ++ e2), (p1 ++ p2). rewrite fine_run_app, R1. cbn [bind]. rewrite R2. cbn [bind].
  rewrite servo_cmds_app, S1, S2. split; [reflexivity|]. split; [reflexivity|]. apply incl_app; [now apply incl_appl|now apply incl_appr].
Qed.
Lemma FP_coarse s y s1 e : sys_step A fwd inv l2p p2l limits pinMap print sgn s y = Ok (s1, e) -> FP (y_dev s) (y_dev s1) (commanded e) [].
Proof.
  intros E. destruct (step_RP A fwd inv l2p p2l limits pinMap print sgn _ _ _ _ E) as (os & evs & R1 & S1 & _).
  rewrite <- C66_without_interrupts in R1. destruct (frun (d_robot (y_dev s)) (map (fun o => (o, [])) os)) as [[[r1 e1] ps]|] eqn:Q; [|discriminate].
  cbn [bind] in R1. injection R1 as -> ->. exists (map (fun o => (o, [])) os), evs, ps. split; [exact Q|]. split; [exact S1|]. intros x [].
Qed.
Lemma commanded_map es : commanded (map (@YDev A) (flat_map (robot_ev A print) es)) = servo_cmds es.
Proof.
  unfold commanded. induction es as [|e es IH]; [reflexivity|]. cbn [flat_map]. rewrite map_app, flat_map_app, IH. destruct e; reflexivity.
Qed.
Lemma fine_robot_FP d w d' e ps : fine_robot A fwd inv l2p p2l limits print d w = Ok (d', e, ps) -> FP d d' (commanded (map (@YDev A) e)) ps.
Proof.
  intros E. unfold fine_robot in E. destruct (fine_step A fwd inv l2p p2l limits (d_robot d) (OProcess, map (repeat 20) w)) as [[[r evs] p]|] eqn:Q; [cbn [bind] in E|discriminate].
  destruct (axes_ticks A (list_sum w) (d_axes d)) as [l|]; [cbn [bind] in E|discriminate]. injection E as <- <- <-.
  eapply FP_one; [exact Q|]. symmetry. apply commanded_map.
Qed.
Lemma fstep_FP s x s' e ps : fsys_step A fwd inv l2p p2l limits pinMap print sgn s x = Ok (s', e, ps) -> FP (y_dev s) (y_dev s') (commanded e) ps.
Proof.
  intros E. unfold fsys_step in E. destruct x as [y w]. cbn [fst snd] in E.
  assert (C : forall y, (do (s1, e) <- sys_step A fwd inv l2p p2l limits pinMap print sgn s y; Ok (s1, e, [])) = Ok (s', e, ps) -> FP (y_dev s) (y_dev s') (commanded e) ps).
  { intros y0 Q. destruct (sys_step A fwd inv l2p p2l limits pinMap print sgn s y0) as [[s1 e1]|] eqn:Q1; [cbn [bind] in Q|discriminate]. injection Q as <- <- <-.
    now apply FP_coarse in Q1. }
  destruct y as [c| |now lv]; [exact (C _ E)| |].
  - destruct (fine_step A fwd inv l2p p2l limits (d_robot (y_dev s)) (OTick 20, [])) as [[[r evs] p]|] eqn:Q; [cbn [bind] in E|discriminate].
    destruct (axes_ticks A 1 (d_axes (y_dev s))) as [l|]; [cbn [bind fst] in E|discriminate]. injection E as <- <- <-.
    eapply FP_one; [exact Q|]. unfold fine_step in Q. cbn [fst] in Q. destruct (irqs A [20] _); [cbn [bind] in Q|discriminate]. injection Q as _ <- _. reflexivity.
  - destruct (y_phase s) eqn:PH; try exact (C _ E).
    + destruct (fine_robot A fwd inv l2p p2l limits print (y_dev s) w) as [[[d ev] p]|] eqn:Q; [cbn [bind fst snd] in E|discriminate]. injection E as <- <- <-.
      apply fine_robot_FP in Q. exact Q.
    + destruct (fine_robot A fwd inv l2p p2l limits print (y_dev s) w) as [[[d ev] p]|] eqn:Q; [cbn [bind fst snd] in E|discriminate]. injection E as <- <- <-.
      apply fine_robot_FP in Q. exact Q.
Qed.
Lemma fine_projection l : forall s s' tr ps, fsrun s l = Ok (s', tr, ps) -> FP (y_dev s) (y_dev s') (commanded tr) ps.
Proof.
  induction l as [|x l IH]; intros s s' tr ps E; cbn [fsys_run] in E.
  - injection E as <- <- <-. exists [], [], []. split; [reflexivity|]. split; [reflexivity|apply incl_refl].
  - destruct (fsys_step A fwd inv l2p p2l limits pinMap print sgn s x) as [[[s1 e1] p1]|] eqn:S; [cbn [bind] in E|discriminate].
    destruct (fsrun s1 l) as [[[s2 e2] p2]|] eqn:Q; [cbn [bind] in E|discriminate]. injection E as <- <- <-.
    rewrite commanded_app. exact (FP_trans _ _ _ _ _ _ _ (fstep_FP _ _ _ _ _ S) (IH _ _ _ _ Q)).
Qed.
Lemma boot_fine servos axs junk mem s0 l s tr ps : sys_boot A fwd p2l servos axs junk mem = Ok s0 -> fsrun s0 l = Ok (s, tr, ps) ->
  exists os evs ps', frun (robot_new A fwd p2l servos) os = Ok (d_robot (y_dev s), evs, ps') /\ servo_cmds evs = commanded tr /\ incl ps ps'.
Proof.
  intros B E. destruct (fine_projection _ _ _ _ _ E) as (os & evs & ps' & Q & S & I).
  exists ((OMethod LINEAR, []) :: (OVel (fofz A 10), []) :: os), evs, ps'. split; [|auto]. cbn [fine_run fine_step fst snd r_step bind].
  unfold sys_boot in B. destruct (c_boot junk mem); cbn [bind] in B; [|discriminate]. injection B as <-.
  change (d_robot (y_dev (mkSys (dev_boot A fwd p2l servos axs) a [] PRobot1))) with (with_maxvel A (with_method A (robot_new A fwd p2l servos) LINEAR) (fofz A 10)) in Q.
  rewrite Q. reflexivity.
Qed.

(** whatever arrives on the serial port, on every schedule, with interrupts between the steps of the main loop and inside process():
    no joint servo is ever commanded outside of its limits *)
Theorem C66_system_commands_inside servos axs junk mem s0 l s tr pulses i v a :
  sys_boot A fwd p2l servos axs junk mem = Ok s0 ->
  fsrun s0 l = Ok (s, tr, pulses) -> In (i, v, a) (commanded tr) ->
  0 <= i < 6 /\ not_outside A a (s_min (at6 servos i)) (s_max (at6 servos i)).
Proof.
  intros B E H. destruct (boot_fine _ _ _ _ _ _ _ _ _ B E) as (os & evs & ps' & Q & S & _). rewrite <- S in H.
  exact (C66_commands_inside A fwd inv l2p p2l limits servos os _ _ _ i v a Q H).
Qed.
(** without interrupts inside process() the system is the one of SystemModel *)
Theorem C66_system_without_interrupts (stims : list stim) : forall s,
  (do (x, _) <- fsrun s (map (fun x => (x, [])) stims); Ok x) = sys_run A fwd inv l2p p2l limits pinMap print sgn s stims.
Proof.
  assert (K : forall s x, (do (y, _) <- fsys_step A fwd inv l2p p2l limits pinMap print sgn s (x, []); Ok y) = sys_step A fwd inv l2p p2l limits pinMap print sgn s x).
  { assert (W : forall r : res (sys A * list (sys_ev A)), (do (y, _) <- (do (s1, e) <- r; Ok (s1, e, @nil (V6 Z))); Ok y) = r) by (intros [[? ?]|]; reflexivity).
    assert (N : forall d, axes_ticks A 0 d = Ok d) by reflexivity.
    intros s x. unfold fsys_step. cbn [fst snd]. destruct x as [c| |now lv]; [reflexivity| |].
    - unfold sys_step, dev_tick. rewrite <- update6_tick. unfold fine_step. cbn [fst]. rewrite r_tick_irqs.
      destruct (update6 A (r_servos (d_robot (y_dev s))) 20) as [[sv p]|]; [cbn [bind f_r f_log fst]|reflexivity].
      cbn [axes_ticks]. destruct (tick_axes A (d_axes (y_dev s)) 20); reflexivity.
    - destruct (y_phase s) eqn:PH; try apply W.
      + unfold sys_step, sys_main. rewrite PH. unfold fine_robot, dev_robot, fine_step. cbn [fst snd map list_sum fold_right]. rewrite quiet_process.
        destruct (r_process A fwd inv l2p p2l limits (d_robot (y_dev s))) as [[r e]|]; [cbn [bind f_irq f_r f_log concat irqs]|reflexivity].
        rewrite N. cbn [bind fst snd]. destruct (y_dev s); reflexivity.
      + unfold sys_step, sys_main. rewrite PH. unfold fine_robot, dev_robot, fine_step. cbn [fst snd map list_sum fold_right]. rewrite quiet_process.
        destruct (r_process A fwd inv l2p p2l limits (d_robot (y_dev s))) as [[r e]|]; [cbn [bind f_irq f_r f_log concat irqs]|reflexivity].
        rewrite N. cbn [bind fst snd]. destruct (y_dev s); reflexivity. }
  induction stims as [|x l IH]; intros s; cbn [map fsys_run sys_run]; [reflexivity|].
  rewrite <- K. destruct (fsys_step A fwd inv l2p p2l limits pinMap print sgn s (x, [])) as [[[s1 e1] p1]|]; [cbn [bind]|reflexivity].
  rewrite <- IH. destruct (fsrun s1 _) as [[[s2 e2] p2]|]; reflexivity.
Qed.
End Any.

(** in exact arithmetic: every shaft inside its limits, every pulse of the joint servos inside the calibration *)
Theorem C66_system_shafts_inside fwd inv l2p p2l limits pinMap print sgn servos axs junk mem s0 l s tr pulses :
  axes (fun i => in_order (at6 servos i)) ->
  sys_boot RA fwd p2l servos axs junk mem = Ok s0 ->
  fsys_run RA fwd inv l2p p2l limits pinMap print sgn s0 l = Ok (s, tr, pulses) ->
  axes (fun i => let x := at6 (r_servos (d_robot (y_dev s))) i in
    (s_min (at6 servos i) <= s_cur x <= s_max (at6 servos i))%R /\
    (s_min (at6 servos i) <= s_target x <= s_max (at6 servos i))%R /\
    (0 < s_vel x <= s_maxvel (at6 servos i))%R) /\
  (forall p i, In p pulses -> 0 <= i < 6 ->
    Z.min (s_minF (at6 servos i)) (s_maxF (at6 servos i)) <= at6 p i <= Z.max (s_minF (at6 servos i)) (s_maxF (at6 servos i))).
Proof.
  intros G B E. destruct (boot_fine RA fwd inv l2p p2l limits pinMap print sgn _ _ _ _ _ _ _ _ _ B E) as (os & evs & ps' & Q & _ & I).
  destruct (C66_shafts_inside fwd inv l2p p2l limits servos os _ evs ps' G Q) as [H1 H2]. split; [exact H1|]. intros p i J. apply H2. apply I. exact J.
Qed.
(** in IEEE arithmetic, for the kit, unless a NaN is commanded *)
Theorem C66_kit_system_ieee (L : libm) fwd inv l2p p2l limits pinMap print sgn axs junk mem s0 l s tr pulses :
  sys_boot (IEEE L) fwd p2l (kit_servos (IEEE L)) axs junk mem = Ok s0 ->
  fsys_run (IEEE L) fwd inv l2p p2l limits pinMap print sgn s0 l = Ok (s, tr, pulses) ->
  Forall (fun '(i, v, a) => number v /\ number a) (commanded tr) ->
  axes (fun i => exists c, v32 (s_cur (at6 (r_servos (d_robot (y_dev s))) i)) c /\ (kit_mn L i - 1 / 1000000 <= c <= kit_mx L i + 1 / 1000000)%R) /\
  (forall p i, In p pulses -> 0 <= i < 6 ->
    Z.min (s_minF (at6 (kit_servos (IEEE L)) i)) (s_maxF (at6 (kit_servos (IEEE L)) i)) - 1 <= at6 p i
      <= Z.max (s_minF (at6 (kit_servos (IEEE L)) i)) (s_maxF (at6 (kit_servos (IEEE L)) i))).
Proof.
  intros B E N. destruct (boot_fine (IEEE L) fwd inv l2p p2l limits pinMap print sgn _ _ _ _ _ _ _ _ _ B E) as (os & evs & ps' & Q & S & I).
  rewrite <- S in N. destruct (C66_kit_ieee L fwd inv l2p p2l limits os _ evs ps' Q N) as [H1 H2]. split; [exact H1|]. intros p i J. apply H2. apply I. exact J.
Qed.

(** the kit and the instruction of PropProgress, with interrupts inside every call of process(): six commands, all numbers, and joint 1 gets to
    its target; more than three hundred pulses have been written *)
Example C66_system_reachable :
  match (do s0 <- sys_boot IF (fun a => a) (kit_p2l IF) (kit_servos IF) (kit_axis_servos IF) (repeat 0 300) (repeat 0 2048);
    fsys_run IF (fun a => a) demo_inv (kit_l2p IF) (kit_p2l IF) (kit_limits IF) [20; 21; 22; 23; 24; 25; 26; 27; 28; 29] (fun _ => [48]) true s0
      (map (fun x => (x, [0; 0; 1; 0; 2]%nat)) demo_moving)) with
  | Ok (s, tr, pulses) => map (fun c => fst (fst c)) (commanded tr) = [0; 1; 2; 3; 4; 5] /\ forallb (fun c => number_b (snd (fst c)) && number_b (snd c)) (commanded tr) = true /\
      s_cur (v1 (r_servos (d_robot (y_dev s)))) = deg IF 15 /\ (300 <? length pulses)%nat = true
  | Ub _ => False
  end.
Proof. vm_compute. splits; reflexivity. Qed.

Print Assumptions C66_system_commands_inside.
Print Assumptions C66_system_shafts_inside.
Print Assumptions C66_kit_system_ieee.
