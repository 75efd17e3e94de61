(** * C66 in IEEE arithmetic: shafts and pulses with the timer interrupt anywhere inside process().

    As long as no NaN is among the commanded speeds and angles, as in PropFloat. *)
From Coq Require Import Reals Lra Floats.SpecFloat.
From Flocq Require Import Core BinarySingleNaN.
From Verif Require Import Base Arith FloatBridge ServoModel ServoSpec ServoProofs ServoFloat.
From Verif Require Import RobotModel RobotSpec RobotProofs ConfigModel PropRobot PropFloat FineModel FineProofs PropFine.
Open Scope Z_scope.
Set Default Goal Selector "!".

Section Ieee.
Context (L : libm).
Notation A := (IEEE L).
Context (fwd : V6 (F A) -> V6 (F A)) (inv : V6 (F A) -> option (V6 (F A))) (l2p p2l : V6 (F A) -> V6 (F A)) (limits : V6 (F A * F A)).
Context (mn mx M : Z -> R) (servos : V6 (servo A)).

Definition GI (i : Z) (s : servo A) : Prop :=
  inside32 L s (mn i) (mx i) (M i) /\ s_min s = s_min (at6 servos i) /\ s_max s = s_max (at6 servos i) /\
  s_minF s = s_minF (at6 servos i) /\ s_maxF s = s_maxF (at6 servos i).
Definition PI_ (i p : Z) : Prop :=
  Z.min (s_minF (at6 servos i)) (s_maxF (at6 servos i)) - 1 <= p <= Z.max (s_minF (at6 servos i)) (s_maxF (at6 servos i)).
Definition II (st : fstate A) : Prop := Inv A GI PI_ st.

Lemma GI_process i s dt : GI i s -> match servo_process A s dt with Ok (s', p) => GI i s' /\ PI_ i p | Ub _ => False end.
Proof.
  intros (I & E1 & E2 & E3 & E4). destruct (tick_inside L s _ _ _ dt I) as (s' & p & E & I' & B & K1 & K2). rewrite E.
  apply process_limits in E as [L1 L2]. unfold GI, PI_. rewrite K1, K2, L1, L2. rewrite E3, E4 in B. tauto.
Qed.
Lemma GI_op i s o s' : GI i s -> op_ok L (mn i) (mx i) o -> sop_step A s o = Ok s' -> s_min s' = s_min s -> s_max s' = s_max s -> GI i s'.
Proof.
  intros (I & E1 & E2 & E3 & E4) O E M1 M2. destruct (op_inside L s _ _ _ o I O) as (s2 & E' & I' & K1 & K2). assert (s2 = s') by congruence. subst.
  unfold GI. rewrite K1, K2, M1, M2. auto.
Qed.

(** ** partial correctness, for results that satisfy NB *)
Definition tri {X} (p : P A X) (NB Q : X -> Prop) : Prop := forall st x st', II st -> p st = Ok (x, st') -> NB x -> II st' /\ Q x.
Notation yes := (fun _ => True).
Lemma tri_seq {X Y} (p : P A X) (f : X -> P A Y) (N1 Q1 : X -> Prop) N2 Q2 : tri p N1 Q1 -> (forall x, Q1 x -> tri (f x) N2 Q2) ->
  (forall x st y st', f x st = Ok (y, st') -> N2 y -> N1 x) -> tri (andthen A p f) N2 Q2.
Proof.
  intros H K J st y st' I E N. unfold andthen in E. destruct (p st) as [[x st1]|] eqn:E1; [cbn [bind] in E|discriminate].
  destruct (H st x st1 I E1 (J _ _ _ _ E N)) as [I1 W]. exact (K x W st1 y st' I1 E N).
Qed.
Lemma tri_then {X Y} (p : P A X) (f : X -> P A Y) (Q1 : X -> Prop) N2 Q2 : tri p yes Q1 -> (forall x, Q1 x -> tri (f x) N2 Q2) -> tri (andthen A p f) N2 Q2.
Proof. intros H K. eapply tri_seq; [exact H|exact K|]. intros; exact I. Qed.
Lemma tri_ret {X} (x : X) (N Q : X -> Prop) : Q x -> tri (ret A x) N Q.
Proof. intros H st y st' I E _. injection E as <- <-. auto. Qed.
Lemma tri_look {X} (f : robot A -> X) (N Q : X -> Prop) : (forall r, GoodR A GI r -> Q (f r)) -> tri (look A f) N Q.
Proof. intros H st y st' I E _. injection E as <- <-. split; [exact I|]. apply H, I. Qed.
Lemma tri_modify (f : robot A -> robot A) N (Q : unit -> Prop) : (forall r, r_servos (f r) = r_servos r) -> Q tt -> tri (modify A f) N Q.
Proof. intros H K st y st' [I J] E _. injection E as <- <-. split; [|exact K]. split; [|exact J]. unfold GoodR. cbn [f_r]. rewrite H. exact I. Qed.
Lemma tri_lift {X} (x : res X) N : tri (lift A x) N yes.
Proof. intros st y st' I E _. unfold lift in E. destruct x; [injection E as <- <-; auto|discriminate]. Qed.
Lemma II_irqs ds st : II st -> match irqs A ds st with Ok st' => II st' | Ub f => False end.
Proof. apply (irqs_good A GI PI_ (fun _ => False) GI_process). Qed.
Lemma tri_pause N : tri (pause A) N yes.
Proof.
  intros st y st' I E _. split; [|exact Logic.I]. unfold pause in E. destruct (f_irq A st) as [|ds rest]; [injection E as _ <-; exact I|].
  pose proof (II_irqs ds (mkF A (f_r A st) rest (f_log A st)) I) as K. destruct (irqs A ds _); [cbn [bind] in E; injection E as _ <-; exact K|discriminate].
Qed.
Lemma tri_cur i N : tri (read_cur A i) N yes.
Proof. unfold read_cur. eapply tri_then; [apply tri_pause|]. intros _ _. apply tri_look. auto. Qed.
Lemma tri_all N : tri (read_all A) N yes.
Proof. unfold read_all. do 6 (eapply tri_then; [apply tri_cur|]; intros ? _). now apply tri_ret. Qed.
Lemma tri_write i f N : 0 <= i < 6 -> (forall s, GI i s -> GI i (f s)) -> tri (write A i f) N yes.
Proof.
  intros R K. eapply tri_then; [apply tri_pause|]. intros _ _ st y st' [J W] E _. split; [|exact I]. injection E as _ <-. split; [|exact W].
  unfold GoodR, axes in *. cbn [f_r r_servos with_servos at6]. cbn [at6] in J. destruct J as (G0 & G1 & G2 & G3 & G4 & G5).
  assert (Q : i = 0 \/ i = 1 \/ i = 2 \/ i = 3 \/ i = 4 \/ i = 5) by lia.
  destruct Q as [->|[->|[->|[->|[->| ->]]]]]; cbn [set6 at6 v0 v1 v2 v3 v4 v5 Z.eqb Pos.eqb]; (repeat (split; [solve [auto]|])); auto.
Qed.
Lemma tri_reject N : tri (fine_reject A fwd p2l) N yes.
Proof. unfold fine_reject. do 2 (eapply tri_then; [apply tri_all|]; intros ? _). now apply tri_modify. Qed.
Lemma tri_plan N : tri (fine_plan A inv) N yes.
Proof.
  unfold fine_plan. eapply tri_then; [apply (tri_look r_method _ yes); auto|]. intros m _. destruct m.
  - eapply tri_then; [apply (tri_look (fun r => r) _ yes); auto|]. intros r _. cbv zeta. now apply tri_ret.
  - eapply tri_then; [apply (tri_look (fun r => r) _ yes); auto|]. intros r _. cbv zeta. destruct (inv _); [|now apply tri_ret].
    destruct (near_singular A _); [|now apply tri_ret]. do 2 (eapply tri_then; [apply tri_cur|]; intros ? _). now apply tri_ret.
  - apply tri_lift.
Qed.

Definition num_ev (e : RobotModel.rev A) : Prop := numbers (servo_cmds [e]).
Lemma tri_command j (t time : F A) : 0 <= j < 6 -> not_outside A t (s_min (at6 servos j)) (s_max (at6 servos j)) ->
  tri (fine_command A j t time) num_ev yes.
Proof.
  intros R O st e st' I E N. unfold fine_command in E. unfold andthen at 1 in E.
  destruct (read_cur A j st) as [[c st1]|] eqn:E1; [cbn [bind] in E|discriminate]. destruct (tri_cur j yes st c st1 I E1 Logic.I) as [I1 _].
  cbv zeta in E. set (v := fdiv A (fabsf A (fsub A t c)) time) in *.
  assert (NV : number v /\ number t).
  { assert (EV : e = EvServo j v t).
    { unfold andthen in E. repeat (match type of E with bind ?x _ = _ => destruct x as [[? ?]|]; [cbn [bind] in E|discriminate] end).
      unfold ret in E. now injection E as <- _. }
    rewrite EV in N. unfold num_ev, numbers in N. cbn [servo_cmds] in N. inversion N. assumption. }
  destruct NV as [NV NT].
  assert (OV : op_ok L (mn j) (mx j) (SVel (A := A) v)) by (apply number_32; exact NV).
  revert st1 e st' I1 E N E1. 
  enough (T : tri (andthen A (write A j (fun s => servo_set_vel A s v)) (fun _ => andthen A (write A j (set_target_1 A)) (fun _ =>
    andthen A (write A j (set_target_2 A)) (fun _ => andthen A (write A j (fun s => set_target_3 A s t)) (fun _ => ret A (EvServo j v t)))))) num_ev yes).
  { intros st1 e st' I1 E N _. exact (T st1 e st' I1 E N). }
  eapply tri_then; [apply tri_write; [exact R|]|].
  { intros s G. destruct (set_vel_limits A s v) as [K1 K2]. eapply GI_op; [exact G|exact OV|reflexivity|exact K1|exact K2]. }
  intros _ _. eapply tri_then; [apply tri_write; [exact R|]|].
  { intros s G. eapply (GI_op j s (SStmt1 (A := A))); [exact G|exact Logic.I|reflexivity|reflexivity|reflexivity]. }
  intros _ _. eapply tri_then; [apply tri_write; [exact R|]|].
  { intros s G. eapply (GI_op j s (SStmt2 (A := A))); [exact G|exact Logic.I|reflexivity|reflexivity|reflexivity]. }
  intros _ _. eapply tri_then; [apply tri_write; [exact R|]|].
  { intros s G. eapply (GI_op j s (SStmt3 (A := A) t)); [exact G| |reflexivity|reflexivity|reflexivity]. pose proof G as (((Vl & Vh & _) & _) & E1 & E2 & _).
    rewrite <- E1, <- E2 in O. exact (in_limits L t _ _ _ _ NT Vl Vh O). }
  intros _ _. now apply tri_ret.
Qed.
(** what a program returns *)
Lemma back_then {X Y} (p : P A X) (f : X -> P A Y) (Q : Y -> Prop) : (forall x st y st', f x st = Ok (y, st') -> Q y) -> forall st y st', andthen A p f st = Ok (y, st') -> Q y.
Proof. intros H st y st' E. unfold andthen in E. destruct (p st) as [[x st1]|]; [|discriminate]. eapply H; exact E. Qed.
Definition num_evs (es : list (RobotModel.rev A)) : Prop := numbers (servo_cmds es).
Lemma num_in es e : num_evs es -> In e es -> num_ev e.
Proof.
  intros N H. apply in_split in H as (a & b & ->). unfold num_evs, num_ev, numbers in *. change (e :: b) with ([e] ++ b) in N.
  rewrite !servo_cmds_app in N. apply Forall_app in N as [_ N]. apply Forall_app in N as [N _]. exact N.
Qed.
Lemma tri_go (t : V6 (F A)) time : axes (fun i => not_outside A (at6 t i) (s_min (at6 servos i)) (s_max (at6 servos i))) -> tri (fine_go A t time) num_evs yes.
Proof.
  intros O. unfold fine_go. eapply tri_then; [apply tri_all|]. intros a _. eapply tri_then; [apply (tri_look _ _ yes); auto|]. intros mv _. cbv zeta.
  set (mt := fold_left _ _ time). clearbody mt. unfold axes in O. cbn [at6] in O. destruct O as (O0 & O1 & O2 & O3 & O4 & O5).
  assert (LAST : forall es, tri (andthen A (modify A (fun r => with_state A r MOVING)) (fun _ => ret A es)) num_evs yes).
  { intros es. eapply tri_then; [apply (tri_modify _ _ yes); [reflexivity|exact I]|]. intros _ _. now apply tri_ret. }
  destruct (negb _); [|apply LAST].
  assert (IN : forall (e : RobotModel.rev A) es st y st', In e es ->
    andthen A (modify A (fun r => with_state A r MOVING)) (fun _ => ret A es) st = Ok (y, st') -> num_evs y -> num_ev e).
  { intros e es st y st' H E N. cbn in E. injection E as <- _. eapply num_in; eauto. }
  eapply (tri_seq _ _ num_ev yes); [apply tri_command; [lia|exact O0]| |].
  2:{ intros e0 st y st'. revert st y st'. do 5 (apply (back_then _ _ (fun y => num_evs y -> num_ev e0)); intros ?). intros st y st'. apply IN. cbn [In]. auto 10. }
  intros e0 _. eapply (tri_seq _ _ num_ev yes); [apply tri_command; [lia|exact O1]| |].
  2:{ intros e1 st y st'. revert st y st'. do 4 (apply (back_then _ _ (fun y => num_evs y -> num_ev e1)); intros ?). intros st y st'. apply IN. cbn [In]. auto 10. }
  intros e1 _. eapply (tri_seq _ _ num_ev yes); [apply tri_command; [lia|exact O2]| |].
  2:{ intros e2 st y st'. revert st y st'. do 3 (apply (back_then _ _ (fun y => num_evs y -> num_ev e2)); intros ?). intros st y st'. apply IN. cbn [In]. auto 10. }
  intros e2 _. eapply (tri_seq _ _ num_ev yes); [apply tri_command; [lia|exact O3]| |].
  2:{ intros e3 st y st'. revert st y st'. do 2 (apply (back_then _ _ (fun y => num_evs y -> num_ev e3)); intros ?). intros st y st'. apply IN. cbn [In]. auto 10. }
  intros e3 _. eapply (tri_seq _ _ num_ev yes); [apply tri_command; [lia|exact O4]| |].
  2:{ intros e4 st y st'. revert st y st'. do 1 (apply (back_then _ _ (fun y => num_evs y -> num_ev e4)); intros ?). intros st y st'. apply IN. cbn [In]. auto 10. }
  intros e4 _. eapply (tri_seq _ _ num_ev yes); [apply tri_command; [lia|exact O5]| |].
  2:{ intros e5 st y st'. apply IN. cbn [In]. auto 10. }
  intros e5 _. apply LAST.
Qed.
Lemma tri_start : tri (fine_start A fwd inv l2p p2l limits) num_evs yes.
Proof.
  unfold fine_start. eapply tri_then; [apply (tri_modify _ _ yes); [reflexivity|exact I]|]. intros _ _.
  eapply tri_then; [apply tri_plan|]. intros [p e] _. cbn [fst snd].
  assert (R : tri (andthen A (fine_reject A fwd p2l) (fun _ => ret A e)) num_evs yes) by (eapply tri_then; [apply tri_reject|]; intros _ _; now apply tri_ret).
  destruct p as [tl time|]; [|exact R]. destruct (outside A tl _ _); [exact R|]. cbv zeta.
  eapply tri_then; [apply (tri_look _ _ (fun lo => lo = map6 s_min servos))|].
  { intros r G. unfold GoodR, axes, GI in G. cbn [at6] in G. unfold map6. destruct G as ((_ & -> & _) & (_ & -> & _) & (_ & -> & _) & (_ & -> & _) & (_ & -> & _) & (_ & -> & _)). reflexivity. }
  intros lo ->. eapply tri_then; [apply (tri_look _ _ (fun hi => hi = map6 s_max servos))|].
  { intros r G. unfold GoodR, axes, GI in G. cbn [at6] in G. unfold map6. destruct G as ((_ & _ & -> & _) & (_ & _ & -> & _) & (_ & _ & -> & _) & (_ & _ & -> & _) & (_ & _ & -> & _) & (_ & _ & -> & _)). reflexivity. }
  intros hi ->. destruct (outside A (l2p tl) _ _) eqn:O; [exact R|].
  eapply (tri_seq _ _ num_evs yes); [apply tri_go| |].
  - apply (outside_false A fwd inv l2p p2l) in O. exact O.
  - intros cmds _. now apply tri_ret.
  - intros cmds st y st' E N. cbn in E. injection E as <- _. unfold num_evs, numbers in *. rewrite servo_cmds_app in N. apply Forall_app in N. apply N.
Qed.
Lemma tri_prepare : tri (fine_prepare A fwd inv l2p p2l limits) num_evs yes.
Proof.
  unfold fine_prepare. eapply tri_then; [apply (tri_look (fun r => r) _ yes); auto|]. intros r _.
  destruct (r_trans r); [now apply tri_ret|].
  eapply tri_then; [apply (tri_modify _ _ yes); [|exact I]|].
  { intros q. destruct (r_achg q); [reflexivity|]. destruct (r_pchg q); reflexivity. }
  intros _ _. destruct (r_pchg r && r_achg r).
  { eapply tri_then; [apply (tri_modify _ _ yes); [reflexivity|exact I]|]. intros _ _. now apply tri_ret. }
  eapply tri_then; [apply (tri_modify _ _ yes); [reflexivity|exact I]|]. intros _ _.
  do 2 (eapply tri_then; [apply tri_all|]; intros ? _).
  eapply tri_then; [apply (tri_modify _ _ yes); [reflexivity|exact I]|]. intros _ _.
  eapply tri_then; [apply (tri_look (fun r => r) _ yes); auto|]. intros q _.
  destruct (angles_equal A _ _).
  { eapply tri_then; [apply (tri_modify _ _ yes); [reflexivity|exact I]|]. intros _ _. now apply tri_ret. }
  eapply tri_then; [apply tri_lift|]. intros n _. eapply tri_then; [apply (tri_modify _ _ yes); [reflexivity|exact I]|]. intros _ _. exact tri_start.
Qed.
Lemma tri_process : tri (fine_process A fwd inv l2p p2l limits) num_evs yes.
Proof.
  assert (K : forall i N, tri (fine_ask A i) N yes).
  { intros i N. unfold fine_ask. eapply tri_then; [apply tri_pause|]. intros _ _. apply tri_look. auto. }
  unfold fine_process. eapply tri_then; [apply (tri_look r_state _ yes); auto|]. intros s _. destruct s.
  - now apply tri_ret.
  - eapply (tri_then _ _ yes). { unfold fine_arrived. do 6 (eapply tri_then; [apply K|]; intros ? _). now apply tri_ret. }
    intros ok _. destruct ok; [|now apply tri_ret].
    eapply tri_then; [apply (tri_look (fun r => r) _ yes); auto|]. intros r _. destruct (r_cur r =? r_total r).
    + eapply tri_then; [apply (tri_modify _ _ yes); [reflexivity|exact I]|]. intros _ _. now apply tri_ret.
    + eapply tri_then; [apply (tri_modify _ _ yes); [reflexivity|exact I]|]. intros _ _. exact tri_start.
  - exact tri_start.
  - exact tri_prepare.
Qed.

Lemma step_II r o r' e l : GoodR A GI r -> fine_step A fwd inv l2p p2l limits r o = Ok (r', e, l) -> num_evs e -> GoodR A GI r' /\ PulsesOk PI_ l.
Proof.
  intros G H N. destruct o as [o w]. unfold fine_step in H. cbn [fst snd] in H.
  assert (S : forall o, (match o with OProcess | OTick _ => False | _ => True end) ->
    (do (r', e) <- r_step A fwd inv l2p p2l limits r o; Ok (r', e, [])) = Ok (r', e, l) -> GoodR A GI r' /\ PulsesOk PI_ l).
  { intros o0 K H0. destruct (r_step A fwd inv l2p p2l limits r o0) as [[r1 e1]|] eqn:E; [|discriminate]. cbn [bind] in H0. inversion H0; subst.
    apply setter_servos in E as [E ->]; [|exact K]. split; [unfold GoodR; now rewrite E|apply Forall_nil]. }
  destruct o; try (eapply (S (_ : RobotModel.rop A)); [|exact H]; exact I).
  - pose proof (tri_process (mkF A r w [])) as K.
    destruct (fine_process A fwd inv l2p p2l limits (mkF A r w [])) as [[e1 st]|]; [cbn [bind] in H|discriminate].
    pose proof (II_irqs (concat (f_irq A st)) (mkF A (f_r A st) [] (f_log A st))) as J.
    destruct (irqs A _ _) as [st'|]; [cbn [bind] in H|discriminate]. injection H as <- <- <-.
    destruct (K e1 st (conj G (Forall_nil _)) eq_refl N) as [[K1 K2] _]. destruct (J (conj K1 K2)). auto.
  - pose proof (II_irqs [dt] (mkF A r [] []) (conj G (Forall_nil _))) as J.
    destruct (irqs A _ _) as [st'|]; [cbn [bind] in H|discriminate]. injection H as <- <- <-. destruct J. auto.
Qed.
Lemma run_II os : forall r r' e l, GoodR A GI r -> fine_run A fwd inv l2p p2l limits r os = Ok (r', e, l) -> num_evs e -> GoodR A GI r' /\ PulsesOk PI_ l.
Proof.
  induction os as [|o os IH]; intros r r' e l G H N; cbn [fine_run] in H.
  - injection H as <- _ <-. split; [exact G|apply Forall_nil].
  - destruct (fine_step A fwd inv l2p p2l limits r o) as [[[r1 e1] l1]|] eqn:E1; [|discriminate]. cbn [bind] in H.
    destruct (fine_run A fwd inv l2p p2l limits r1 os) as [[[r2 e2] l2]|] eqn:E2; [|discriminate]. cbn [bind] in H. injection H as <- <- <-.
    unfold num_evs, numbers in N. rewrite servo_cmds_app in N. apply Forall_app in N as [N1 N2].
    apply step_II in E1 as (G1 & P1); [|exact G|exact N1]. apply IH in E2 as (G2 & P2); [|exact G1|exact N2]. split; [exact G2|]. apply Forall_app. auto.
Qed.

(** over every history, with any interrupts in every call of process(), unless a NaN is commanded: every servo's computed angle is within
    M/4000000 of its limits, its target inside them, and every pulse written by any interrupt within 1 us of the calibration *)
Theorem C66_shafts_inside_ieee os r evs pulses :
  axes (fun i => inside32 L (at6 servos i) (mn i) (mx i) (M i)) ->
  fine_run A fwd inv l2p p2l limits (robot_new A fwd p2l servos) os = Ok (r, evs, pulses) ->
  Forall (fun '(i, v, a) => number v /\ number a) (servo_cmds evs) ->
  axes (fun i => exists c t, v32 (s_cur (at6 (r_servos r) i)) c /\ v32 (s_target (at6 (r_servos r) i)) t /\
    (mn i - M i / 4000000 <= c <= mx i + M i / 4000000)%R /\ (mn i <= t <= mx i)%R) /\
  (forall p i, In p pulses -> 0 <= i < 6 ->
    Z.min (s_minF (at6 servos i)) (s_maxF (at6 servos i)) - 1 <= at6 p i <= Z.max (s_minF (at6 servos i)) (s_maxF (at6 servos i))).
Proof.
  intros G H N. assert (G0 : GoodR A GI (robot_new A fwd p2l servos)).
  { unfold GoodR, GI, axes in *. change (r_servos (robot_new A fwd p2l servos)) with servos. tauto. }
  destruct (run_II os _ r evs pulses G0 H N) as [K Q]. split.
  - assert (X : forall i s, GI i s -> exists c t, v32 (s_cur s) c /\ v32 (s_target s) t /\ (mn i - M i / 4000000 <= c <= mx i + M i / 4000000)%R /\ (mn i <= t <= mx i)%R).
    { intros i s ((_ & _ & _ & _ & (c & Vc & Bc) & (t & Vt & Bt)) & _). exists c, t. auto. }
    unfold axes, GoodR in *. destruct K as (K0 & K1 & K2 & K3 & K4 & K5). split; [now apply X|]. split; [now apply X|].
    split; [now apply X|]. split; [now apply X|]. split; now apply X.
  - intros p i J B. unfold PulsesOk in Q. rewrite Forall_forall in Q. specialize (Q p J). unfold axes, PI_ in Q.
    assert (W : i = 0 \/ i = 1 \/ i = 2 \/ i = 3 \/ i = 4 \/ i = 5) by lia.
    destruct W as [->|[->|[->|[->|[->| ->]]]]]; apply Q.
Qed.
(** and an interrupt is never undefined: the next one, after any such history *)
Theorem C66_tick_defined_ieee os r evs pulses dt :
  axes (fun i => inside32 L (at6 servos i) (mn i) (mx i) (M i)) ->
  fine_run A fwd inv l2p p2l limits (robot_new A fwd p2l servos) os = Ok (r, evs, pulses) ->
  Forall (fun '(i, v, a) => number v /\ number a) (servo_cmds evs) ->
  match fine_step A fwd inv l2p p2l limits r (OTick dt, []) with Ok _ => True | Ub _ => False end.
Proof.
  intros G H N. assert (G0 : GoodR A GI (robot_new A fwd p2l servos)).
  { unfold GoodR, GI, axes in *. change (r_servos (robot_new A fwd p2l servos)) with servos. tauto. }
  destruct (run_II os _ r evs pulses G0 H N) as [K _]. unfold fine_step. cbn [fst].
  pose proof (II_irqs [dt] (mkF A r [] []) (conj K (Forall_nil _))) as J. destruct (irqs A _ _); [exact I|contradiction].
Qed.
End Ieee.

(** ** the kit *)
Theorem C66_kit_ieee (L : libm) fwd inv l2p p2l limits os r evs pulses :
  fine_run (IEEE L) fwd inv l2p p2l limits (robot_new (IEEE L) fwd p2l (kit_servos (IEEE L))) os = Ok (r, evs, pulses) ->
  Forall (fun '(i, v, a) => number v /\ number a) (servo_cmds evs) ->
  axes (fun i => exists c, v32 (s_cur (at6 (r_servos r) i)) c /\ (kit_mn L i - 1 / 1000000 <= c <= kit_mx L i + 1 / 1000000)%R) /\
  (forall p i, In p pulses -> 0 <= i < 6 ->
    Z.min (s_minF (at6 (kit_servos (IEEE L)) i)) (s_maxF (at6 (kit_servos (IEEE L)) i)) - 1 <= at6 p i
      <= Z.max (s_minF (at6 (kit_servos (IEEE L)) i)) (s_maxF (at6 (kit_servos (IEEE L)) i))).
Proof.
  intros H N. destruct (C66_shafts_inside_ieee L fwd inv l2p p2l limits (kit_mn L) (kit_mx L) (fun _ => 3%R) (kit_servos (IEEE L)) os r evs pulses
    (proj1 (C30_kit_calibrated_ieee L)) H N) as [K Q]. split; [|exact Q]. unfold axes in *.
  destruct K as ((c0 & _ & V0 & _ & B0 & _) & (c1 & _ & V1 & _ & B1 & _) & (c2 & _ & V2 & _ & B2 & _) & (c3 & _ & V3 & _ & B3 & _) & (c4 & _ & V4 & _ & B4 & _) & (c5 & _ & V5 & _ & B5 & _)).
  split; [exists c0|split; [exists c1|split; [exists c2|split; [exists c3|split; [exists c4|exists c5]]]]]; (split; [assumption|lra]).
Qed.

(** the kit sent to 20 degrees in joint 1, and on the way to 10 degrees, an interrupt between the statements of servo 1's command *)
Definition kit_fine (os : list (fop IF)) := fine_run IF (fun a => a) (fun p => Some p) (kit_l2p IF) (kit_p2l IF) (kit_limits IF) (robot_new IF (fun a => a) (kit_p2l IF) (kit_servos IF)) os.
Example C66_ieee_reachable :
  let to n := mk6 (fi 0) (deg IF n) (fi 0) (fi 0) (fi 0) (fi 0) : V6 (F IF) in
  match kit_fine [(OSetAngles (to 20), []); (OProcess, []); (OTick 100, []); (OSetAngles (to 10), []); (OProcess, [[1]; []; [2; 3]] ++ repeat [] 23 ++ [[1]]); (OTick 20, [])] with
  | Ok (r, evs, pulses) => map (fun c => fst (fst c)) (servo_cmds evs) = [0; 1; 2; 3; 4; 5; 0; 1; 2; 3; 4; 5] /\
      forallb (fun c => number_b (snd (fst c)) && number_b (snd c)) (servo_cmds evs) = true /\ length pulses = 6%nat
  | Ub _ => False
  end.
Proof. vm_compute. splits; reflexivity. Qed.

Print Assumptions C66_shafts_inside_ieee.
Print Assumptions C66_tick_defined_ieee.
Print Assumptions C66_kit_ieee.
