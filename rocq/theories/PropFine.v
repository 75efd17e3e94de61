(** * C66, C67: process() with the timer interrupt anywhere inside it (FineModel). *)
From Coq Require Import Reals Lra Floats.SpecFloat.
From Verif Require Import Base Arith ServoModel ServoSpec ServoProofs RobotModel RobotSpec RobotProofs RobotExact FineModel FineProofs PropRobot.
Open Scope Z_scope.
Set Default Goal Selector "!".

(** ** C66 the limits hold whatever interrupts fall into process() *)
Section Any.
Context (A : arith) (fwd : V6 (F A) -> V6 (F A)) (inv : V6 (F A) -> option (V6 (F A))).
Context (l2p p2l : V6 (F A) -> V6 (F A)) (limits : V6 (F A * F A)).

Lemma process_limits (s s' : servo A) dt p : servo_process A s dt = Ok (s', p) -> s_min s' = s_min s /\ s_max s' = s_max s.
Proof.
  unfold servo_process, servo_advance. cbv zeta. intros H.
  destruct (flt A (fabsf A _) _); [|destruct (flt A _ _)]; (destruct (servo_move A _) as [q|]; [|discriminate]); cbn [bind] in H; injection H as <- _; split; reflexivity.
Qed.
Lemma set_vel_limits (s : servo A) v : s_min (servo_set_vel A s v) = s_min s /\ s_max (servo_set_vel A s v) = s_max s.
Proof. unfold servo_set_vel. destruct (flt A _ _); [|destruct (fle A _ _)]; split; reflexivity. Qed.

(** in any arithmetic: over every history, with any interrupts in every call of process(), a servo is commanded only to an angle
    that is not outside its limits *)
Theorem C66_commands_inside (servos : V6 (servo A)) os r evs pulses i v a :
  fine_run A fwd inv l2p p2l limits (robot_new A fwd p2l servos) os = Ok (r, evs, pulses) ->
  In (i, v, a) (servo_cmds evs) ->
  0 <= i < 6 /\ not_outside A a (s_min (at6 servos i)) (s_max (at6 servos i)).
Proof.
  intros H J.
  set (Good := fun i (s : servo A) => s_min s = s_min (at6 servos i) /\ s_max s = s_max (at6 servos i)).
  refine (proj1 (proj2 (fine_run_good A fwd inv l2p p2l limits Good (fun _ _ => True)
    (fun i a => not_outside A a (s_min (at6 servos i)) (s_max (at6 servos i))) (fun _ => True) _ _ _ _ _ _ _ I _ os _ _ _ _ _ H)) i v a J).
  - intros k s dt G. destruct (servo_process A s dt) as [[s' p]|] eqn:E; [|exact I]. apply process_limits in E as [E1 E2].
    split; [|exact I]. unfold Good in *. rewrite E1, E2. exact G.
  - intros k s w G. unfold Good in *. destruct (set_vel_limits s w) as [-> ->]. exact G.
  - intros k s G. exact G.
  - intros k s G. exact G.
  - intros k s b G _. exact G.
  - intros sv t G O. apply (outside_false A fwd inv l2p p2l) in O. unfold axes, Good in *. cbn [at6 map6 v0 v1 v2 v3 v4 v5] in *.
    destruct G as ((<- & <-) & (<- & <-) & (<- & <-) & (<- & <-) & (<- & <-) & (<- & <-)). exact O.
  - intros k s s' [G1 G2] [K1 K2]. rewrite G1, G2, K1, K2. auto.
  - intros; exact I.
  - unfold GoodR, axes, Good. cbn. tauto.
Qed.

(** without interrupts inside process(), the fine model is RobotModel: same controller, same events *)
Lemma r_tick_irqs r dt : irqs A [dt] (mkF A r [] []) = do (s, ps) <- update6 A (r_servos r) dt; Ok (mkF A (with_servos A r s) [] [ps]).
Proof. cbn [irqs f_r f_irq f_log]. destruct (update6 A (r_servos r) dt) as [[s ps]|]; reflexivity. Qed.
Lemma update6_tick r dt : (do (s, _) <- update6 A (r_servos r) dt; Ok (with_servos A r s)) = r_tick A r dt.
Proof.
  unfold update6, r_tick. cbv zeta.
  destruct (servo_process A (v0 (r_servos r)) dt) as [[? ?]|]; [cbn [bind]|reflexivity].
  destruct (servo_process A (v1 (r_servos r)) dt) as [[? ?]|]; [cbn [bind]|reflexivity].
  destruct (servo_process A (v2 (r_servos r)) dt) as [[? ?]|]; [cbn [bind]|reflexivity].
  destruct (servo_process A (v3 (r_servos r)) dt) as [[? ?]|]; [cbn [bind]|reflexivity].
  destruct (servo_process A (v4 (r_servos r)) dt) as [[? ?]|]; [cbn [bind]|reflexivity].
  destruct (servo_process A (v5 (r_servos r)) dt) as [[? ?]|]; [cbn [bind]|]; reflexivity.
Qed.
Theorem C66_without_interrupts (os : list (RobotModel.rop A)) : forall r,
  (do (x, _) <- fine_run A fwd inv l2p p2l limits r (map (fun o => (o, [])) os); Ok x) = r_run A fwd inv l2p p2l limits r os.
Proof.
  assert (K : forall r o, (do (x, _) <- fine_step A fwd inv l2p p2l limits r (o, []); Ok x) = r_step A fwd inv l2p p2l limits r o).
  { intros r o. unfold fine_step. cbn [fst snd]. destruct o.
    1-2,4-5,6-9: reflexivity.
    - cbn [r_step]. destruct (set_angle A r i x); reflexivity.
    - rewrite quiet_process. cbn [r_step]. destruct (r_process A fwd inv l2p p2l limits r) as [[r' e]|]; reflexivity.
    - rewrite r_tick_irqs. cbn [r_step]. rewrite <- update6_tick. destruct (update6 A (r_servos r) dt) as [[s ps]|]; reflexivity. }
  induction os as [|o os IH]; intros r; cbn [map fine_run r_run]; [reflexivity|].
  rewrite <- K. destruct (fine_step A fwd inv l2p p2l limits r (o, [])) as [[[r1 e1] l1]|]; [cbn [bind]|reflexivity].
  rewrite <- IH. destruct (fine_run A fwd inv l2p p2l limits r1 _) as [[[r2 e2] l2]|]; reflexivity.
Qed.
End Any.

Section Exact.
Context (fwd : V6 R -> V6 R) (inv : V6 R -> option (V6 R)) (l2p p2l : V6 R -> V6 R) (limits : V6 (R * R)).
(** a servo in working order *)
Definition in_order (s : servo RA) : Prop :=
  (s_min s < s_max s)%R /\ 0 <= s_minF s <= 2147483647 /\ 0 <= s_maxF s <= 2147483647 /\
  (s_min s <= s_start s <= s_max s)%R /\ (s_min s <= s_cur s <= s_max s)%R /\
  (s_min s <= s_target s <= s_max s)%R /\ (1 / 10 <= s_maxvel s)%R /\ (0 < s_vel s <= s_maxvel s)%R.
Lemma in_order_SR s : in_order s <-> SR s.
Proof. unfold in_order, SR, sane, in_range. tauto. Qed.

Definition Kept (servos : V6 (servo RA)) (i : Z) (s : servo RA) : Prop := SR s /\ same_config (at6 servos i) s.
Definition Pulsed (servos : V6 (servo RA)) (i p : Z) : Prop :=
  Z.min (s_minF (at6 servos i)) (s_maxF (at6 servos i)) <= p <= Z.max (s_minF (at6 servos i)) (s_maxF (at6 servos i)).
Definition Allowed (servos : V6 (servo RA)) (i : Z) (a : R) : Prop := (s_min (at6 servos i) <= a <= s_max (at6 servos i))%R.
Definition PlanFault (f : fault) : Prop := f = Uninit \/ exists s t, linear_steps RA s t = Ub f.

Lemma kept_process servos i s dt : Kept servos i s ->
  match servo_process RA s dt with Ok (s', p) => Kept servos i s' /\ Pulsed servos i p | Ub f => PlanFault f end.
Proof.
  intros [H C]. pose proof (SR_advance s dt H) as H'. pose proof (advance_config s dt) as C'. unfold servo_process. cbv zeta.
  destruct (move_in_range (servo_advance RA s dt)) as (p & E & _ & B); [apply H'|apply H'|]. rewrite E. cbn [bind].
  unfold Kept, Pulsed, same_config in *. destruct C as (C1 & C2 & C3 & C4 & C5), C' as (D1 & D2 & D3 & D4 & D5).
  split; [split; [exact H'|]|].
  - rewrite D1, D2, D3, D4, D5. auto.
  - rewrite D3, D4, C3, C4 in B. exact B.
Qed.
Lemma kept_vel servos i s (v : R) : Kept servos i s -> Kept servos i (servo_set_vel RA s v).
Proof. intros [K C]. rewrite set_vel_RA. unfold Kept, SR, sane, in_range, same_config in *. cbn. splits; try tauto; mcases; cbn in *; lra. Qed.
Lemma kept_1 servos i s : Kept servos i s -> Kept servos i (set_target_1 RA s).
Proof. intros [K C]. unfold Kept, SR, sane, in_range, same_config in *. cbn. tauto. Qed.
Lemma kept_2 servos i s : Kept servos i s -> Kept servos i (set_target_2 RA s).
Proof. intros [K C]. unfold Kept, SR, sane, in_range, same_config in *. cbn. tauto. Qed.
Lemma kept_3 servos i s (a : F RA) : Kept servos i s -> Allowed servos i a -> Kept servos i (set_target_3 RA s a).
Proof.
  intros [K C] B. unfold Kept, Allowed, SR, sane, in_range, same_config in *. cbn. destruct C as (C1 & C2 & C3 & C4 & C5).
  rewrite C1, C2. rewrite C1, C2 in K. tauto.
Qed.
Lemma kept_out servos (sv : V6 (servo RA)) (t : V6 (F RA)) : axes (fun i => Kept servos i (at6 sv i)) ->
  outside RA t (map6 s_min sv) (map6 s_max sv) = false -> axes (fun i => Allowed servos i (at6 t i)).
Proof.
  intros K O. apply (outside_false RA fwd inv l2p p2l) in O. unfold axes, Allowed, Kept, same_config in *. cbn [at6 map6 v0 v1 v2 v3 v4 v5] in *.
  destruct K as ((_ & K0 & L0 & _) & (_ & K1 & L1 & _) & (_ & K2 & L2 & _) & (_ & K3 & L3 & _) & (_ & K4 & L4 & _) & (_ & K5 & L5 & _)).
  rewrite <- K0, <- L0, <- K1, <- L1, <- K2, <- L2, <- K3, <- L3, <- K4, <- L4, <- K5, <- L5.
  destruct O as (O0 & O1 & O2 & O3 & O4 & O5). split; [now apply not_outside_R|]. split; [now apply not_outside_R|]. split; [now apply not_outside_R|].
  split; [now apply not_outside_R|]. split; now apply not_outside_R.
Qed.
Lemma kept_lim servos i s s' : Kept servos i s -> Kept servos i s' -> s_min s = s_min s' /\ s_max s = s_max s'.
Proof. intros (_ & G1 & G2 & _) (_ & K1 & K2 & _). rewrite G1, G2, K1, K2. auto. Qed.
Lemma plan_fault (s t : V6 (F RA)) f : linear_steps RA s t = Ub f -> PlanFault f.
Proof. intros E. right. eauto. Qed.
Lemma kept_run servos os r evs pulses : axes (fun i => SR (at6 servos i)) ->
  fine_run RA fwd inv l2p p2l limits (robot_new RA fwd p2l servos) os = Ok (r, evs, pulses) ->
  GoodR RA (Kept servos) r /\ cmds_ok RA (Allowed servos) evs /\ PulsesOk (Pulsed servos) pulses.
Proof.
  intros G H. refine (fine_run_good RA fwd inv l2p p2l limits (Kept servos) (Pulsed servos) (Allowed servos) PlanFault
    (kept_process servos) (kept_vel servos) (kept_1 servos) (kept_2 servos) (kept_3 servos) (kept_out servos) (kept_lim servos) (or_introl eq_refl) plan_fault os _ _ _ _ _ H).
  unfold GoodR, axes, Kept, same_config in *. cbn. tauto.
Qed.

(** in exact arithmetic: over every history, with any interrupts in every call of process(), every servo stays inside its limits, and
    every pulse written by any interrupt, inside process() or between calls, is inside the calibration of its servo *)
Theorem C66_shafts_inside servos os r evs pulses :
  axes (fun i => in_order (at6 servos i)) ->
  fine_run RA fwd inv l2p p2l limits (robot_new RA fwd p2l servos) os = Ok (r, evs, pulses) ->
  axes (fun i => let s := at6 (r_servos r) i in
    (s_min (at6 servos i) <= s_cur s <= s_max (at6 servos i))%R /\
    (s_min (at6 servos i) <= s_target s <= s_max (at6 servos i))%R /\
    (0 < s_vel s <= s_maxvel (at6 servos i))%R) /\
  (forall p i, In p pulses -> 0 <= i < 6 ->
    Z.min (s_minF (at6 servos i)) (s_maxF (at6 servos i)) <= at6 p i <= Z.max (s_minF (at6 servos i)) (s_maxF (at6 servos i))).
Proof.
  intros G H. assert (G' : axes (fun i => SR (at6 servos i))). { unfold axes in *. rewrite <- !in_order_SR. exact G. }
  destruct (kept_run servos os r evs pulses G' H) as (K & _ & Q). split.
  - assert (X : forall i s, Kept servos i s -> (s_min (at6 servos i) <= s_cur s <= s_max (at6 servos i))%R /\
      (s_min (at6 servos i) <= s_target s <= s_max (at6 servos i))%R /\ (0 < s_vel s <= s_maxvel (at6 servos i))%R).
    { intros i s ((_ & _ & B & C & M & V) & D1 & D2 & _ & _ & D5). unfold in_range in *. rewrite D1, D2 in *. rewrite D5 in V. tauto. }
    unfold axes, GoodR in *. cbv zeta. destruct K as (K0 & K1 & K2 & K3 & K4 & K5). split; [now apply X|]. split; [now apply X|].
    split; [now apply X|]. split; [now apply X|]. split; now apply X.
  - intros p i J B. unfold PulsesOk in Q. rewrite Forall_forall in Q. specialize (Q p J). unfold axes, Pulsed in Q.
    assert (W : i = 0 \/ i = 1 \/ i = 2 \/ i = 3 \/ i = 4 \/ i = 5) by lia.
    destruct W as [->|[->|[->|[->|[->| ->]]]]]; apply Q.
Qed.

(** no interrupt causes a fault: process() is undefined only where it is undefined without interrupts (the method CIRCULAR, or a
    straight move whose step count is not an int); an interrupt itself is never undefined *)
Theorem C66_interrupts_harmless servos os r evs pulses w :
  axes (fun i => in_order (at6 servos i)) ->
  fine_run RA fwd inv l2p p2l limits (robot_new RA fwd p2l servos) os = Ok (r, evs, pulses) ->
  match fine_step RA fwd inv l2p p2l limits r (OProcess, w) with
  | Ok _ => True
  | Ub f => f = Uninit \/ exists s t, linear_steps RA s t = Ub f
  end /\
  forall dt, match fine_step RA fwd inv l2p p2l limits r (OTick dt, []) with Ok _ => True | Ub _ => False end.
Proof.
  intros G H. assert (G' : axes (fun i => SR (at6 servos i))). { unfold axes in *. rewrite <- !in_order_SR. exact G. }
  destruct (kept_run servos os r evs pulses G' H) as (K & _ & _).
  assert (I : forall ds st, Inv RA (Kept servos) (Pulsed servos) st -> match irqs RA ds st with Ok st' => Inv RA (Kept servos) (Pulsed servos) st' | Ub f => PlanFault f end).
  { intros ds st J. apply (irqs_good RA (Kept servos) (Pulsed servos) PlanFault (kept_process servos)). exact J. }
  assert (J0 : forall w, Inv RA (Kept servos) (Pulsed servos) (mkF RA r w [])) by (intros; split; [exact K|apply Forall_nil]).
  split.
  - unfold fine_step. cbn [fst snd].
    pose proof (tri_process RA fwd inv l2p p2l limits (Kept servos) (Pulsed servos) (Allowed servos) PlanFault
      (kept_process servos) (kept_vel servos) (kept_1 servos) (kept_2 servos) (kept_3 servos) (kept_out servos) (kept_lim servos) (or_introl eq_refl) plan_fault
      (mkF RA r w []) (J0 w)) as T.
    destruct (fine_process RA fwd inv l2p p2l limits (mkF RA r w [])) as [[e st]|]; [|exact T]. cbn [bind]. destruct T as [[T1 T2] _].
    pose proof (I (concat (f_irq RA st)) (mkF RA (f_r RA st) [] (f_log RA st)) (conj T1 T2)) as W.
    destruct (irqs RA _ _); [exact Logic.I|exact W].
  - intros dt. unfold fine_step. cbn [fst snd]. rewrite r_tick_irqs. pose proof (RR_tick r dt) as T. rewrite <- update6_tick in T.
    destruct T as (r' & E & _). { unfold RR, GoodR, axes, Kept in *. tauto. }
    destruct (update6 RA (r_servos r) dt) as [[s ps]|]; [exact Logic.I|discriminate].
Qed.
End Exact.

(** ** C67 finished means arrived, with interrupts inside process() *)
Section Arrived.
Context (fwd : V6 R -> V6 R) (inv : V6 R -> option (V6 R)) (l2p p2l : V6 R -> V6 R) (limits : V6 (R * R)).
(** on its way: where the move of [T] ms has brought it, for some starting point; [T] ms and [b] more fit the 32-bit timer *)
Definition under_way (b : Z) (s : servo RA) : Prop :=
  exists a T, MInv a (s_target s) (s_vel s) T s /\ (0 < s_vel s)%R /\ 0 <= T /\ T + b < 4294967296.
Definition near (s : servo RA) : Prop := (Rabs (s_cur s - s_target s) < 1 / 1000000)%R.

Lemma tick_under_way b (s : servo RA) d : (0 < s_vel s)%R -> 0 <= d -> 0 <= s_elapsed s -> s_elapsed s + d + b < 4294967296 -> 0 <= b -> under_way b (servo_advance RA s d).
Proof.
  intros V D E B Hb. pose proof (advance_vel s d) as AV.
  assert (AT : s_target (servo_advance RA s d) = s_target s) by (rewrite advance_eq; cbv zeta; mcases; reflexivity).
  exists (s_start s), (s_elapsed s + d). rewrite AV, AT. split; [|lra || (split; [lra|lia])].
  rewrite advance_eq. cbv zeta. rewrite u32_small by lia.
  assert (P : (0 <= IZR (s_elapsed s + d))%R) by (apply IZR_le; lia).
  assert (Q : (0 <= s_vel s * IZR (s_elapsed s + d) / 1000)%R) by nra. rewrite (Rabs_pos_eq _ Q).
  destruct (Rlt_dec (Rabs (s_target s - s_start s)) (s_vel s * IZR (s_elapsed s + d) / 1000)) as [X|X].
  - unfold MInv; cbn; splits; auto.
  - unfold MInv; destruct (Rlt_dec (s_start s) (s_target s)) as [W|W]; cbn; splits; auto; left; splits; auto; try lra; unfold ideal; mcases; rabs; lra.
Qed.
Lemma ideal_near a t v T : (0 <= v * T / 1000)%R -> (Rabs (ideal a t v T - t) = Rmax 0 (Rabs (t - a) - v * T / 1000))%R.
Proof. intros H. unfold ideal, Rmax. mcases; rabs; lra. Qed.
Lemma under_way_tick b (s : servo RA) d : 0 <= d -> 0 <= b -> under_way (d + b) s ->
  under_way b (servo_advance RA s d) /\ s_target (servo_advance RA s d) = s_target s /\ (near s -> near (servo_advance RA s d)).
Proof.
  intros D Hb (a & T & M & V & HT & B). pose proof (advance_vel s d) as AV.
  assert (AT : s_target (servo_advance RA s d) = s_target s) by (rewrite advance_eq; cbv zeta; mcases; reflexivity).
  pose proof (minv_tick _ _ _ _ _ d V HT D ltac:(lia) M) as M'. split; [|split; [exact AT|]].
  - exists a, (T + d). rewrite AV, AT. splits; auto; lia || lra.
  - unfold near. rewrite AT, (minv_cur _ _ _ _ _ M), (minv_cur _ _ _ _ _ M').
    assert (P : (0 <= IZR T)%R) by (apply IZR_le; lia). assert (P2 : (0 <= IZR d)%R) by (apply IZR_le; lia).
    rewrite !ideal_near by (rewrite ?plus_IZR; nra). rewrite plus_IZR. intros N. unfold Rmax in *. mcases; try lra; nra.
Qed.
Lemma under_way_le b c (s : servo RA) : c <= b -> under_way b s -> under_way c s.
Proof. intros L (a & T & M & V & HT & B). exists a, T. splits; auto; lia || lra. Qed.

(** the state: servos on their way, time enough for the interrupts to come, those of [B] near their targets *)
Definition budget (w : list (list Z)) : Z := total (concat w).
Definition KW (ts : V6 R) (z : Z) (B : Z -> Prop) (st : fstate RA) : Prop :=
  Forall (fun d => 0 <= d) (concat (f_irq RA st)) /\
  axes (fun i => let s := at6 (r_servos (f_r RA st)) i in
    under_way (budget (f_irq RA st) + z) s /\ s_target s = at6 ts i /\ (B i -> near s)).

Lemma update6_servos (s : V6 (servo RA)) d s' ps : update6 RA s d = Ok (s', ps) -> s' = map6 (fun x => servo_advance RA x d) s.
Proof.
  unfold update6. intros H.
  destruct (servo_process RA (v0 s) d) as [[a0 p0]|] eqn:E0; [cbn [bind] in H|discriminate]. destruct (servo_process RA (v1 s) d) as [[a1 p1]|] eqn:E1; [cbn [bind] in H|discriminate].
  destruct (servo_process RA (v2 s) d) as [[a2 p2]|] eqn:E2; [cbn [bind] in H|discriminate]. destruct (servo_process RA (v3 s) d) as [[a3 p3]|] eqn:E3; [cbn [bind] in H|discriminate].
  destruct (servo_process RA (v4 s) d) as [[a4 p4]|] eqn:E4; [cbn [bind] in H|discriminate]. destruct (servo_process RA (v5 s) d) as [[a5 p5]|] eqn:E5; [cbn [bind] in H|discriminate].
  injection H as <- _. apply process_inv in E0 as [-> _], E1 as [-> _], E2 as [-> _], E3 as [-> _], E4 as [-> _], E5 as [-> _]. reflexivity.
Qed.
Lemma irqs_KW ts z B ds : 0 <= z -> Forall (fun d => 0 <= d) ds -> forall st st', KW ts (total ds + z) B st -> irqs RA ds st = Ok st' -> KW ts z B st' /\ f_irq RA st' = f_irq RA st.
Proof.
  intros Hz F. induction F as [|d ds Hd F IH]; intros st st' K H; cbn [irqs] in H; [injection H as <-; auto|].
  destruct (update6 RA (r_servos (f_r RA st)) d) as [[s ps]|] eqn:E; [cbn [bind] in H|discriminate]. apply update6_servos in E.
  apply IH in H; [exact H|]. clear IH H. destruct K as [N K]. split; [exact N|]. cbn [f_r f_irq r_servos with_servos].
  pose proof (total_nonneg _ N). pose proof (total_nonneg _ F). fold (budget (f_irq RA st)) in H.
  assert (X : forall s0 t P, under_way (budget (f_irq RA st) + (total (d :: ds) + z)) s0 /\ s_target s0 = t /\ (P -> near s0) ->
    under_way (budget (f_irq RA st) + (total ds + z)) (servo_advance RA s0 d) /\ s_target (servo_advance RA s0 d) = t /\ (P -> near (servo_advance RA s0 d))).
  { intros s0 t P (U & T & W). change (total (d :: ds)) with (d + total ds) in U.
    destruct (under_way_tick (budget (f_irq RA st) + (total ds + z)) s0 d Hd ltac:(lia)) as (U' & T' & W').
    - eapply under_way_le; [|exact U]. lia.
    - split; [exact U'|]. split; [congruence|tauto]. }
  unfold axes in *. rewrite E. cbn [at6 map6 v0 v1 v2 v3 v4 v5] in *. cbv zeta in *. destruct K as (K0 & K1 & K2 & K3 & K4 & K5).
  split; [now apply X|]. split; [now apply X|]. split; [now apply X|]. split; [now apply X|]. split; now apply X.
Qed.
Definition tri2 {X} (ts : V6 R) (z : Z) (B : Z -> Prop) (p : P RA X) (C : X -> Z -> Prop) : Prop :=
  forall st x st', KW ts z B st -> p st = Ok (x, st') -> KW ts z (C x) st'.
Section Fixed.
Context (ts : V6 R) (z : Z) (Hz : 0 <= z).
Lemma tri2_pause B : tri2 ts z B (pause RA) (fun _ => B).
Proof.
  intros st x st' K H. unfold pause in H. destruct (f_irq RA st) as [|ds rest] eqn:E; [injection H as _ <-; exact K|].
  destruct (irqs RA ds (mkF RA (f_r RA st) rest (f_log RA st))) as [st1|] eqn:Q; [cbn [bind] in H; injection H as _ <-|discriminate].
  destruct K as [N K]. rewrite E in N, K. cbn [concat] in N. apply Forall_app in N as [N1 N2].
  eapply irqs_KW in Q; [apply Q|exact Hz|exact N1|]. split; [exact N2|]. cbn [f_r f_irq].
  unfold budget in K. cbn [concat] in K. rewrite total_app in K.
  unfold axes, budget in *. cbv zeta in *. destruct K as (K0 & K1 & K2 & K3 & K4 & K5).
  assert (X : forall s (t : R) P, under_way (total ds + total (concat rest) + z) s /\ s_target s = t /\ (P -> near s) ->
    under_way (total (concat rest) + (total ds + z)) s /\ s_target s = t /\ (P -> near s)).
  { intros s t P (U & T & W). split; [|auto]. eapply under_way_le; [|exact U]. lia. }
  split; [now apply X|]. split; [now apply X|]. split; [now apply X|]. split; [now apply X|]. split; now apply X.
Qed.
Lemma tri2_then {X Y} B (p : P RA X) (f : X -> P RA Y) C E : tri2 ts z B p C -> (forall x, tri2 ts z (C x) (f x) E) -> tri2 ts z B (andthen RA p f) E.
Proof.
  intros H K st y st' J Q. unfold andthen in Q. destruct (p st) as [[x st1]|] eqn:Q1; [cbn [bind] in Q|discriminate].
  eapply K; [|exact Q]. eapply H; eauto.
Qed.
Lemma tri2_ret {X} B (x : X) : tri2 ts z B (ret RA x) (fun _ => B).
Proof. intros st y st' K H. injection H as _ <-. exact K. Qed.
Lemma tri2_look {X} B (f : robot RA -> X) : tri2 ts z B (look RA f) (fun _ => B).
Proof. intros st y st' K H. injection H as _ <-. exact K. Qed.
Lemma tri2_lift {X} B (x : res X) : tri2 ts z B (lift RA x) (fun _ => B).
Proof. intros st y st' K H. unfold lift in H. destruct x; [injection H as _ <-; exact K|discriminate]. Qed.
Lemma tri2_modify B (f : robot RA -> robot RA) : (forall r, r_servos (f r) = r_servos r) -> tri2 ts z B (modify RA f) (fun _ => B).
Proof. intros E st y st' K H. injection H as _ <-. destruct K as [N K]. split; [exact N|]. cbn [f_r f_irq]. rewrite E. exact K. Qed.
Lemma tri2_cur B i : tri2 ts z B (read_cur RA i) (fun _ => B).
Proof. unfold read_cur. eapply tri2_then; [apply tri2_pause|]. intros ?. apply tri2_look. Qed.
Lemma tri2_all B : tri2 ts z B (read_all RA) (fun _ => B).
Proof. unfold read_all. do 6 (eapply tri2_then; [apply tri2_cur|]; intros ?). apply tri2_ret. Qed.
Lemma tri2_reject B : tri2 ts z B (fine_reject RA fwd p2l) (fun _ => B).
Proof. unfold fine_reject. do 2 (eapply tri2_then; [apply tri2_all|]; intros ?). apply tri2_modify. reflexivity. Qed.
Lemma tri2_plan B : tri2 ts z B (fine_plan RA inv) (fun _ => B).
Proof.
  unfold fine_plan. eapply tri2_then; [apply tri2_look|]. intros m. destruct m.
  - eapply tri2_then; [apply tri2_look|]. intros r. cbv zeta. apply tri2_ret.
  - eapply tri2_then; [apply tri2_look|]. intros r. cbv zeta. destruct (inv _); [|apply tri2_ret]. destruct (near_singular RA _); [|apply tri2_ret].
    do 2 (eapply tri2_then; [apply tri2_cur|]; intros ?). apply tri2_ret.
  - apply tri2_lift.
Qed.
Lemma at_target_near (s : servo RA) : servo_at_target RA s = true -> near s.
Proof.
  unfold servo_at_target, near. cbn [dlt f2d fabsf fsub ddec RA].
  assert (E : rdec false 1 (-6) = (1 / 1000000)%R) by (unfold rdec, powerRZ; replace (Pos.to_nat 6) with 6%nat by reflexivity; cbn [pow]; field).
  rewrite E. apply rltb_true.
Qed.
Lemma tri2_ask B i : 0 <= i < 6 -> tri2 ts z B (fine_ask RA i) (fun b j => B j \/ (j = i /\ b = true)).
Proof.
  intros R. unfold fine_ask. eapply tri2_then; [apply tri2_pause|]. intros ? st b st' K H. injection H as <- <-. destruct K as [N K]. split; [exact N|].
  unfold axes in *. cbv zeta in *. destruct K as (K0 & K1 & K2 & K3 & K4 & K5).
  assert (X : forall k, (under_way (budget (f_irq RA st) + z) (at6 (r_servos (f_r RA st)) k) /\ s_target (at6 (r_servos (f_r RA st)) k) = at6 ts k /\ (B k -> near (at6 (r_servos (f_r RA st)) k))) ->
    under_way (budget (f_irq RA st) + z) (at6 (r_servos (f_r RA st)) k) /\ s_target (at6 (r_servos (f_r RA st)) k) = at6 ts k /\
    (B k \/ k = i /\ servo_at_target RA (at6 (r_servos (f_r RA st)) i) = true -> near (at6 (r_servos (f_r RA st)) k))).
  { intros k (U & T & W). split; [exact U|]. split; [exact T|]. intros [Q|[-> Q]]; [now apply W|now apply at_target_near]. }
  split; [now apply X|]. split; [now apply X|]. split; [now apply X|]. split; [now apply X|]. split; now apply X.
Qed.
Lemma tri2_arrived B : tri2 ts z B (fine_arrived RA) (fun b i => b = true /\ 0 <= i < 6).
Proof.
  unfold fine_arrived.
  eapply tri2_then; [apply tri2_ask; lia|]. intros b0. eapply tri2_then; [apply tri2_ask; lia|]. intros b1. eapply tri2_then; [apply tri2_ask; lia|]. intros b2.
  eapply tri2_then; [apply tri2_ask; lia|]. intros b3. eapply tri2_then; [apply tri2_ask; lia|]. intros b4. eapply tri2_then; [apply tri2_ask; lia|]. intros b5.
  intros st x st' K H. injection H as <- <-. revert K. destruct (b0 && (b1 && (b2 && (b3 && (b4 && (b5 && true)))))) eqn:E.
  - rewrite !andb_true_iff in E. destruct E as (-> & -> & -> & -> & -> & -> & _). intros [N K]. split; [exact N|]. unfold axes in *. cbv zeta in *.
    destruct K as (K0 & K1 & K2 & K3 & K4 & K5). splits; tauto.
  - intros [N K]. split; [exact N|]. unfold axes in *. cbv zeta in *. destruct K as (K0 & K1 & K2 & K3 & K4 & K5). splits; try tauto; intros [Q _]; discriminate.
Qed.
(** a program that ends MOVING *)
Definition ends_moving {X} (p : P RA X) : Prop := forall st x st', p st = Ok (x, st') -> r_state (f_r RA st') = MOVING.
Lemma ends_then {X Y} (p : P RA X) (f : X -> P RA Y) : (forall x, ends_moving (f x)) -> ends_moving (andthen RA p f).
Proof. intros H st y st' Q. unfold andthen in Q. destruct (p st) as [[x st1]|]; [|discriminate]. eapply H; exact Q. Qed.
Lemma ends_last {X} (x : X) : ends_moving (andthen RA (modify RA (fun r => with_state RA r MOVING)) (fun _ => ret RA x)).
Proof. intros st y st' Q. cbn in Q. injection Q as _ <-. reflexivity. Qed.
Lemma ends_go t time : ends_moving (fine_go RA t time).
Proof.
  unfold fine_go. apply ends_then. intros a. apply ends_then. intros mv. cbv zeta. destruct (negb _); [|apply ends_last].
  do 6 (apply ends_then; intros ?). apply ends_last.
Qed.
Definition idle_near {X} (B : Z -> Prop) (p : P RA X) : Prop := forall st x st', KW ts z B st -> p st = Ok (x, st') -> r_state (f_r RA st') = IDLE -> KW ts z B st'.
Lemma idle_tri {X} B (p : P RA X) : tri2 ts z B p (fun _ => B) -> idle_near B p.
Proof. intros H st x st' K Q _. exact (H st x st' K Q). Qed.
Lemma idle_then {X Y} B (p : P RA X) (f : X -> P RA Y) : tri2 ts z B p (fun _ => B) -> (forall x, idle_near B (f x)) -> idle_near B (andthen RA p f).
Proof.
  intros H K st y st' J Q. unfold andthen in Q. destruct (p st) as [[x st1]|] eqn:Q1; [cbn [bind] in Q|discriminate].
  eapply K; [|exact Q]. eapply H; eauto.
Qed.
Lemma idle_ends {X} B (p : P RA X) : ends_moving p -> idle_near B p.
Proof. intros H st x st' K Q E. apply H in Q. congruence. Qed.
Lemma idle_start B : idle_near B (fine_start RA fwd inv l2p p2l limits).
Proof.
  unfold fine_start. apply idle_then; [apply tri2_modify; reflexivity|]. intros ?. apply idle_then; [apply tri2_plan|]. intros [p e]. cbn [fst snd].
  assert (R : idle_near B (andthen RA (fine_reject RA fwd p2l) (fun _ => ret RA e))) by (apply idle_then; [apply tri2_reject|intros; apply idle_tri, tri2_ret]).
  destruct p as [tl time|]; [|exact R]. destruct (outside RA tl _ _); [exact R|]. cbv zeta.
  apply idle_then; [apply tri2_look|]. intros lo. apply idle_then; [apply tri2_look|]. intros hi. destruct (outside RA (l2p tl) lo hi); [exact R|].
  apply idle_ends. intros st y st' Q. unfold andthen in Q. destruct (fine_go RA (l2p tl) time st) as [[c st1]|] eqn:G; [|discriminate]. cbn in Q. injection Q as _ <-.
  eapply ends_go; exact G.
Qed.
End Fixed.

(** the six servos of [r] stay near their targets for [z] ms more, however the time is cut into ticks *)
Lemma KW_stays ts r ds r' : KW ts (total ds) (fun i => 0 <= i < 6) (mkF RA r [] []) -> Forall (fun d => 0 <= d) ds ->
  (exists e l, fine_run RA fwd inv l2p p2l limits r (map (fun d => (OTick d, [])) ds) = Ok (r', e, l)) ->
  axes (fun i => s_target (at6 (r_servos r') i) = at6 ts i /\ near (at6 (r_servos r') i)).
Proof.
  intros K F (e & l & H). revert r e l K H. induction F as [|d ds Hd F IH]; intros r e l K H; cbn [map fine_run] in H.
  - injection H as <- _ _. destruct K as [_ K]. unfold axes in *. cbv zeta in *. cbn [f_r f_irq] in K.
    destruct K as (K0 & K1 & K2 & K3 & K4 & K5). splits; try tauto; match goal with |- near (at6 (r_servos r) ?i) => assert (0 <= i < 6) by lia end; tauto.
  - destruct (fine_step RA fwd inv l2p p2l limits r (OTick d, [])) as [[[r1 e1] l1]|] eqn:E; [cbn [bind] in H|discriminate].
    destruct (fine_run RA fwd inv l2p p2l limits r1 (map (fun d => (OTick d, [])) ds)) as [[[r2 e2] l2]|] eqn:E2; [cbn [bind] in H|discriminate]. injection H as -> _ _.
    eapply IH; [|exact E2]. unfold fine_step in E. cbn [fst] in E. destruct (irqs RA [d] (mkF RA r [] [])) as [st|] eqn:Q; [cbn [bind] in E|discriminate].
    injection E as <- _ _. pose proof (total_nonneg _ F).
    eapply irqs_KW in Q; [|apply H|apply Forall_cons; [exact Hd|apply Forall_nil]|].
    + destruct Q as [Q1 Q2]. destruct Q1 as [N Q1]. split; [apply Forall_nil|]. rewrite Q2 in Q1. exact Q1.
    + change (total (d :: ds)) with (d + total ds) in K. change (total [d]) with (d + 0). rewrite Z.add_0_r. exact K.
Qed.

(** In exact arithmetic, over every history with any interrupts in every call of process(): when process() goes from moving to idle and a
    timer interrupt has come since the last call, every servo is within 10^-6 rad of its target and stays there for any further ticks
    (up to 2^32 ms since its last command).
    What is missing: the interrupt since the last call, see [C67_race_refuted]. *)
Theorem C67_finished_partial servos os r0 evs0 l0 dt r e1 l1 w r' e2 l2 ds r'' e3 l3 :
  axes (fun i => in_order (at6 servos i)) ->
  fine_run RA fwd inv l2p p2l limits (robot_new RA fwd p2l servos) os = Ok (r0, evs0, l0) ->
  fine_step RA fwd inv l2p p2l limits r0 (OTick dt, []) = Ok (r, e1, l1) ->
  fine_step RA fwd inv l2p p2l limits r (OProcess, w) = Ok (r', e2, l2) ->
  fine_run RA fwd inv l2p p2l limits r' (map (fun d => (OTick d, [])) ds) = Ok (r'', e3, l3) ->
  r_state r = MOVING -> r_state r' = IDLE ->
  0 <= dt -> Forall (fun d => 0 <= d) (concat w ++ ds) ->
  axes (fun i => 0 <= s_elapsed (at6 (r_servos r0) i) /\ s_elapsed (at6 (r_servos r0) i) + dt + total (concat w) + total ds < 4294967296) ->
  axes (fun i => s_target (at6 (r_servos r'') i) = s_target (at6 (r_servos r) i) /\
    (Rabs (s_cur (at6 (r_servos r'') i) - s_target (at6 (r_servos r'') i)) < 1 / 1000000)%R).
Proof.
  intros G H0 H1 H2 H3 M0 M1 Hdt F B. apply Forall_app in F as [F1 F2]. pose proof (total_nonneg _ F1) as N1. pose proof (total_nonneg _ F2) as N2.
  assert (G' : axes (fun i => SR (at6 servos i))). { unfold axes in *. rewrite <- !in_order_SR. exact G. }
  destruct (kept_run fwd inv l2p p2l limits servos os r0 evs0 l0 G' H0) as (K & _ & _). clear H0.
  unfold fine_step in H1. cbn [fst] in H1. rewrite r_tick_irqs in H1.
  destruct (update6 RA (r_servos r0) dt) as [[s ps]|] eqn:E; [cbn [bind f_r f_log] in H1|discriminate]. injection H1 as H1 _ _. apply update6_servos in E.
  set (ts := map6 s_target (r_servos r)).
  assert (K0 : KW ts (total ds) (fun _ => False) (mkF RA r w [])).
  { split; [exact F1|]. cbn [f_r f_irq]. unfold ts. subst r s. cbn [r_servos with_servos].
    assert (X : forall s, SR s -> 0 <= s_elapsed s /\ s_elapsed s + dt + total (concat w) + total ds < 4294967296 ->
      under_way (budget w + total ds) (servo_advance RA s dt) /\ s_target (servo_advance RA s dt) = s_target (servo_advance RA s dt) /\ (False -> near (servo_advance RA s dt))).
    { intros s S [E1 E2]. split; [|split; [reflexivity|tauto]]. unfold budget. apply tick_under_way; [apply S|lia|lia|lia|lia]. }
    unfold axes, GoodR, Kept in *. cbn [at6 map6 v0 v1 v2 v3 v4 v5] in *. cbv zeta.
    destruct K as (K0 & K1 & K2 & K3 & K4 & K5), B as (B0 & B1 & B2 & B3 & B4 & B5).
    split; [now apply X|]. split; [now apply X|]. split; [now apply X|]. split; [now apply X|]. split; now apply X. }
  unfold fine_step in H2. cbn [fst snd] in H2.
  destruct (fine_process RA fwd inv l2p p2l limits (mkF RA r w [])) as [[e st]|] eqn:E2; [cbn [bind] in H2|discriminate].
  destruct (irqs RA (concat (f_irq RA st)) (mkF RA (f_r RA st) [] (f_log RA st))) as [st'|] eqn:E3; [cbn [bind] in H2|discriminate]. injection H2 as <- _ _.
  assert (SI : r_state (f_r RA st) = IDLE).
  { assert (Y : forall dss s1 s2, irqs RA dss s1 = Ok s2 -> r_state (f_r RA s2) = r_state (f_r RA s1)).
    { induction dss as [|d dss IH]; intros s1 s2 Q; cbn [irqs] in Q; [now injection Q as <-|].
      destruct (update6 RA _ d) as [[? ?]|]; [cbn [bind] in Q|discriminate]. apply IH in Q. exact Q. }
    apply Y in E3. cbn [f_r] in E3. congruence. }
  assert (K1 : KW ts (total ds) (fun i => 0 <= i < 6) st).
  { clear E3 H3. unfold fine_process in E2. unfold andthen at 1, look at 1 in E2. cbn [bind f_r] in E2. rewrite M0 in E2.
    unfold andthen at 1 in E2. destruct (fine_arrived RA (mkF RA r w [])) as [[ok st1]|] eqn:EA; [cbn [bind] in E2|discriminate].
    pose proof (tri2_arrived ts (total ds) N2 _ _ _ _ K0 EA) as KA.
    assert (MS : r_state (f_r RA st1) = MOVING).
    { revert EA. clear - M0. assert (Z0 : forall i s1 b s2, fine_ask RA i s1 = Ok (b, s2) -> r_state (f_r RA s2) = r_state (f_r RA s1)).
      { intros i s1 b s2 Q. unfold fine_ask, andthen, pause in Q. destruct (f_irq RA s1) as [|d rest].
        - cbn in Q. now injection Q as _ <-.
        - destruct (irqs RA d _) as [s3|] eqn:Q1; [cbn in Q; injection Q as _ <-|discriminate].
          assert (Y : forall dss s1 s2, irqs RA dss s1 = Ok s2 -> r_state (f_r RA s2) = r_state (f_r RA s1)).
          { clear. induction dss as [|d dss IH]; intros s1 s2 Q; cbn [irqs] in Q; [now injection Q as <-|].
            destruct (update6 RA _ d) as [[? ?]|]; [cbn [bind] in Q|discriminate]. apply IH in Q. exact Q. }
          apply Y in Q1. exact Q1. }
      unfold fine_arrived. intros Q. unfold andthen in Q. 
      destruct (fine_ask RA 0 _) as [[? q0]|] eqn:Q0; [cbn [bind] in Q|discriminate]. destruct (fine_ask RA 1 _) as [[? q1]|] eqn:Q1; [cbn [bind] in Q|discriminate].
      destruct (fine_ask RA 2 _) as [[? q2]|] eqn:Q2; [cbn [bind] in Q|discriminate]. destruct (fine_ask RA 3 _) as [[? q3]|] eqn:Q3; [cbn [bind] in Q|discriminate].
      destruct (fine_ask RA 4 _) as [[? q4]|] eqn:Q4; [cbn [bind] in Q|discriminate]. destruct (fine_ask RA 5 _) as [[? q5]|] eqn:Q5; [cbn [bind] in Q|discriminate].
      cbn in Q. injection Q as _ <-. apply Z0 in Q0, Q1, Q2, Q3, Q4, Q5. cbn [f_r] in Q0. congruence. }
    destruct ok.
    - unfold andthen at 1, look at 1 in E2. cbn [bind] in E2.
      assert (KB : KW ts (total ds) (fun i => 0 <= i < 6) st1).
      { destruct KA as [N KA]. split; [exact N|]. unfold axes in *. cbv zeta in *. destruct KA as (A0 & A1 & A2 & A3 & A4 & A5). splits; tauto. }
      destruct (r_cur (f_r RA st1) =? r_total (f_r RA st1)).
      + cbn in E2. injection E2 as _ <-. exact KB.
      + unfold andthen at 1, modify at 1 in E2. cbn [bind] in E2. eapply (idle_start ts (total ds) N2); [|exact E2|exact SI]. exact KB.
    - cbn in E2. injection E2 as _ <-. congruence. }
  eapply (KW_stays ts (f_r RA st') ds r'') in F2; [|clear F2|eauto].
  - unfold axes, ts in *. cbn [at6 map6 v0 v1 v2 v3 v4 v5] in *. exact F2.
  - assert (NS : Forall (fun d => 0 <= d) (concat (f_irq RA st))) by apply K1.
    eapply irqs_KW in E3; [|exact N2|exact NS|].
    + destruct E3 as [[_ E3] Q]. split; [apply Forall_nil|]. cbn [f_r f_irq] in *. rewrite Q in E3. exact E3.
    + destruct K1 as [_ K1]. split; [apply Forall_nil|]. cbn [f_r f_irq]. exact K1.
Qed.
End Arrived.

(** ** Concrete cases: the small robot of PropRobot in IEEE arithmetic *)
Definition fine_demo (os : list (fop IF)) := fine_run IF (fun a => a) demo_inv (fun a => a) (fun a => a) demo_limits (robot_new IF (fun a => a) (fun a => a) demo_servos) os.
(** state, angle of servo 0, its target *)
Definition seen (os : list (fop IF)) : option (rstate * F IF * F IF) :=
  match fine_demo os with Ok (r, _, _) => Some (r_state r, s_cur (v0 (r_servos r)), s_target (v0 (r_servos r))) | Ub _ => None end.
(** under way to 2 rad, 128 ms at 5 rad/s: at 0.64 rad *)
Definition go_to_two : list (fop IF) := [(OVel (fi 1000), []); (OSetAngles (i6 2 0 0 0 0 0), []); (OProcess, []); (OTick 128, [])].
(** a new target; an interrupt 1 ms later falls between the first two statements of servo 0's setTargetRadAngle *)
Definition race (t : F IF) : list (fop IF) :=
  go_to_two ++ [(OSetAngles (mk6 t (fi 0) (fi 0) (fi 0) (fi 0) (fi 0)), []); (OProcess, repeat [] 21 ++ [[1]])].

(** C67 as stated is false: on the way to 2 rad, at 0.64 rad, the robot is sent to t = 1.285 rad.  The interrupt finds the new starting angle
    and speed with the old elapsed time and target, and throws the servo 0.645 rad further in 1 ms, just to t.  The next process() reports
    the move finished; the next tick takes the servo back to 0.74 rad *)
Theorem C67_race_refuted : exists t back : F IF,
  seen go_to_two = Some (MOVING, S754_finite false 10737418 (-24), fi 2) /\
  seen (race t) = Some (MOVING, t, t) /\
  seen (race t ++ [(OProcess, [])]) = Some (IDLE, t, t) /\
  seen (race t ++ [(OProcess, []); (OTick 20, [])]) = Some (IDLE, back, t) /\
  flt IF (fdiv IF (fi 1) (fi 2)) (fsub IF t back) = true.
Proof.
  exists (S754_finite false 10779361 (-23)), (S754_finite false 12415140 (-24)).
  split; [vm_compute; reflexivity|]. split; [vm_compute; reflexivity|]. split; [vm_compute; reflexivity|]. split; vm_compute; reflexivity.
Qed.

(** with the interrupt between commands and the next call: interrupts inside the call that finds the move finished *)
Example C67_reachable :
  let os := go_to_two ++ [(OTick 300, [])] in
  seen os = Some (MOVING, fi 2, fi 2) /\
  seen (os ++ [(OProcess, [[20]; []; [1; 1]; [20]])]) = Some (IDLE, fi 2, fi 2) /\
  seen (os ++ [(OProcess, [[20]; []; [1; 1]; [20]]); (OTick 20, [])]) = Some (IDLE, fi 2, fi 2).
Proof. cbv zeta. split; [vm_compute; reflexivity|]. split; vm_compute; reflexivity. Qed.

(** C66: interrupts inside the command; every pulse written is in the calibration 700..2380, every command inside the limits *)
Example C66_reachable :
  match fine_demo (race (fdiv IF (fi 5) (fi 4)) ++ [(OProcess, []); (OTick 20, [])]) with
  | Ok (_, evs, pulses) => map (fun c => snd c) (servo_cmds evs) = list6 (i6 2 0 0 0 0 0) ++ list6 (mk6 (fdiv IF (fi 5) (fi 4)) (fi 0) (fi 0) (fi 0) (fi 0) (fi 0)) /\
      map v0 pulses = [1719; 1899; 1747]
  | Ub _ => False
  end.
Proof. vm_compute. split; reflexivity. Qed.
Example C66_in_order : axes (fun i => in_order (at6 ex_servos i)).
Proof. unfold axes, in_order. cbn. splits; try lia; lra. Qed.

Print Assumptions C66_commands_inside.
Print Assumptions C66_without_interrupts.
Print Assumptions C66_shafts_inside.
Print Assumptions C66_interrupts_harmless.
Print Assumptions C67_finished_partial.
Print Assumptions C67_race_refuted.
