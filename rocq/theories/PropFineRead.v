(** * C68: the position the controller reports, read while the timer interrupt moves the servos. *)
From Coq Require Import Reals Lra Floats.SpecFloat.
From Verif Require Import Base Arith ServoModel ServoSpec ServoProofs RobotModel RobotSpec RobotProofs RobotExact FineModel FineProofs PropRobot PropFine.
Open Scope Z_scope.
Set Default Goal Selector "!".

(** the controller after timer interrupts at the intervals [ds] *)
Definition after {A} (r : robot A) (ds : list Z) (r' : robot A) : Prop := exists l, irqs A ds (mkF A r [] []) = Ok (mkF A r' [] l).
Definition prefix {T} (a b : list T) : Prop := exists c, b = a ++ c.

Section Any.
Context (A : arith) (fwd : V6 (F A) -> V6 (F A)) (p2l : V6 (F A) -> V6 (F A)).
Notation after := (@after A).

Lemma irqs_after ds : forall st st', irqs A ds st = Ok st' -> after (f_r A st) ds (f_r A st') /\ f_irq A st' = f_irq A st.
Proof.
  assert (K : forall ds r q l st', irqs A ds (mkF A r q l) = Ok st' -> exists l', irqs A ds (mkF A r [] []) = Ok (mkF A (f_r A st') [] l') /\ f_irq A st' = q).
  { clear. intros ds. assert (G : forall ds r q l st' l0, irqs A ds (mkF A r q l) = Ok st' -> exists l', irqs A ds (mkF A r [] l0) = Ok (mkF A (f_r A st') [] l') /\ f_irq A st' = q).
    { clear. induction ds as [|d ds IH]; intros r q l st' l0 H; cbn [irqs f_r f_irq f_log] in *.
      - injection H as <-. cbn [f_r f_irq]. eauto.
      - destruct (update6 A (r_servos r) d) as [[s ps]|]; [cbn [bind] in *|discriminate]. eapply IH; exact H. }
    intros. eapply G; eauto. }
  intros st st' H. destruct st as [r q l]. apply K in H as (l' & H1 & H2). split; [exists l'; exact H1|exact H2].
Qed.
Lemma irqs_app a : forall b st, irqs A (a ++ b) st = do st' <- irqs A a st; irqs A b st'.
Proof.
  induction a as [|d a IH]; intros b st; cbn [app irqs bind]; [reflexivity|].
  destruct (update6 A (r_servos (f_r A st)) d) as [[s ps]|]; [cbn [bind]; apply IH|reflexivity].
Qed.
Lemma after_app r r1 r2 a b : after r a r1 -> after r1 b r2 -> after r (a ++ b) r2.
Proof.
  intros [l1 H1] [l2 H2]. unfold after. rewrite irqs_app, H1. cbn [bind].
  assert (G : forall ds r q l st' l0, irqs A ds (mkF A r q l) = Ok st' -> exists l', irqs A ds (mkF A r [] l0) = Ok (mkF A (f_r A st') [] l')).
  { clear. induction ds as [|d ds IH]; intros r q l st' l0 H; cbn [irqs f_r f_irq f_log] in *.
    - injection H as <-. cbn [f_r f_irq]. eauto.
    - destruct (update6 A (r_servos r) d) as [[s ps]|]; [cbn [bind] in *|discriminate]. eapply IH; exact H. }
  apply (G _ _ _ _ _ l1) in H2. exact H2.
Qed.
Lemma after_nil r : after r [] r.
Proof. exists []. reflexivity. Qed.

(** the state of a read in progress: the interrupts so far, those to come *)
Definition Seen (r : robot A) (w : list Z) (st : fstate A) (ds : list Z) : Prop := after r ds (f_r A st) /\ w = ds ++ concat (f_irq A st).
Lemma seen_cur r w st ds i x st' : Seen r w st ds -> read_cur A i st = Ok (x, st') -> exists ds', Seen r w st' (ds ++ ds') /\ x = s_cur (at6 (r_servos (f_r A st')) i).
Proof.
  intros [H1 H2] E. unfold read_cur, andthen, pause in E. destruct (f_irq A st) as [|d rest] eqn:Q.
  - cbn in E. injection E as <- <-. exists []. rewrite app_nil_r. split; [|reflexivity]. split; [exact H1|]. now rewrite Q.
  - destruct (irqs A d (mkF A (f_r A st) rest (f_log A st))) as [st1|] eqn:Q1; [|discriminate]. cbn in E. injection E as <- <-.
    apply irqs_after in Q1 as [Q1 Q2]. cbn [f_r f_irq] in Q1, Q2. exists d. split; [|reflexivity]. split; [eapply after_app; eauto|]. rewrite Q2, H2. cbn [concat]. now rewrite app_assoc.
Qed.
Lemma seen_all r w st' a : read_all A (mkF A r w []) = Ok (a, st') ->
  exists d0 d1 d2 d3 d4 d5 r0 r1 r2 r3 r4 r5,
    after r d0 r0 /\ after r0 d1 r1 /\ after r1 d2 r2 /\ after r2 d3 r3 /\ after r3 d4 r4 /\ after r4 d5 r5 /\ f_r A st' = r5 /\
    prefix (d0 ++ d1 ++ d2 ++ d3 ++ d4 ++ d5) (concat w) /\
    a = mk6 (s_cur (v0 (r_servos r0))) (s_cur (v1 (r_servos r1))) (s_cur (v2 (r_servos r2))) (s_cur (v3 (r_servos r3))) (s_cur (v4 (r_servos r4))) (s_cur (v5 (r_servos r5))).
Proof.
  assert (K : forall st i x st', read_cur A i st = Ok (x, st') -> exists ds, after (f_r A st) ds (f_r A st') /\ concat (f_irq A st) = ds ++ concat (f_irq A st') /\ x = s_cur (at6 (r_servos (f_r A st')) i)).
  { intros st i x st1 E. destruct (seen_cur (f_r A st) (concat (f_irq A st)) st [] i x st1) as (ds & [H1 H2] & H3); [split; [apply after_nil|reflexivity]|exact E|].
    cbn [app] in H1, H2. exists ds. auto. }
  intros E. unfold read_all, andthen in E.
  destruct (read_cur A 0 _) as [[x0 s0]|] eqn:Q0; [cbn [bind] in E|discriminate]. destruct (read_cur A 1 _) as [[x1 s1]|] eqn:Q1; [cbn [bind] in E|discriminate].
  destruct (read_cur A 2 _) as [[x2 s2]|] eqn:Q2; [cbn [bind] in E|discriminate]. destruct (read_cur A 3 _) as [[x3 s3]|] eqn:Q3; [cbn [bind] in E|discriminate].
  destruct (read_cur A 4 _) as [[x4 s4]|] eqn:Q4; [cbn [bind] in E|discriminate]. destruct (read_cur A 5 _) as [[x5 s5]|] eqn:Q5; [cbn [bind] in E|discriminate].
  injection E as <- <-.
  apply K in Q0 as (d0 & A0 & C0 & ->), Q1 as (d1 & A1 & C1 & ->), Q2 as (d2 & A2 & C2 & ->), Q3 as (d3 & A3 & C3 & ->), Q4 as (d4 & A4 & C4 & ->), Q5 as (d5 & A5 & C5 & ->).
  cbn [f_r f_irq] in A0, C0. exists d0, d1, d2, d3, d4, d5, (f_r A s0), (f_r A s1), (f_r A s2), (f_r A s3), (f_r A s4), (f_r A s5).
  repeat (split; [assumption || reflexivity|]). split; [|reflexivity].
  exists (concat (f_irq A s5)). rewrite C0, C1, C2, C3, C4, C5. now rewrite !app_assoc.
Qed.

Lemma read_each (r : robot A) w a st : read_all A (mkF A r w []) = Ok (a, st) ->
  axes (fun i => exists ds ri, prefix ds (concat w) /\ after r ds ri /\ at6 a i = s_cur (at6 (r_servos ri) i)).
Proof.
  intros Q. apply seen_all in Q as (d0 & d1 & d2 & d3 & d4 & d5 & r0 & r1 & r2 & r3 & r4 & r5 & A0 & A1 & A2 & A3 & A4 & A5 & _ & [c C] & ->).
  pose proof (after_app _ _ _ _ _ A0 A1) as B1. pose proof (after_app _ _ _ _ _ B1 A2) as B2. pose proof (after_app _ _ _ _ _ B2 A3) as B3.
  pose proof (after_app _ _ _ _ _ B3 A4) as B4. pose proof (after_app _ _ _ _ _ B4 A5) as B5.
  unfold axes. cbn [at6 v0 v1 v2 v3 v4 v5].
  assert (X : forall ds e, concat w = ds ++ e -> prefix ds (concat w)) by (intros ds e Q; exists e; exact Q).
  split; [exists d0, r0; split; [eapply X; rewrite C, <- !app_assoc; reflexivity|split; [exact A0|reflexivity]]|].
  split; [exists (d0 ++ d1), r1; split; [eapply X; rewrite C, <- !app_assoc; reflexivity|split; [exact B1|reflexivity]]|].
  split; [exists ((d0 ++ d1) ++ d2), r2; split; [eapply X; rewrite C, <- !app_assoc; reflexivity|split; [exact B2|reflexivity]]|].
  split; [exists (((d0 ++ d1) ++ d2) ++ d3), r3; split; [eapply X; rewrite C, <- !app_assoc; reflexivity|split; [exact B3|reflexivity]]|].
  split; [exists ((((d0 ++ d1) ++ d2) ++ d3) ++ d4), r4; split; [eapply X; rewrite C, <- !app_assoc; reflexivity|split; [exact B4|reflexivity]]|].
  exists (((((d0 ++ d1) ++ d2) ++ d3) ++ d4) ++ d5), r5. split; [eapply X; rewrite C, <- !app_assoc; reflexivity|split; [exact B5|reflexivity]].
Qed.

(** in any arithmetic: every joint angle that goes into the reported position was that joint's angle at some moment of the call *)
Theorem C68_pose_partial (r : robot A) (w : list (list Z)) pose st :
  fine_pose A fwd p2l (mkF A r w []) = Ok (pose, st) ->
  exists a : V6 (F A), pose = fwd (p2l a) /\
    axes (fun i => exists ds ri, prefix ds (concat w) /\ after r ds ri /\ at6 a i = s_cur (at6 (r_servos ri) i)).
Proof.
  intros E. unfold fine_pose, andthen in E. destruct (read_all A (mkF A r w [])) as [[a s1]|] eqn:Q; [|discriminate]. cbn in E. injection E as <- <-.
  exists a. split; [reflexivity|]. eapply read_each; exact Q.
Qed.
(** and so for the reported joint angles *)
Theorem C68_angles_partial (r : robot A) (w : list (list Z)) angles st :
  fine_angles A p2l (mkF A r w []) = Ok (angles, st) ->
  exists a : V6 (F A), angles = p2l a /\
    axes (fun i => exists ds ri, prefix ds (concat w) /\ after r ds ri /\ at6 a i = s_cur (at6 (r_servos ri) i)).
Proof.
  intros E. unfold fine_angles, andthen in E. destruct (read_all A (mkF A r w [])) as [[a s1]|] eqn:Q; [|discriminate]. cbn in E. injection E as <- <-.
  exists a. split; [reflexivity|]. eapply read_each; exact Q.
Qed.
End Any.

(** ** in exact arithmetic: between where the joint was before the call and where it is after it *)
Section Exact.
Context (fwd : V6 R -> V6 R) (inv : V6 R -> option (V6 R)) (l2p p2l : V6 R -> V6 R) (limits : V6 (R * R)).
Lemma ideal_way a t v T1 T2 T3 : (0 <= v)%R -> (0 <= T1)%R -> (T1 <= T2)%R -> (T2 <= T3)%R -> on_way (ideal a t v T1) (ideal a t v T2) (ideal a t v T3).
Proof.
  intros V H1 H2 H3. assert (P : (0 <= v * T1 / 1000 <= v * T2 / 1000)%R) by nra. assert (Q : (v * T2 / 1000 <= v * T3 / 1000)%R) by nra.
  unfold on_way, ideal. mcases; rabs; lra.
Qed.
Lemma after_minv r ds r' (i : Z) a t v T : 0 <= i < 6 -> (0 < v)%R -> 0 <= T -> Forall (fun d => 0 <= d) ds -> T + total ds < 4294967296 ->
  after r ds r' -> MInv a t v T (at6 (r_servos r) i) -> MInv a t v (T + total ds) (at6 (r_servos r') i).
Proof.
  intros Hi V HT F B [l E]. revert r T HT B E. generalize (@nil (V6 Z)) as l0.
  induction F as [|d ds Hd F IH]; intros l0 r T HT B E M; cbn [irqs f_r f_irq f_log] in E.
  - injection E as <- _. cbn. now rewrite Z.add_0_r.
  - destruct (update6 RA (r_servos r) d) as [[s ps]|] eqn:Q; [cbn [bind] in E|discriminate]. apply update6_servos in Q.
    change (total (d :: ds)) with (d + total ds) in *. pose proof (total_nonneg _ F). rewrite Z.add_assoc.
    eapply IH; [| |exact E|]; [lia|lia|]. cbn [r_servos with_servos]. subst s.
    replace (at6 (map6 (fun s => servo_advance RA s d) (r_servos r)) i) with (servo_advance RA (at6 (r_servos r) i) d).
    + apply minv_tick; auto; lia.
    + assert (C : i = 0 \/ i = 1 \/ i = 2 \/ i = 3 \/ i = 4 \/ i = 5) by lia. destruct C as [-> | [-> | [-> | [-> | [-> | ->]]]]]; reflexivity.
Qed.
Lemma read_between (r : robot RA) w a st : read_all RA (mkF RA r w []) = Ok (a, st) ->
  axes (fun i => exists ds es ri, prefix (ds ++ es) (concat w) /\ after r ds ri /\ after ri es (f_r RA st) /\ at6 a i = s_cur (at6 (r_servos ri) i)).
Proof.
  intros Q. apply seen_all in Q as (d0 & d1 & d2 & d3 & d4 & d5 & r0 & r1 & r2 & r3 & r4 & r5 & A0 & A1 & A2 & A3 & A4 & A5 & -> & C & ->).
  pose proof (after_app _ _ _ _ _ _ A0 A1) as B1. pose proof (after_app _ _ _ _ _ _ B1 A2) as B2. pose proof (after_app _ _ _ _ _ _ B2 A3) as B3.
  pose proof (after_app _ _ _ _ _ _ B3 A4) as B4. pose proof (after_app _ _ _ _ _ _ B4 A5) as B5.
  pose proof (after_app _ _ _ _ _ _ A4 A5) as E3. pose proof (after_app _ _ _ _ _ _ A3 E3) as E2. pose proof (after_app _ _ _ _ _ _ A2 E2) as E1.
  pose proof (after_app _ _ _ _ _ _ A1 E1) as E0. pose proof (after_nil RA r5) as E5.
  unfold axes. cbn [at6 v0 v1 v2 v3 v4 v5].
  assert (X : forall ds es, ds ++ es = d0 ++ d1 ++ d2 ++ d3 ++ d4 ++ d5 -> prefix (ds ++ es) (concat w)) by (intros ds es ->; exact C).
  split; [exists d0, (d1 ++ d2 ++ d3 ++ d4 ++ d5), r0; split; [apply X; rewrite <- ?app_assoc; reflexivity|auto]|].
  split; [exists (d0 ++ d1), (d2 ++ d3 ++ d4 ++ d5), r1; split; [apply X; rewrite <- ?app_assoc; reflexivity|auto]|].
  split; [exists ((d0 ++ d1) ++ d2), (d3 ++ d4 ++ d5), r2; split; [apply X; rewrite <- ?app_assoc; reflexivity|auto]|].
  split; [exists (((d0 ++ d1) ++ d2) ++ d3), (d4 ++ d5), r3; split; [apply X; rewrite <- ?app_assoc; reflexivity|auto]|].
  split; [exists ((((d0 ++ d1) ++ d2) ++ d3) ++ d4), d5, r4; split; [apply X; rewrite <- ?app_assoc; reflexivity|auto]|].
  exists (((((d0 ++ d1) ++ d2) ++ d3) ++ d4) ++ d5), [], r5. split; [apply X; rewrite <- ?app_assoc, ?app_nil_r; reflexivity|auto].
Qed.
Lemma total_app a b : total (a ++ b) = total a + total b.
Proof. induction a as [|d a IH]; [reflexivity|]. cbn [app]. change (total (d :: a ++ b)) with (d + total (a ++ b)). change (total (d :: a)) with (d + total a). lia. Qed.
Lemma under_between b r ds ri es re (i : Z) : 0 <= i < 6 -> Forall (fun d => 0 <= d) (ds ++ es) -> total (ds ++ es) <= b ->
  under_way b (at6 (r_servos r) i) -> after r ds ri -> after ri es re ->
  on_way (s_cur (at6 (r_servos r) i)) (s_cur (at6 (r_servos ri) i)) (s_cur (at6 (r_servos re) i)).
Proof.
  intros Hi F B (a & T & M & V & HT & L) H1 H2. rewrite total_app in B. apply Forall_app in F as [F1 F2].
  pose proof (total_nonneg _ F1). pose proof (total_nonneg _ F2).
  assert (L1 : T + total ds < 4294967296) by lia. assert (L2 : T + total ds + total es < 4294967296) by lia. assert (L3 : 0 <= T + total ds) by lia.
  pose proof (after_minv r ds ri i _ _ _ _ Hi V HT F1 L1 H1 M) as M1.
  pose proof (after_minv ri es re i _ _ _ _ Hi V L3 F2 L2 H2 M1) as M2.
  rewrite (minv_cur _ _ _ _ _ M), (minv_cur _ _ _ _ _ M1), (minv_cur _ _ _ _ _ M2). apply ideal_way; [lra|apply IZR_le; lia|apply IZR_le; lia|apply IZR_le; lia].
Qed.

(** In exact arithmetic, after every history of the controller in which interrupts fall inside its calls, once a timer interrupt has come since the last call:
    each joint angle that goes into a reported position lies between the joint's angle when the call begins and its angle when it returns *)
Theorem C68_between_partial servos (os : list (fop RA)) r0 evs0 l0 dt r e1 l1 (w : list (list Z)) pose st :
  axes (fun i => in_order (at6 servos i)) ->
  fine_run RA fwd inv l2p p2l limits (robot_new RA fwd p2l servos) os = Ok (r0, evs0, l0) ->
  fine_step RA fwd inv l2p p2l limits r0 (OTick dt, []) = Ok (r, e1, l1) ->
  0 <= dt -> Forall (fun d => 0 <= d) (concat w) ->
  axes (fun i => 0 <= s_elapsed (at6 (r_servos r0) i) /\ s_elapsed (at6 (r_servos r0) i) + dt + total (concat w) < 4294967296) ->
  fine_pose RA fwd p2l (mkF RA r w []) = Ok (pose, st) ->
  exists a : V6 R, pose = fwd (p2l a) /\
    axes (fun i => on_way (s_cur (at6 (r_servos r) i)) (at6 a i) (s_cur (at6 (r_servos (f_r RA st)) i))).
Proof.
  intros G H0 H1 Hdt F B E. pose proof (total_nonneg _ F) as N.
  assert (G' : axes (fun i => SR (at6 servos i))). { unfold axes in *. rewrite <- !in_order_SR. exact G. }
  destruct (kept_run fwd inv l2p p2l limits servos os r0 evs0 l0 G' H0) as (K & _ & _). clear H0.
  unfold fine_step in H1. cbn [fst] in H1. rewrite r_tick_irqs in H1.
  destruct (update6 RA (r_servos r0) dt) as [[s ps]|] eqn:Es; [cbn [bind f_r f_log] in H1|discriminate]. injection H1 as H1 _ _. apply update6_servos in Es.
  assert (U : axes (fun i => under_way (total (concat w)) (at6 (r_servos r) i))).
  { subst r s. cbn [r_servos with_servos].
    assert (X : forall s, SR s -> 0 <= s_elapsed s /\ s_elapsed s + dt + total (concat w) < 4294967296 -> under_way (total (concat w)) (servo_advance RA s dt)).
    { intros s S [E1 E2]. apply tick_under_way; [apply S|lia|lia|lia|lia]. }
    unfold axes, GoodR, Kept in *. cbn [at6 map6 v0 v1 v2 v3 v4 v5] in *. cbv zeta.
    destruct K as (K0 & K1 & K2 & K3 & K4 & K5), B as (B0 & B1 & B2 & B3 & B4 & B5).
    split; [now apply X|]. split; [now apply X|]. split; [now apply X|]. split; [now apply X|]. split; now apply X. }
  clear H1 Es K B. unfold fine_pose, andthen in E. destruct (read_all RA (mkF RA r w [])) as [[a s1]|] eqn:Q; [|discriminate]. cbn in E. injection E as <- <-.
  exists a. split; [reflexivity|]. apply read_between in Q.
  assert (X : forall i, 0 <= i < 6 -> under_way (total (concat w)) (at6 (r_servos r) i) ->
    (exists ds es ri, prefix (ds ++ es) (concat w) /\ after r ds ri /\ after ri es (f_r RA s1) /\ at6 a i = s_cur (at6 (r_servos ri) i)) ->
    on_way (s_cur (at6 (r_servos r) i)) (at6 a i) (s_cur (at6 (r_servos (f_r RA s1)) i))).
  { intros i Hi Ui (ds & es & ri & [c C] & A1 & A2 & ->). rewrite C in F. apply Forall_app in F as [F1 F2].
    eapply under_between; [exact Hi|exact F1| |exact Ui|exact A1|exact A2]. rewrite C, (total_app (ds ++ es)). pose proof (total_nonneg _ F2). lia. }
  destruct Q as (Q0 & Q1 & Q2 & Q3 & Q4 & Q5), U as (U0 & U1 & U2 & U3 & U4 & U5).
  split; [apply (X 0 ltac:(lia) U0 Q0)|]. split; [apply (X 1 ltac:(lia) U1 Q1)|]. split; [apply (X 2 ltac:(lia) U2 Q2)|]. split; [apply (X 3 ltac:(lia) U3 Q3)|].
  split; [apply (X 4 ltac:(lia) U4 Q4)|apply (X 5 ltac:(lia) U5 Q5)].
Qed.
End Exact.

(** ** Concrete cases: the small robot of PropRobot, all six joints on the way from 0 to 2 rad together *)
Definition all_to_two : list (fop IF) := [(OVel (fi 1000), []); (OSetAngles (i6 2 2 2 2 2 2), []); (OProcess, []); (OTick 100, [])].
(** what a call reports, with the interrupts [w] in it *)
Definition reported (w : list (list Z)) : option (V6 (F IF)) :=
  match fine_demo all_to_two with
  | Ok (r, _, _) => match fine_angles IF (fun a => a) (mkF IF r w []) with Ok (a, _) => Some a | Ub _ => None end
  | Ub _ => None
  end.
(** the joint angles when the timer has come [ds] after those commands *)
Definition moved (ds : list Z) : option (V6 (F IF)) :=
  match fine_demo (all_to_two ++ map (fun d => (OTick d, [])) ds) with Ok (r, _, _) => Some (map6 s_cur (r_servos r)) | Ub _ => None end.
(** C68 as stated is false: one interrupt, 20 ms after the last, between the first and the second read.  Before it all joints are at 0.5 rad,
    after it all are at 0.6 rad; the call reports the first joint at 0.5 rad and the others at 0.6 rad: the robot was never there *)
Theorem C68_torn_read_refuted : exists a b : F IF,
  moved [] = Some (mk6 a a a a a a) /\ moved [20] = Some (mk6 b b b b b b) /\ reported [[]; [20]] = Some (mk6 a b b b b b) /\ a <> b.
Proof.
  exists (S754_finite false 8388608 (-24)), (S754_finite false 10066330 (-24)).
  split; [vm_compute; reflexivity|]. split; [vm_compute; reflexivity|]. split; [vm_compute; reflexivity|]. discriminate.
Qed.
(** with several interrupts: every reported angle lies between 0.5 rad, where all joints are before the call, and 0.7 rad, where they are after it *)
Example C68_reachable :
  match moved [], moved [20; 20], reported [[]; []; [20]; []; []; [20]] with
  | Some a, Some b, Some x =>
      axes (fun i => fle IF (at6 a i) (at6 x i) = true /\ fle IF (at6 x i) (at6 b i) = true) /\ flt IF (v1 x) (v2 x) = true /\ flt IF (v4 x) (v5 x) = true
  | _, _, _ => False
  end.
Proof. vm_compute. repeat split; reflexivity. Qed.

Print Assumptions C68_pose_partial.
Print Assumptions C68_angles_partial.
Print Assumptions C68_between_partial.
Print Assumptions C68_torn_read_refuted.
