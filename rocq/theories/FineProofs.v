(** * FineProofs: what process() keeps when interrupts fall between its accesses to the servos. *)
From Verif Require Import Base Arith ServoModel RobotModel RobotSpec RobotProofs FineModel.
Set Default Goal Selector "!".

(** ** without interrupts inside, FineModel is RobotModel *)
Section Coarse.
Context (A : arith) (fwd : V6 (F A) -> V6 (F A)) (inv : V6 (F A) -> option (V6 (F A))).
Context (l2p p2l : V6 (F A) -> V6 (F A)) (limits : V6 (F A * F A)).
Notation mk := (fun r l => mkF A r [] l).

Lemma quiet_then {X Y} (p : P A X) (f : X -> P A Y) st x st' : p st = Ok (x, st') -> andthen A p f st = f x st'.
Proof. intros E. unfold andthen. now rewrite E. Qed.
Lemma quiet_cur i r l : read_cur A i (mk r l) = Ok (s_cur (at6 (r_servos r) i), mk r l).
Proof. reflexivity. Qed.
Lemma quiet_all r l : read_all A (mk r l) = Ok (servo_angles A r, mk r l).
Proof. reflexivity. Qed.
Lemma quiet_reject r l : fine_reject A fwd p2l (mk r l) = Ok (tt, mk (r_reject A fwd p2l r) l).
Proof. reflexivity. Qed.
Lemma quiet_plan r l : fine_plan A inv (mk r l) = do x <- r_plan A inv r; Ok (x, mk r l).
Proof.
  unfold fine_plan, r_plan. cbv zeta. unfold andthen at 1, look at 1. cbn [bind]. cbn [f_r].
  destruct (r_method r) eqn:M; [reflexivity| |reflexivity].
  unfold andthen at 1, look at 1. cbn [bind f_r]. destruct (inv _) as [a|]; [|reflexivity].
  unfold singularity. destruct (near_singular A (v4 a)); reflexivity.
Qed.
Lemma quiet_command j t time r l : 0 <= j < 6 -> fine_command A j t time (mk r l) =
  Ok (EvServo j (fdiv A (fabsf A (fsub A t (s_cur (at6 (r_servos r) j)))) time) t,
      mk (with_servos A r (set6 (r_servos r) j (servo_set_target A (servo_set_vel A (at6 (r_servos r) j)
            (fdiv A (fabsf A (fsub A t (s_cur (at6 (r_servos r) j)))) time)) t))) l).
Proof.
  intros H. assert (Q : j = 0 \/ j = 1 \/ j = 2 \/ j = 3 \/ j = 4 \/ j = 5) by lia.
  destruct Q as [->|[->|[->|[->|[->| ->]]]]]; reflexivity.
Qed.
Lemma quiet_go t time r l : fine_go A t time (mk r l) =
  let mt := min_time A r t time in
  if negb (feq A mt (fofz A 0)) then
    let (r', cmds) := command_servos A r t mt in Ok (cmds, mk (with_state A r' MOVING) l)
  else Ok ([], mk (with_state A r MOVING) l).
Proof.
  unfold fine_go. rewrite (quiet_then _ _ _ _ _ (quiet_all r l)).
  unfold andthen at 1, look at 1. cbn [bind f_r]. cbv zeta.
  change (fold_left _ _ time) with (min_time A r t time). destruct (negb (feq A (min_time A r t time) (fofz A 0))); [|reflexivity].
  set (mt := min_time A r t time). clearbody mt. unfold command_servos, travel, servo_angles. cbv zeta.
  rewrite (quiet_then _ _ _ _ _ (quiet_command 0 (v0 t) mt r l ltac:(lia))).
  do 5 (match goal with |- andthen A (fine_command A ?j ?x mt) _ (mkF A ?r0 [] l) = _ =>
    rewrite (quiet_then _ _ _ _ _ (quiet_command j x mt r0 l ltac:(lia))) end).
  reflexivity.
Qed.
Lemma quiet_start r l : fine_start A fwd inv l2p p2l limits (mk r l) =
  do (r', e) <- r_start_move A fwd inv l2p p2l limits r; Ok (e, mk r' l).
Proof.
  unfold fine_start, r_start_move. unfold andthen at 1, modify at 1. cbn [bind f_r f_irq f_log]. cbv zeta.
  set (r1 := with_steps A r (u32 (r_cur r + 1)) (r_total r)).
  unfold andthen at 1. rewrite (quiet_plan r1 l). destruct (r_plan A inv r1) as [[p e]|f]; cbn [bind fst snd]; [|reflexivity].
  destruct p as [tl time|]; [|reflexivity].
  destruct (outside A tl (map6 fst limits) (map6 snd limits)); [reflexivity|].
  unfold andthen at 1, look at 1. cbn [bind f_r]. unfold andthen at 1, look at 1. cbn [bind f_r].
  destruct (outside A (l2p tl) (map6 s_min (r_servos r1)) (map6 s_max (r_servos r1))); [reflexivity|].
  unfold andthen. rewrite quiet_go. cbv zeta. destruct (negb _); [|unfold ret; cbn [bind]; now rewrite app_nil_r].
  destruct (command_servos A r1 (l2p tl) _). reflexivity.
Qed.
Lemma quiet_prepare r l : fine_prepare A fwd inv l2p p2l limits (mk r l) =
  do (r', e) <- r_prepare A fwd inv l2p p2l limits r; Ok (e, mk r' l).
Proof.
  unfold fine_prepare, r_prepare. unfold andthen at 1, look at 1. cbn [bind f_r]. destruct (r_trans r); [reflexivity|].
  unfold andthen at 1, modify at 1. cbn [bind f_r f_irq f_log].
  set (r1 := if r_achg r then _ else _). cbv zeta. destruct (r_pchg r && r_achg r); [reflexivity|].
  unfold andthen at 1, modify at 1. cbn [bind f_r f_irq f_log].
  rewrite (quiet_then _ _ _ _ _ (quiet_all _ l)). rewrite (quiet_then _ _ _ _ _ (quiet_all _ l)).
  unfold andthen at 1, modify at 1. cbn [bind f_r f_irq f_log]. unfold andthen at 1, look at 1. cbn [bind f_r].
  change (with_starts A (with_flags A r1 false false) (p2l (servo_angles A (with_flags A r1 false false))) (fwd (p2l (servo_angles A (with_flags A r1 false false)))))
    with (with_starts A (with_flags A r1 false false) (current_logical A p2l (with_flags A r1 false false)) (current_pose A fwd p2l (with_flags A r1 false false))).
  set (r3 := with_starts A _ _ _). destruct (angles_equal A (r_startA r3) (r_targetA r3)); [reflexivity|].
  unfold andthen at 1, lift at 1. destruct (match r_method r3 with P2P => Ok 1 | LINEAR => _ | CIRCULAR => _ end) as [n|f]; cbn [bind]; [|reflexivity].
  unfold andthen at 1, modify at 1. cbn [bind f_r f_irq f_log]. apply quiet_start.
Qed.
Theorem quiet_process r l : fine_process A fwd inv l2p p2l limits (mk r l) =
  do (r', e) <- r_process A fwd inv l2p p2l limits r; Ok (e, mk r' l).
Proof.
  unfold fine_process, r_process. unfold andthen at 1, look at 1. cbn [bind f_r]. destruct (r_state r) eqn:S.
  - reflexivity.
  - assert (E : fine_arrived A (mk r l) = Ok (all_at_target A r, mk r l)) by reflexivity. rewrite (quiet_then _ _ _ _ _ E). clear E.
    destruct (all_at_target A r); [|reflexivity]. unfold andthen at 1, look at 1. cbn [bind f_r].
    destruct (r_cur r =? r_total r); [reflexivity|]. unfold andthen at 1, modify at 1. cbn [bind f_r f_irq f_log]. apply quiet_start.
  - apply quiet_start.
  - apply quiet_prepare.
Qed.
End Coarse.

(** ** invariants *)
Section Keep.
Context (A : arith) (fwd : V6 (F A) -> V6 (F A)) (inv : V6 (F A) -> option (V6 (F A))).
Context (l2p p2l : V6 (F A) -> V6 (F A)) (limits : V6 (F A * F A)).
Context (Good : Z -> servo A -> Prop) (Pulse : Z -> Z -> Prop) (T : Z -> F A -> Prop) (Bad : fault -> Prop).
Hypothesis Hproc : forall i s dt, Good i s -> match servo_process A s dt with Ok (s', p) => Good i s' /\ Pulse i p | Ub f => Bad f end.
Hypothesis Hvel : forall i s v, Good i s -> Good i (servo_set_vel A s v).
Hypothesis H1 : forall i s, Good i s -> Good i (set_target_1 A s).
Hypothesis H2 : forall i s, Good i s -> Good i (set_target_2 A s).
Hypothesis H3 : forall i s a, Good i s -> T i a -> Good i (set_target_3 A s a).
Hypothesis Hout : forall (sv : V6 (servo A)) t, axes (fun i => Good i (at6 sv i)) ->
  outside A t (map6 s_min sv) (map6 s_max sv) = false -> axes (fun i => T i (at6 t i)).
Hypothesis Hlim : forall i s s', Good i s -> Good i s' -> s_min s = s_min s' /\ s_max s = s_max s'.
Hypothesis Hbad1 : Bad Uninit.
Hypothesis Hbad2 : forall s t f, linear_steps A s t = Ub f -> Bad f.

Definition GoodR (r : robot A) : Prop := axes (fun i => Good i (at6 (r_servos r) i)).
Definition PulsesOk (l : list (V6 Z)) : Prop := Forall (fun ps => axes (fun i => Pulse i (at6 ps i))) l.
Definition Inv (st : fstate A) : Prop := GoodR (f_r A st) /\ PulsesOk (f_log A st).
Definition tri {X} (p : P A X) (Q : X -> Prop) : Prop := forall st, Inv st ->
  match p st with Ok (x, st') => Inv st' /\ Q x | Ub f => Bad f end.

Lemma tri_ret {X} (x : X) (Q : X -> Prop) : Q x -> tri (ret A x) Q.
Proof. intros H st I. split; auto. Qed.
Lemma tri_then {X Y} (p : P A X) (f : X -> P A Y) (Q : X -> Prop) (S : Y -> Prop) :
  tri p Q -> (forall x, Q x -> tri (f x) S) -> tri (andthen A p f) S.
Proof.
  intros H K st I. unfold andthen. specialize (H st I). destruct (p st) as [[x st']|]; [|exact H]. cbn [bind].
  destruct H as [I' Hq]. exact (K x Hq st' I').
Qed.
Lemma tri_look {X} (f : robot A -> X) (Q : X -> Prop) : (forall r, GoodR r -> Q (f r)) -> tri (look A f) Q.
Proof. intros H st I. split; [exact I|]. apply H, I. Qed.
Lemma tri_modify (f : robot A -> robot A) (Q : unit -> Prop) : (forall r, r_servos (f r) = r_servos r) -> Q tt -> tri (modify A f) Q.
Proof. intros H K st [I J]. split; [|exact K]. split; [|exact J]. unfold GoodR. cbn [f_r]. rewrite H. exact I. Qed.
Lemma tri_lift {X} (x : res X) (Q : X -> Prop) : match x with Ok y => Q y | Ub f => Bad f end -> tri (lift A x) Q.
Proof. intros H st I. unfold lift. destruct x; cbn [bind]; auto. Qed.

Lemma update6_good s dt : axes (fun i => Good i (at6 s i)) ->
  match update6 A s dt with Ok (s', ps) => axes (fun i => Good i (at6 s' i)) /\ axes (fun i => Pulse i (at6 ps i)) | Ub f => Bad f end.
Proof.
  unfold axes. cbn [at6]. intros (G0 & G1 & G2 & G3 & G4 & G5). unfold update6.
  pose proof (Hproc 0 (v0 s) dt G0) as K0. destruct (servo_process A (v0 s) dt) as [[a0 p0]|]; [cbn [bind]|exact K0].
  pose proof (Hproc 1 (v1 s) dt G1) as K1. destruct (servo_process A (v1 s) dt) as [[a1 p1]|]; [cbn [bind]|exact K1].
  pose proof (Hproc 2 (v2 s) dt G2) as K2. destruct (servo_process A (v2 s) dt) as [[a2 p2]|]; [cbn [bind]|exact K2].
  pose proof (Hproc 3 (v3 s) dt G3) as K3. destruct (servo_process A (v3 s) dt) as [[a3 p3]|]; [cbn [bind]|exact K3].
  pose proof (Hproc 4 (v4 s) dt G4) as K4. destruct (servo_process A (v4 s) dt) as [[a4 p4]|]; [cbn [bind]|exact K4].
  pose proof (Hproc 5 (v5 s) dt G5) as K5. destruct (servo_process A (v5 s) dt) as [[a5 p5]|]; [cbn [bind]|exact K5].
  cbn [v0 v1 v2 v3 v4 v5]. tauto.
Qed.
Lemma irqs_good ds : forall st, Inv st -> match irqs A ds st with Ok st' => Inv st' | Ub f => Bad f end.
Proof.
  induction ds as [|d ds IH]; intros st [I J]; cbn [irqs]; [split; auto|].
  pose proof (update6_good (r_servos (f_r A st)) d I) as K. destruct (update6 A (r_servos (f_r A st)) d) as [[s ps]|]; [cbn [bind]|exact K].
  apply IH. split; [apply K|]. cbn [f_log]. apply Forall_app. split; [exact J|]. apply Forall_cons; [apply K|apply Forall_nil].
Qed.
Lemma tri_pause (Q : unit -> Prop) : Q tt -> tri (pause A) Q.
Proof.
  intros K st I. unfold pause. destruct (f_irq A st) as [|ds rest]; [split; auto|].
  pose proof (irqs_good ds (mkF A (f_r A st) rest (f_log A st)) I) as H. destruct (irqs A ds _) as [st'|]; cbn [bind]; [split; auto|exact H].
Qed.
Lemma tri_cur i : tri (read_cur A i) (fun _ => True).
Proof. eapply tri_then; [apply (tri_pause (fun _ => True)); exact I|]. intros _ _. apply tri_look. auto. Qed.
Lemma tri_all : tri (read_all A) (fun _ => True).
Proof.
  unfold read_all. do 6 (eapply tri_then; [apply tri_cur|]; intros ? _). apply tri_ret. exact I.
Qed.
Lemma tri_write i f : 0 <= i < 6 -> (forall s, Good i s -> Good i (f s)) -> tri (write A i f) (fun _ => True).
Proof.
  intros R K. eapply tri_then; [apply (tri_pause (fun _ => True)); exact I|]. intros _ _ st [J L]. split; [|exact I]. split; [|exact L].
  unfold GoodR, axes in *. cbn [f_r r_servos with_servos at6]. cbn [at6] in J. destruct J as (G0 & G1 & G2 & G3 & G4 & G5).
  assert (Q : i = 0 \/ i = 1 \/ i = 2 \/ i = 3 \/ i = 4 \/ i = 5) by lia.
  destruct Q as [->|[->|[->|[->|[->| ->]]]]]; cbn [set6 at6 v0 v1 v2 v3 v4 v5 Z.eqb Pos.eqb]; splits; auto.
Qed.
Lemma tri_reject : tri (fine_reject A fwd p2l) (fun _ => True).
Proof.
  unfold fine_reject. do 2 (eapply tri_then; [apply tri_all|]; intros ? _). apply tri_modify; [reflexivity|exact I].
Qed.

(** the servo commands of a list of events are all allowed *)
Definition cmds_ok (es : list (RobotModel.rev A)) : Prop := forall i v a, In (i, v, a) (servo_cmds es) -> 0 <= i < 6 /\ T i a.
Lemma tri_plan : tri (fine_plan A inv) (fun pe => servo_cmds (snd pe) = []).
Proof.
  unfold fine_plan. eapply tri_then; [apply (tri_look r_method (fun _ => True)); auto|]. intros m _. destruct m.
  - eapply tri_then; [apply (tri_look (fun r => r) (fun _ => True)); auto|]. intros r _. cbv zeta. apply tri_ret. reflexivity.
  - eapply tri_then; [apply (tri_look (fun r => r) (fun _ => True)); auto|]. intros r _. cbv zeta. destruct (inv _) as [a|]; [|apply tri_ret; reflexivity].
    destruct (near_singular A (v4 a)); [|apply tri_ret; reflexivity].
    do 2 (eapply tri_then; [apply tri_cur|]; intros ? _). apply tri_ret. reflexivity.
  - apply tri_lift. exact Hbad1.
Qed.
Lemma tri_command j t time : 0 <= j < 6 -> T j t -> tri (fine_command A j t time) (fun e => exists v, e = EvServo j v t).
Proof.
  intros R K. unfold fine_command. eapply tri_then; [apply tri_cur|]. intros c _. cbv zeta.
  eapply tri_then; [apply tri_write; [exact R|intros; now apply Hvel]|]. intros _ _.
  eapply tri_then; [apply tri_write; [exact R|intros; now apply H1]|]. intros _ _.
  eapply tri_then; [apply tri_write; [exact R|intros; now apply H2]|]. intros _ _.
  eapply tri_then; [apply tri_write; [exact R|intros; now apply H3]|]. intros _ _.
  apply tri_ret. eauto.
Qed.
Lemma tri_go t time : axes (fun i => T i (at6 t i)) -> tri (fine_go A t time) cmds_ok.
Proof.
  intros K. unfold fine_go. eapply tri_then; [apply tri_all|]. intros a _.
  eapply tri_then; [apply (tri_look _ (fun _ => True)); auto|]. intros mv _. cbv zeta.
  unfold axes in K. cbn [at6] in K. destruct K as (K0 & K1 & K2 & K3 & K4 & K5).
  destruct (negb _).
  - eapply tri_then; [apply tri_command; [lia|exact K0]|]. intros e0 [w0 ->]. eapply tri_then; [apply tri_command; [lia|exact K1]|]. intros e1 [w1 ->].
    eapply tri_then; [apply tri_command; [lia|exact K2]|]. intros e2 [w2 ->]. eapply tri_then; [apply tri_command; [lia|exact K3]|]. intros e3 [w3 ->].
    eapply tri_then; [apply tri_command; [lia|exact K4]|]. intros e4 [w4 ->]. eapply tri_then; [apply tri_command; [lia|exact K5]|]. intros e5 [w5 ->].
    eapply tri_then; [apply (tri_modify _ (fun _ => True)); [reflexivity|exact I]|]. intros _ _. apply tri_ret.
    intros i v b H. cbn [servo_cmds In] in H.
    destruct H as [H|[H|[H|[H|[H|[H|[]]]]]]]; inversion H; subst; split; auto; lia.
  - eapply tri_then; [apply (tri_modify _ (fun _ => True)); [reflexivity|exact I]|]. intros _ _. apply tri_ret. intros i v b [].
Qed.
Lemma cmds_none es : servo_cmds es = [] -> cmds_ok es.
Proof. intros E i v a H. rewrite E in H. destruct H. Qed.
Lemma cmds_app es fs : cmds_ok es -> cmds_ok fs -> cmds_ok (es ++ fs).
Proof. intros X Y i v a H. rewrite servo_cmds_app in H. apply in_app_iff in H as [H|H]; [eapply X|eapply Y]; exact H. Qed.

Lemma tri_start : tri (fine_start A fwd inv l2p p2l limits) cmds_ok.
Proof.
  unfold fine_start. eapply tri_then; [apply (tri_modify _ (fun _ => True)); [reflexivity|exact I]|]. intros _ _.
  eapply tri_then; [apply tri_plan|]. intros [p e] E. cbn [fst snd] in *. destruct p as [tl time|].
  2:{ eapply tri_then; [apply tri_reject|]. intros _ _. apply tri_ret. now apply cmds_none. }
  destruct (outside A tl _ _). { eapply tri_then; [apply tri_reject|]. intros _ _. apply tri_ret. now apply cmds_none. }
  cbv zeta.
  eapply tri_then; [apply (tri_look _ (fun lo => exists r, GoodR r /\ lo = map6 s_min (r_servos r))); eauto|]. intros lo (r1 & G1 & ->).
  eapply tri_then; [apply (tri_look _ (fun hi => exists r, GoodR r /\ hi = map6 s_max (r_servos r))); eauto|]. intros hi (r2 & G2 & ->).
  destruct (outside A (l2p tl) _ _) eqn:O. { eapply tri_then; [apply tri_reject|]. intros _ _. apply tri_ret. now apply cmds_none. }
  eapply tri_then; [apply tri_go|].
  - apply (Hout (r_servos r1)); [exact G1|]. rewrite <- O. f_equal. unfold GoodR, axes in G1, G2. cbn [at6] in G1, G2.
    destruct G1 as (A0 & A1 & A2 & A3 & A4 & A5). destruct G2 as (B0 & B1 & B2 & B3 & B4 & B5). unfold map6.
    rewrite (proj2 (Hlim _ _ _ A0 B0)), (proj2 (Hlim _ _ _ A1 B1)), (proj2 (Hlim _ _ _ A2 B2)), (proj2 (Hlim _ _ _ A3 B3)), (proj2 (Hlim _ _ _ A4 B4)), (proj2 (Hlim _ _ _ A5 B5)). reflexivity.
  - intros cmds C. apply tri_ret. apply cmds_app; [now apply cmds_none|exact C].
Qed.
Lemma tri_prepare : tri (fine_prepare A fwd inv l2p p2l limits) cmds_ok.
Proof.
  assert (N : cmds_ok []) by (intros i v a []).
  unfold fine_prepare. eapply tri_then; [apply (tri_look (fun r => r) (fun _ => True)); auto|]. intros r _.
  destruct (r_trans r); [now apply tri_ret|].
  eapply tri_then; [apply (tri_modify _ (fun _ => True)); [|exact I]|].
  { intros q. destruct (r_achg q); [reflexivity|]. destruct (r_pchg q); reflexivity. }
  intros _ _. destruct (r_pchg r && r_achg r).
  { eapply tri_then; [apply (tri_modify _ (fun _ => True)); [reflexivity|exact I]|]. intros _ _. now apply tri_ret. }
  eapply tri_then; [apply (tri_modify _ (fun _ => True)); [reflexivity|exact I]|]. intros _ _.
  do 2 (eapply tri_then; [apply tri_all|]; intros ? _).
  eapply tri_then; [apply (tri_modify _ (fun _ => True)); [reflexivity|exact I]|]. intros _ _.
  eapply tri_then; [apply (tri_look (fun r => r) (fun _ => True)); auto|]. intros q _.
  destruct (angles_equal A _ _).
  { eapply tri_then; [apply (tri_modify _ (fun _ => True)); [reflexivity|exact I]|]. intros _ _. now apply tri_ret. }
  eapply tri_then; [apply (tri_lift _ (fun _ => True))|].
  { destruct (r_method q); auto. destruct (linear_steps A (r_startP q) (r_targetP q)) eqn:E; auto. now apply Hbad2 in E. }
  intros n _. eapply tri_then; [apply (tri_modify _ (fun _ => True)); [reflexivity|exact I]|]. intros _ _. exact tri_start.
Qed.
Lemma tri_arrived : tri (fine_arrived A) (fun _ => True).
Proof.
  assert (K : forall i, tri (fine_ask A i) (fun _ => True)).
  { intros i. unfold fine_ask. eapply tri_then; [apply (tri_pause (fun _ => True)); exact I|]. intros _ _. apply tri_look. auto. }
  unfold fine_arrived. do 6 (eapply tri_then; [apply K|]; intros ? _). apply tri_ret. exact I.
Qed.
Theorem tri_process : tri (fine_process A fwd inv l2p p2l limits) cmds_ok.
Proof.
  assert (N : cmds_ok []) by (intros i v a []).
  unfold fine_process. eapply tri_then; [apply (tri_look r_state (fun _ => True)); auto|]. intros s _. destruct s.
  - now apply tri_ret.
  - eapply tri_then; [apply tri_arrived|]. intros ok _. destruct ok; [|now apply tri_ret].
    eapply tri_then; [apply (tri_look (fun r => r) (fun _ => True)); auto|]. intros r _. destruct (r_cur r =? r_total r).
    + eapply tri_then; [apply (tri_modify _ (fun _ => True)); [reflexivity|exact I]|]. intros _ _. now apply tri_ret.
    + eapply tri_then; [apply (tri_modify _ (fun _ => True)); [reflexivity|exact I]|]. intros _ _. exact tri_start.
  - exact tri_start.
  - exact tri_prepare.
Qed.

(** ** histories *)
Lemma setter_servos (r r' : robot A) o e : r_step A fwd inv l2p p2l limits r o = Ok (r', e) ->
  (match o with OProcess | OTick _ => False | _ => True end) -> r_servos r' = r_servos r /\ e = [].
Proof.
  intros H K. destruct o; try contradiction.
  1-2,4-5,6-9: cbn in H; inversion H; subst; split; reflexivity.
  cbn in H. unfold set_angle in H. destruct ((0 <=? i) && (i <? 6)); [|discriminate]. cbn in H. inversion H; subst. split; reflexivity.
Qed.
Lemma fine_step_good r o r' e l : GoodR r -> fine_step A fwd inv l2p p2l limits r o = Ok (r', e, l) ->
  GoodR r' /\ cmds_ok e /\ PulsesOk l.
Proof.
  intros G H. destruct o as [o w]. unfold fine_step in H. cbn [fst snd] in H.
  assert (N : cmds_ok []) by (intros i v a []).
  assert (S : forall o, (match o with OProcess | OTick _ => False | _ => True end) ->
    (do (r', e) <- r_step A fwd inv l2p p2l limits r o; Ok (r', e, [])) = Ok (r', e, l) -> GoodR r' /\ cmds_ok e /\ PulsesOk l).
  { intros o0 K H0. destruct (r_step A fwd inv l2p p2l limits r o0) as [[r1 e1]|] eqn:E; [|discriminate]. cbn [bind] in H0. inversion H0; subst.
    apply setter_servos in E as [E ->]; [|exact K]. split; [unfold GoodR; now rewrite E|]. split; [exact N|apply Forall_nil]. }
  destruct o; try (eapply (S (_ : RobotModel.rop A)); [|exact H]; exact I).
  - pose proof (tri_process (mkF A r w []) (conj G (Forall_nil _))) as K.
    destruct (fine_process A fwd inv l2p p2l limits (mkF A r w [])) as [[e1 st]|]; [cbn [bind] in H|discriminate].
    destruct K as [[K1 K2] K3].
    pose proof (irqs_good (concat (f_irq A st)) (mkF A (f_r A st) [] (f_log A st)) (conj K1 K2)) as J.
    destruct (irqs A _ _) as [st'|]; [cbn [bind] in H|discriminate]. inversion H; subst. destruct J. auto.
  - pose proof (irqs_good [dt] (mkF A r [] []) (conj G (Forall_nil _))) as J.
    destruct (irqs A _ _) as [st'|]; [cbn [bind] in H|discriminate]. inversion H; subst. destruct J. auto.
Qed.
Theorem fine_run_good os : forall r r' e l, GoodR r -> fine_run A fwd inv l2p p2l limits r os = Ok (r', e, l) ->
  GoodR r' /\ cmds_ok e /\ PulsesOk l.
Proof.
  induction os as [|o os IH]; intros r r' e l G H; cbn [fine_run] in H.
  - inversion H; subst. split; [exact G|]. split; [intros i v a []|apply Forall_nil].
  - destruct (fine_step A fwd inv l2p p2l limits r o) as [[[r1 e1] l1]|] eqn:E1; [|discriminate]. cbn [bind] in H.
    destruct (fine_run A fwd inv l2p p2l limits r1 os) as [[[r2 e2] l2]|] eqn:E2; [|discriminate]. cbn [bind] in H. inversion H; subst.
    apply fine_step_good in E1 as (G1 & C1 & P1); [|exact G]. apply IH in E2 as (G2 & C2 & P2); [|exact G1].
    split; [exact G2|]. split; [now apply cmds_app|]. apply Forall_app. auto.
Qed.
End Keep.
