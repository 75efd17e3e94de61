(** Memory safety of the whole system for conforming hosts (C48). *)
From Verif Require Import Base Arith ServoModel RobotModel RobotProofs IoModel IoSpec IoProofs WaitModel RingModel RingSpec EepromModel EepromSpec MrilModel MrilSpec MrilProofs McpModel McpSpec McpProofs DeviceModel DeviceSpec DeviceProofs SystemModel SystemSpec SystemProofs.
Open Scope Z_scope.

(** no fault except the conversion of a too large floating-point number *)
Definition fine {T} (P : T -> Prop) (x : res T) : Prop := match x with Ok a => P a | Ub f => f = BadConv end.
Lemma fine_bind {T U} (P : T -> Prop) (Q : U -> Prop) x (f : T -> res U) :
  fine P x -> (forall a, P a -> x = Ok a -> fine Q (f a)) -> fine Q (do a <- x; f a).
Proof. destruct x as [a|e]; cbn; auto. Qed.
Lemma fine_impl {T} (P Q : T -> Prop) x : fine P x -> (forall a, P a -> Q a) -> fine Q x.
Proof. destruct x; cbn; auto. Qed.

Section Safe.
Context (A : arith) (fwd : V6 (F A) -> V6 (F A)) (inv : V6 (F A) -> option (V6 (F A))).
Context (l2p p2l : V6 (F A) -> V6 (F A)) (limits : V6 (F A * F A)) (pinMap : list Z) (print : D A -> list Z) (sgn : bool).
Context (PM : zlen pinMap = 10).
Notation sys := (sys A).
Notation step := (sys_step A fwd inv l2p p2l limits pinMap print sgn).
Notation run := (sys_run A fwd inv l2p p2l limits pinMap print sgn).
Notation acts_run := (sys_acts A fwd p2l pinMap print).

(** ** motion controller *)
Definition nc (r : robot A) : Prop := r_method r <> CIRCULAR.
Lemma to_int_fine x : fine (fun _ => True) (to_int A x).
Proof. unfold to_int. destruct (ftoz A x) as [n|]; [|reflexivity]. destruct ((-2147483648 <=? n) && (n <=? 2147483647)); cbn; auto. Qed.
Lemma linear_fine a b : fine (fun _ => True) (linear_steps A a b).
Proof.
  unfold linear_steps. eapply fine_bind; [apply to_int_fine|]. intros x _ _.
  eapply fine_bind; [apply to_int_fine|]. intros y _ _. exact I.
Qed.
Lemma start_fine r : nc r -> fine (fun x => nc (fst x)) (r_start_move A fwd inv l2p p2l limits r).
Proof.
  intros H. destruct (r_start_move A fwd inv l2p p2l limits r) as [[r' e]|f] eqn:E; cbn.
  - apply start_move_frame in E as (M & _). unfold nc. rewrite M. exact H.
  - unfold r_start_move, r_plan in E. cbn [r_method with_steps] in E. unfold nc in H.
    destruct (r_method r); [| |congruence]; cbn [bind] in E.
    + destruct (outside _ _ _ _); [discriminate|]. destruct (outside _ _ _ _); [discriminate|]. destruct (negb _); discriminate.
    + destruct (inv _); cbn [bind] in E; [|discriminate].
      destruct (outside _ _ _ _); [discriminate|]. destruct (outside _ _ _ _); [discriminate|]. destruct (negb _); discriminate.
Qed.
Lemma process_fine r : nc r -> fine (fun x => nc (fst x)) (r_process A fwd inv l2p p2l limits r).
Proof.
  intros H. unfold r_process. destruct (r_state r); [exact H| | |].
  - destruct (all_at_target A r); [|exact H]. destruct (r_cur r =? r_total r); [exact H|]. apply start_fine. exact H.
  - apply start_fine. exact H.
  - unfold r_prepare. destruct (r_trans r); [exact H|].
    set (r1 := if r_achg r then _ else _).
    assert (N1 : nc r1) by (unfold r1; destruct (r_achg r); [exact H|]; destruct (r_pchg r); exact H).
    clearbody r1. destruct (r_pchg r && r_achg r); [exact N1|].
    set (r3 := with_starts A _ _ _). assert (N3 : nc r3) by exact N1. clearbody r3. cbv zeta.
    destruct (angles_equal A (r_startA r3) (r_targetA r3)); [exact N3|].
    eapply fine_bind with (P := fun _ => True); [|intros n _ _; apply start_fine; exact N3].
    destruct (r_method r3); [exact I|apply linear_fine|exact I].
Qed.
Lemma servo_fine s dt : fine (fun _ => True) (servo_process A s dt).
Proof.
  unfold servo_process, servo_move. eapply fine_bind with (P := fun _ => True); [|intros; exact I].
  repeat match goal with |- context [if ?b then _ else _] => destruct b end; try exact I; try apply to_int_fine.
  all: try (eapply fine_bind with (P := fun _ => True); [apply to_int_fine|intros; exact I]).
Qed.
Lemma tick_fine r dt : nc r -> fine nc (r_tick A r dt).
Proof.
  intros H. unfold r_tick.
  repeat (eapply fine_bind with (P := fun _ => True);
    [eapply fine_bind with (P := fun _ => True); [apply servo_fine|intros [? ?] _ _; exact I]|intros ? _ _]).
  exact H.
Qed.
Lemma axes_fine l dt : fine (fun l' => zlen l' = zlen l) (tick_axes A l dt).
Proof.
  induction l as [|s l IH]; cbn [tick_axes]; [reflexivity|].
  eapply fine_bind with (P := fun _ => True); [apply servo_fine|]. intros [s1 p] _ _.
  eapply fine_bind; [exact IH|]. intros l1 H _. unfold fine. rewrite !zlen_cons. f_equal. exact H.
Qed.

(** ** the machine *)
Definition DI (d : device A) : Prop := zlen (d_axes d) = 2 /\ zlen (d_io d) <= 10 /\ nc (d_robot d).
Lemma robot_fine d : DI d -> fine (fun x => DI (fst x) /\ d_mril (fst x) = d_mril d) (dev_robot A fwd inv l2p p2l limits print d).
Proof.
  intros (W & IO & N). unfold dev_robot. eapply fine_bind; [apply process_fine; exact N|].
  intros [r e] H _. cbn. unfold DI. cbn. auto.
Qed.
Lemma dev_tick_fine d : DI d -> fine (fun d' => DI d' /\ d_mril d' = d_mril d /\ d_io d' = d_io d) (dev_tick A d).
Proof.
  intros (W & IO & N). unfold dev_tick. eapply fine_bind; [apply tick_fine; exact N|]. intros r H _.
  eapply fine_bind; [apply axes_fine|]. intros l L _. unfold fine, DI. cbn [d_axes d_io d_robot d_mril with_axes with_robot]. splits; auto. rewrite L. exact W.
Qed.
Lemma exec_DI now acts : forall d buf d' buf' e, exec_acts A fwd p2l pinMap print now d buf acts = Ok (d', buf', e) -> DI d -> DI d'.
Proof.
  induction acts as [|a acts IH]; intros d buf d' buf' e E H; cbn [exec_acts] in E; [injection E as <- _ _; exact H|].
  destruct (exec_act A fwd p2l pinMap print now d buf a) as [[[d1 b1] e1]|] eqn:EA; cbn [bind] in E; [|discriminate].
  destruct (exec_acts A fwd p2l pinMap print now d1 b1 acts) as [[[d2 b2] e2]|] eqn:ER; cbn [bind] in E; [|discriminate].
  injection E as <- _ _. apply (IH _ _ _ _ _ ER). clear IH ER.
  destruct H as (W & IO & N).
  destruct a as [| |m|v|v|i x|i x|i x|pin st|pin st|ms|n|r|[n|]|]; cbn [exec_act] in EA;
    try (injection EA as <- _ _; unfold DI, nc in *; cbn; splits; auto; try (destruct (m =? 0); discriminate); fail).
  - injection EA as <- _ _. unfold DI, nc in *. cbn. unfold zlen in *. rewrite map_length. auto.
  - destruct (set_angle A (d_robot d) i (arg_float A x)) as [r|] eqn:SA; cbn [bind] in EA; [|discriminate]. injection EA as <- _ _.
    unfold DI, nc in *. cbn. splits; auto. unfold set_angle in SA. destruct ((0 <=? i) && (i <? 6)); [|discriminate]. injection SA as <-. exact N.
  - destruct (zget (d_axes d) i) as [s|]; cbn [bind] in EA; [|discriminate].
    destruct (zset (d_axes d) i (servo_set_target A s (arg_float A x))) as [l|] eqn:ZS; cbn [bind] in EA; [|discriminate]. injection EA as <- _ _.
    unfold DI, nc in *. cbn. splits; auto. unfold zset in ZS. destruct ((0 <=? i) && (i <? zlen (d_axes d))); [|discriminate].
    injection ZS as <-. rewrite zlen_upd. exact W.
  - unfold io_addCondition in EA. destruct (zget pinMap pin) as [p|]; cbn [bind] in EA; [|discriminate].
    unfold MAX_CONDITIONS in EA. destruct (Z.ltb_spec (zlen (d_io d)) 10); cbn [bind] in EA; [|discriminate]. injection EA as <- _ _.
    unfold DI, nc in *. cbn [d_axes d_io d_robot with_io]. splits; auto. rewrite zlen_app. change (zlen [(p, st)]) with 1. lia.
  - destruct (io_setOutput pinMap pin st) as [ps|]; cbn [bind] in EA; [|discriminate]. injection EA as <- _ _. unfold DI, nc in *. auto.
  - destruct (read_item A fwd p2l print d r) as [t|]; cbn [bind] in EA; [|discriminate]. injection EA as <- _ _. unfold DI, nc in *. auto.
Qed.
Lemma parse_fine now d text n : DI d -> safe_text n text -> zlen (d_io d) + n <= 10 ->
  exists d' e, dev_parse A fwd p2l pinMap print now d text = Ok (d', e) /\ DI d'.
Proof.
  intros H S L. destruct H as (W & IO & N).
  assert (T : exists d' e, dev_parse A fwd p2l pinMap print now d text = Ok (d', e)).
  { apply (parse_outcome A fwd p2l pinMap print PM now d text W IO). unfold text_ok. unfold safe_text in S.
    destruct (cut [] text) as [ps left]. cbn [fst snd]. destruct S as (S1 & S2 & S3). splits; auto. lia. }
  destruct T as (d' & e & E). exists d', e. split; [exact E|]. unfold dev_parse in E.
  destruct (mril_parse text) as [[acts num]|]; cbn [bind] in E; [|discriminate].
  destruct (exec_acts A fwd p2l pinMap print now d [] acts) as [[[d1 b1] e1]|] eqn:X; cbn [bind] in E; [|discriminate].
  injection E as <- _. apply exec_DI in X; [|repeat split; auto]. exact X.
Qed.

(** ** the protocol parser *)
Definition same_host (t t' : sstate) : Prop := slog t = slog t' /\ scur t = scur t'.
Lemma spec_command_log t t' p : same_host t t' -> slog (fst (spec_command t p)) = slog (fst (spec_command t' p)).
Proof.
  intros [E1 E2]. unfold spec_command. destruct p as [|c rest]; [exact E1|].
  destruct (c =? 66); [exact E1|]. destruct (c =? 69); [exact E1|]. destruct (c =? 81); [destruct rest; exact E1|].
  destruct (c =? 87); [destruct rest; cbn [fst slog]; rewrite ?E1; reflexivity|]. exact E1.
Qed.
Lemma step_same_host t t' c : same_host t t' -> same_host (fst (spec_step t (CChar c))) (fst (spec_step t' (CChar c))).
Proof.
  intros H. pose proof H as [E1 E2]. cbn [spec_step]. destruct (c =? 13).
  - rewrite E2. pose proof (spec_command_log t t' (payload (scur t')) H) as L.
    destruct (spec_command t (payload (scur t'))), (spec_command t' (payload (scur t'))). split; [exact L|reflexivity].
  - split; cbn; congruence.
Qed.
Lemma host_ok_same bs : forall t t', same_host t t' -> host_ok t (map CChar bs) -> host_ok t' (map CChar bs).
Proof.
  induction bs as [|c bs IH]; intros t t' H HO; [exact I|]. cbn [map host_ok] in *. destruct HO as [H1 H2].
  pose proof H as [E1 E2]. rewrite E1, E2 in H1. split; [exact H1|]. eapply IH; [|exact H2]. now apply step_same_host.
Qed.
Lemma poll_same_host t b : same_host t (fst (spec_poll t b)).
Proof.
  unfold spec_poll, same_host. destruct b; [|split; reflexivity]. destruct (smode t); try (split; reflexivity).
  destruct (squeue t); split; reflexivity.
Qed.

Definition SafeT (t : sstate) : Prop := Forall (safe_text 10) (squeue t) /\ Forall (safe_text 10) (slog t).
Lemma command_safe t p : SafeT t -> safe_frame p -> SafeT (fst (spec_command t p)) /\
  (snd (spec_command t p) = [] \/ (exists n, snd (spec_command t p) = [MSendFree n]) \/
   exists r, snd (spec_command t p) = [MParse r] /\ safe_text 0 r).
Proof.
  intros [Q L] S. unfold spec_command, safe_frame in *. destruct p as [|c rest]; [cbn; unfold SafeT; auto|].
  assert (EN : forall m, safe_text 10 m -> Forall (safe_text 10) (enqueue (squeue t) m)).
  { intros m Hm. unfold enqueue. destruct (_ <=? 300); [|exact Q]. apply Forall_app; auto. }
  assert (LA : forall m, safe_text 10 m -> Forall (safe_text 10) (log_append (slog t) m)).
  { intros m Hm. unfold log_append. destruct m; [exact L|]. destruct (_ <=? 2048); [|exact L]. apply Forall_app; auto. }
  destruct (c =? 66); [cbn; unfold SafeT; eauto 6|]. destruct (c =? 69); [cbn; unfold SafeT; eauto 8|].
  destruct (c =? 81); cbn [orb] in S.
  - destruct rest; unfold SafeT; cbn; auto.
  - destruct (c =? 87); cbn [orb] in S.
    + destruct rest; unfold SafeT; cbn [fst snd squeue slog]; auto.
    + unfold SafeT; cbn [fst snd squeue slog]; auto.
Qed.
Lemma poll_safe t b : SafeT t -> SafeT (fst (spec_poll t b)) /\
  (snd (spec_poll t b) = [] \/ (b = true /\ exists pre r, snd (spec_poll t b) = pre ++ [MParse r] /\ safe_text 10 r /\
      (pre = [] \/ exists n, pre = [MSendFree n]))).
Proof.
  intros [Q L]. unfold spec_poll. destruct b; [|cbn; unfold SafeT; auto].
  destruct (smode t); try (cbn; unfold SafeT; auto; fail).
  - destruct (squeue t) as [|m q] eqn:E; [cbn; unfold SafeT; rewrite E; auto|]. inversion Q as [|? ? Hm Hq]; subst.
    cbn [fst snd]. split; [split; auto|]. right. split; [reflexivity|]. exists [MSendFree (300 - space (m :: q))], m. eauto 6.
  - cbn [fst snd]. split; [split; auto|]. set (i := if zlen (slog t) <=? snext t then 1 else snext t).
    destruct (nth_error (slog t) (Z.to_nat i)) as [m|] eqn:E; [|auto]. right. split; [reflexivity|].
    exists [], m. splits; auto. rewrite Forall_forall in L. apply L. eapply nth_error_In; eauto.
Qed.

(** ** the system.  [future]: bytes waiting and still to come *)
Definition SInv (s : sys) (t : sstate) (future : list Z) : Prop :=
  CInv sgn (y_mcp s) t /\ host_ok t (map CChar future) /\ Forall safe_frame (commands (scur t) (map CChar future)) /\
  SafeT t /\ DI (y_dev s) /\ (y_phase s = PMcp -> mdone (d_mril (y_dev s)) = true -> d_io (y_dev s) = []).

Lemma step_fine s t x rest : SInv s t (y_rx s ++ arrivals [x] ++ rest) ->
  fine (fun p => exists t', SInv (fst p) t' (y_rx (fst p) ++ rest)) (step s x).
Proof.
  intros (CI & HO & SF & ST & D & P). destruct x as [c| |now lv]; cbn [sys_step].
  - cbn. exists t. unfold SInv. cbn [y_mcp y_dev y_rx y_phase]. rewrite <- app_assoc. auto 10.
  - eapply fine_bind; [apply dev_tick_fine; exact D|]. intros d (D' & M & IO) _. cbn. exists t. unfold SInv. cbn [y_mcp y_dev y_rx y_phase].
    rewrite M, IO. auto 10.
  - cbn [arrivals flat_map app] in *. unfold sys_main. destruct (y_phase s) as [| |k| |] eqn:PH.
    + eapply fine_bind; [apply robot_fine; exact D|]. intros [d e] (D' & M) _. cbn. exists t. unfold SInv. cbn [y_mcp y_dev y_rx y_phase].
      splits; auto. intros X; discriminate.
    + eapply fine_bind; [apply robot_fine; exact D|]. intros [d e] (D' & M) _. cbn. exists t. unfold SInv. cbn [y_mcp y_dev y_rx y_phase].
      splits; auto. intros X; discriminate.
    + assert (IDLE_ : fine (fun p => exists t', SInv (fst p) t' (y_rx (fst p) ++ rest)) (Ok (mkSys (y_dev s) (y_mcp s) (y_rx s) PMril, @nil (sys_ev A)))).
      { cbn. exists t. unfold SInv. cbn [y_mcp y_dev y_rx y_phase]. splits; auto. intros X; discriminate. }
      destruct (y_rx s) as [|c rx] eqn:RX; [exact IDLE_|]. destruct (k <? READ_BYTES); [|exact IDLE_]. clear IDLE_.
      unfold sys_mcp. cbn [app map host_ok] in HO. destruct HO as [H1 H2].
      destruct (c_step_refines sgn (y_mcp s) t (CChar c) CI H1) as (m & CS & CI'). rewrite CS. cbn [bind].
      cbn [app map commands] in SF.
      assert (Y : SafeT (fst (spec_step t (CChar c))) /\
        Forall safe_frame (commands (scur (fst (spec_step t (CChar c)))) (map CChar (rx ++ rest))) /\
        (snd (spec_step t (CChar c)) = [] \/ (exists n, snd (spec_step t (CChar c)) = [MSendFree n]) \/
         exists r, snd (spec_step t (CChar c)) = [MParse r] /\ safe_text 0 r)).
      { cbn [spec_step] in *. destruct (c =? 13).
        - inversion SF as [|? ? F1 F2]; subst. destruct (command_safe t _ ST F1) as [C1 C2].
          destruct (spec_command t (payload (scur t))) as [t1 a]. cbn [fst snd] in *. auto.
        - cbn [fst snd scur]. split; [exact ST|]. auto. }
      destruct Y as (Y1 & Y2 & Y3).
      assert (SP : PSerial (k + 1) = PMcp -> False) by discriminate.
      destruct Y3 as [->|[[n ->]|(r & -> & SR)]]; cbn [sys_acts sys_act bind].
      * cbn. exists (fst (spec_step t (CChar c))). unfold SInv. cbn [y_mcp y_dev y_rx y_phase]. splits; auto. intros X; discriminate.
      * cbn. exists (fst (spec_step t (CChar c))). unfold SInv. cbn [y_mcp y_dev y_rx y_phase]. splits; auto. intros X; discriminate.
      * destruct (parse_fine now (y_dev s) r 0 D SR) as (d' & e & E & D'); [destruct D as (_ & IO & _); lia|]. rewrite E.
        cbn. exists (fst (spec_step t (CChar c))). unfold SInv. cbn [y_mcp y_dev y_rx y_phase]. splits; auto. intros X; discriminate.
    + destruct (dev_poll_cases A (y_dev s) now lv) as [[AF E]|[NAF (io & IO & E)]]; rewrite E; cbn; exists t; unfold SInv; cbn [y_mcp y_dev y_rx y_phase].
      * splits; auto. destruct D as (W & _ & N). split; [exact W|]. split; [|exact N]. cbn. unfold zlen; cbn; lia.
      * splits; auto; [|intros _ X; discriminate]. destruct D as (W & L & N). split; [exact W|]. split; [|exact N]. cbn.
        destruct IO as [->| ->]; [exact L|unfold zlen; cbn; lia].
    + unfold sys_mcp. set (b := mdone (d_mril (y_dev s))) in *.
      destruct (c_step_refines sgn (y_mcp s) t (CPoll b) CI I) as (m & CS & CI'). rewrite CS. cbn [bind spec_step] in *.
      destruct (poll_safe t b ST) as [Y1 Y2].
      pose proof (poll_same_host t b) as SH.
      assert (SF' : Forall safe_frame (commands (scur (fst (spec_poll t b))) (map CChar (y_rx s ++ rest)))) by (destruct SH as [_ <-]; exact SF).
      assert (HO' : host_ok (fst (spec_poll t b)) (map CChar (y_rx s ++ rest))) by (eapply host_ok_same; eauto).
      destruct Y2 as [->|(B & pre & r & -> & SR & PRE)].
      * cbn. exists (fst (spec_poll t b)). unfold SInv. cbn [y_mcp y_dev y_rx y_phase]. splits; auto; intros X; discriminate.
      * destruct (parse_fine now (y_dev s) r 10 D SR) as (d' & e & E & D').
        { rewrite (P eq_refl B). unfold zlen; cbn; lia. }
        destruct PRE as [->|[n ->]]; cbn [app sys_acts sys_act bind]; rewrite E; cbn; exists (fst (spec_poll t b)); unfold SInv;
          cbn [y_mcp y_dev y_rx y_phase]; splits; auto; intros X; discriminate.
Qed.
Lemma run_fine l : forall s t, SInv s t (y_rx s ++ arrivals l) -> fine (fun _ => True) (run s l).
Proof.
  induction l as [|x l IH]; intros s t H; cbn [sys_run]; [exact I|].
  change (x :: l) with ([x] ++ l) in H. rewrite arrivals_app in H.
  eapply fine_bind; [apply (step_fine s t x (arrivals l)); exact H|]. intros [s1 e1] (t' & H') _. cbn [fst] in H'.
  eapply fine_bind; [eapply IH; exact H'|]. intros [s2 e2] _ _. exact I.
Qed.
End Safe.
