(** * PropCalib: the calibration program (C74-C78). *)
From Coq Require Import Reals Lra.
From Coq Require Import String Ascii.
From Verif Require Import Base Arith ServoModel ServoProofs RobotModel ConfigModel CalibModel CalibProofs.

(** the keys of the program, lines 81-93 *)
Definition key_w := 119. Definition key_s := 115.
(** a text typed on the keyboard *)
Fixpoint typed (s : String.string) : list Z :=
  match s with
  | String.EmptyString => []
  | String.String c r => Z.of_N (Ascii.N_of_ascii c) :: typed r
  end.

Section Any.
Context (A : arith).
Notation row := (row A).
Notation calib := (calib A).

(** ** The invariant of every history *)
Lemma step_inv (c c' : calib) k ev : wf A c -> calib_step A c k = Ok (c', ev) ->
  exists r s r' s' ps, zget (c_tab c) (c_sel c) = Ok r /\ zget (c_servos c) (c_sel c) = Ok s /\
    row_step A (c_set c) (c_test c) k r s = Ok (r', s', ps) /\ c' = after A c k r' s' /\ pulses A ev = sent A c s ps.
Proof.
  intros W H. pose proof W as (L1 & L2 & S).
  destruct (zget_some (c_tab c) (c_sel c)) as [r Hr]; [lia|].
  destruct (zget_some (c_servos c) (c_sel c)) as [s Hs]; [lia|].
  pose proof (step_eq A c k r s W Hr Hs) as E.
  destruct (row_step A (c_set c) (c_test c) k r s) as [[[r' s'] ps]|f] eqn:RS; [|congruence].
  destruct E as (ev' & E & P). rewrite E in H. injection H as <- <-. exists r, s, r', s', ps. auto.
Qed.

Lemma bad_int x f : to_int A x = Ub f -> f = BadConv.
Proof. unfold to_int. destruct (ftoz A x); [destruct (_ && _)|]; congruence. Qed.
Lemma bad_uint x f : to_uint A x = Ub f -> f = BadConv.
Proof. unfold to_uint. destruct (ftoz A x); [destruct (_ && _)|]; congruence. Qed.
Lemma bad_move s f : servo_move A s = Ub f -> f = BadConv.
Proof. unfold servo_move. destruct (to_int A _) eqn:E; cbn; [discriminate|]. intros [= <-]. eapply bad_int; eauto. Qed.

Lemma row_step_bad m t k r s f : row_step A m t k r s = Ub f -> f = BadConv.
Proof.
  unfold row_step, drive_row, move_row, servo_process.
  assert (B : forall x (g : Z -> res (row * servo A * list Z)) f, (forall n f, g n = Ub f -> f = BadConv) -> bind (to_int A x) g = Ub f -> f = BadConv).
  { intros x g e G H. destruct (to_int A x) eqn:E; cbn in H; [eapply G; eauto|]. injection H as <-. eapply bad_int; eauto. }
  assert (U : forall x (g : Z -> res (row * servo A * list Z)) f, (forall n f, g n = Ub f -> f = BadConv) -> bind (to_uint A x) g = Ub f -> f = BadConv).
  { intros x g e G H. destruct (to_uint A x) eqn:E; cbn in H; [eapply G; eauto|]. injection H as <-. eapply bad_uint; eauto. }
  assert (V : forall x (s' : servo A) (g : Z -> row), (do (s', p) <- (do p <- servo_move A x; Ok (s', p)); Ok (g p, s', [p])) = Ub f -> f = BadConv).
  { intros x s' g H. destruct (servo_move A x) eqn:E; cbn in H; [discriminate|]. injection H as <-. eapply bad_move; eauto. }
  repeat match goal with
  | |- (if ?b then _ else _) = _ -> _ => destruct b
  end; intros H; try discriminate; try (eapply V; exact H); try (eapply B in H; [exact H|]; intros; discriminate).
  destruct m; try discriminate.
  - eapply B in H; [exact H|]. intros n e. apply U. intros n' e'. apply U. intros; discriminate.
  - eapply B in H; [exact H|]. intros n e. apply U. intros n' e'. apply U. intros; discriminate.
  - eapply B in H; [exact H|]. intros; discriminate.
Qed.

(** what the servo of a row uses is what the row says *)
Definition agrees (r : row) (s : servo A) : Prop :=
  to_uint A (r_f0 r) = Ok (s_minF s) /\ to_uint A (r_f1 r) = Ok (s_maxF s) /\ s_min s = r_a0 r /\ s_max s = r_a1 r.
Definition config (r : row) := (r_f0 r, r_f1 r, r_a0 r, r_a1 r).
Definition calibration (s : servo A) := (s_minF s, s_maxF s, s_min s, s_max s).

Lemma process_calibration s x dt s' p : servo_process A (servo_set_target A s x) dt = Ok (s', p) -> calibration s' = calibration s /\ s_virtual s' = s_virtual s.
Proof.
  unfold servo_process. destruct (servo_move A _); cbn; [|discriminate]. intros [= <- _].
  unfold servo_advance, calibration. repeat destruct (flt A _ _); auto.
Qed.

Lemma row_step_config m t k r s r' s' ps : row_step A m t k r s = Ok (r', s', ps) ->
  ((k =? key_w) || (k =? key_s) = false \/ m = MOVE \/ t = true) -> config r' = config r /\ calibration s' = calibration s.
Proof.
  intros H K. unfold row_step, drive_row, move_row in H.
  destruct (Z.eqb_spec k 116).
  { destruct (is_min m); [destruct (to_int A (r_f0 r)); cbn in H; [|discriminate]|]; injection H as <- <- _; auto. }
  destruct (Z.eqb_spec k 122).
  { destruct (is_max m); [destruct (to_int A (r_f1 r)); cbn in H; [|discriminate]|]; injection H as <- <- _; auto. }
  assert (MV : forall x, (do (s', p) <- servo_process A (servo_set_target A s x) 10000; Ok (with_rcur A r (fofz A p), s', [p])) = Ok (r', s', ps) ->
            config r' = config r /\ calibration s' = calibration s).
  { intros x Hx. destruct (servo_process A (servo_set_target A s x) 10000) as [[s1 p]|] eqn:E; cbn in Hx; [|discriminate]. injection Hx as <- <- _.
    split; [reflexivity|]. eapply process_calibration; eauto. }
  destruct (k =? 113); [eauto|]. destruct (k =? 97); [eauto|]. destruct (k =? 100); [eauto|].
  destruct (((k =? 119) || (k =? 115)) && negb t) eqn:E; [|injection H as <- <- _; auto].
  apply andb_true_iff in E as [E1 E2]. destruct K as [K|[K|K]].
  - unfold key_w, key_s in K. congruence.
  - subst m. destruct (to_int A _); cbn in H; [|discriminate]. injection H as <- <- _. auto.
  - subst t. discriminate.
Qed.

Lemma row_step_virtual m t k r s r' s' ps : row_step A m t k r s = Ok (r', s', ps) -> s_virtual s' = s_virtual s.
Proof.
  intros H. unfold row_step, drive_row, move_row in H.
  destruct (k =? 116).
  { destruct (is_min m); [destruct (to_int A (r_f0 r)); cbn in H; [|discriminate]|]; injection H as <- <- _; auto. }
  destruct (k =? 122).
  { destruct (is_max m); [destruct (to_int A (r_f1 r)); cbn in H; [|discriminate]|]; injection H as <- <- _; auto. }
  assert (MV : forall x, (do (s', p) <- servo_process A (servo_set_target A s x) 10000; Ok (with_rcur A r (fofz A p), s', [p])) = Ok (r', s', ps) ->
            s_virtual s' = s_virtual s).
  { intros x Hx. destruct (servo_process A (servo_set_target A s x) 10000) as [[s1 p]|] eqn:E; cbn in Hx; [|discriminate]. injection Hx as <- <- _.
    eapply process_calibration; eauto. }
  destruct (k =? 113); [eauto|]. destruct (k =? 97); [eauto|]. destruct (k =? 100); [eauto|].
  destruct (_ && negb t); [|injection H as <- <- _; auto].
  destruct m.
  1, 2: repeat (destruct (to_int A _) || destruct (to_uint A _)); cbn in H; try discriminate; injection H as <- <- _; reflexivity.
  1, 2: injection H as <- <- _; reflexivity.
  destruct (to_int A _); cbn in H; [|discriminate]. injection H as <- <- _. auto.
Qed.

Lemma row_step_agrees m t k r s r' s' ps : row_step A m t k r s = Ok (r', s', ps) -> agrees r s -> agrees r' s'.
Proof.
  intros H G. destruct (((k =? 119) || (k =? 115)) && negb t) eqn:E.
  - apply andb_true_iff in E as [E1 E2]. apply negb_true_iff in E2. subst t.
    destruct (match m with MOVE => true | _ => false end) eqn:M.
    + destruct (row_step_config _ _ _ _ _ _ _ _ H) as [C1 C2]; [right; left; destruct m; auto; discriminate|].
      unfold agrees. unfold config in C1. unfold calibration in C2. injection C1 as -> -> -> ->. injection C2 as -> -> -> ->. exact G.
    + unfold row_step in H. rewrite E1 in H.
      destruct (Z.eqb_spec k 116); [subst k; discriminate|]. destruct (Z.eqb_spec k 122); [subst k; discriminate|].
      destruct (Z.eqb_spec k 113); [subst k; discriminate|]. destruct (Z.eqb_spec k 97); [subst k; discriminate|].
      destruct (Z.eqb_spec k 100); [subst k; discriminate|]. cbn [andb negb] in H.
      destruct G as (G1 & G2 & G3 & G4).
      destruct m; try discriminate; cbn [is_min r_f0 r_f1 with_rcur with_rf0 with_rf1] in H.
      * destruct (to_int A _); cbn [bind] in H; [|discriminate]. match type of H with context [to_uint A ?x] => destruct (to_uint A x) eqn:U0 end; cbn [bind] in H; [|discriminate].
        destruct (to_uint A (r_f1 r)) eqn:U1; cbn [bind] in H; [|discriminate]. injection H as <- <- _.
        unfold agrees. cbn. rewrite U0, U1. auto.
      * destruct (to_int A _); cbn [bind] in H; [|discriminate]. destruct (to_uint A (r_f0 r)) eqn:U0; cbn [bind] in H; [|discriminate].
        match type of H with context [to_uint A ?x] => destruct (to_uint A x) eqn:U1 end; cbn [bind] in H; [|discriminate]. injection H as <- <- _.
        unfold agrees. cbn. rewrite U0, U1. auto.
      * injection H as <- <- _. unfold agrees. cbn. auto.
      * injection H as <- <- _. unfold agrees. cbn. auto.
  - destruct (row_step_config _ _ _ _ _ _ _ _ H) as [C1 C2].
    { unfold key_w, key_s. destruct t; [auto|]. left. now rewrite andb_true_r in E. }
    unfold agrees. unfold config in C1. unfold calibration in C2. injection C1 as -> -> -> ->. injection C2 as -> -> -> ->. exact G.
Qed.

Definition all_agree (c : calib) : Prop := forall i r s, zget (c_tab c) i = Ok r -> zget (c_servos c) i = Ok s -> agrees r s.

Lemma step_agree c k c' ev : wf A c -> all_agree c -> calib_step A c k = Ok (c', ev) -> wf A c' /\ all_agree c'.
Proof.
  intros W G H. destruct (step_inv _ _ _ _ W H) as (r & s & r' & s' & ps & Hr & Hs & RS & -> & _).
  split; [now apply after_wf|]. pose proof W as (L1 & L2 & S). intros i x y. unfold after. cbn [c_tab c_servos].
  destruct (Z.eq_dec i (c_sel c)) as [->|NE].
  - rewrite !zget_upd_same by lia. intros [= <-] [= <-]. eapply row_step_agrees; eauto.
  - intros X Y. destruct (zget_nth _ _ _ X) as [BX _]. rewrite zlen_upd in BX.
    rewrite zget_upd_other in X by lia. rewrite zget_upd_other in Y by lia. eapply G; eauto.
Qed.
Lemma run_agree ks : forall c c' ev, wf A c -> all_agree c -> calib_run A c ks = Ok (c', ev) -> wf A c' /\ all_agree c'.
Proof.
  induction ks as [|k ks IH]; intros c c' ev W G H; cbn in H; [injection H as <- _; auto|].
  destruct (calib_step A c k) as [[c1 e1]|] eqn:E; cbn in H; [|discriminate].
  destruct (calib_run A c1 ks) as [[c2 e2]|] eqn:E2; cbn in H; [|discriminate]. injection H as <- _.
  destruct (step_agree _ _ _ _ W G E) as [W1 G1]. eapply IH; eauto.
Qed.

Lemma setup_servo_agrees i r s ev : setup_servo A i r = Ok (s, ev) -> agrees r s.
Proof.
  unfold setup_servo, servo_new. destruct (to_int A (r_pin r)); cbn [bind]; [|discriminate].
  destruct (to_uint A (r_f0 r)) eqn:U0; cbn [bind]; [|discriminate]. destruct (to_uint A (r_f1 r)) eqn:U1; cbn [bind]; [|discriminate].
  destruct (servo_move A _); cbn [bind]; [|discriminate]. intros [= <- _]. unfold agrees. cbn. auto.
Qed.
Lemma setup_servos_nth rs : forall i ss ev, setup_servos A i rs = Ok (ss, ev) ->
  length ss = length rs /\ forall n r s, nth_error rs n = Some r -> nth_error ss n = Some s -> exists e, setup_servo A (i + Z.of_nat n) r = Ok (s, e).
Proof.
  induction rs as [|r rs IH]; intros i ss ev H; cbn in H.
  - injection H as <- _. split; [reflexivity|]. intros [|n]; discriminate.
  - destruct (setup_servo A i r) as [[s e]|] eqn:E; cbn in H; [|discriminate].
    destruct (setup_servos A (i + 1) rs) as [[ss' e']|] eqn:E2; cbn in H; [|discriminate]. injection H as <- _.
    destruct (IH _ _ _ E2) as [L N]. split; [cbn; congruence|]. intros [|n] x y; cbn.
    + intros [= <-] [= <-]. rewrite Z.add_0_r. eauto.
    + intros X Y. destruct (N _ _ _ X Y) as [e'' Q]. exists e''. rewrite <- Q. f_equal. lia.
Qed.

Lemma setup_inv g c ev : length g = 6%nat -> calib_setup A g = Ok (c, ev) ->
  wf A c /\ all_agree c /\ c_sel c = 0 /\ c_set c = MOVE /\ c_test c = false /\ c_tab c = map (row_of A) g.
Proof.
  intros L H. unfold calib_setup in H. destruct (setup_servos A 0 _) as [[ss e]|] eqn:E; cbn in H; [|discriminate].
  injection H as <- _. destruct (setup_servos_nth _ _ _ _ E) as [LS N]. rewrite map_length in LS.
  unfold wf, all_agree. cbn. splits; auto; try lia.
  - unfold zlen. rewrite map_length. lia.
  - unfold zlen. lia.
  - intros i r s X Y. destruct (zget_nth _ _ _ X) as [BX NX]. destruct (zget_nth _ _ _ Y) as [BY NY].
    destruct (N _ _ _ NX NY) as [e' Q]. eapply setup_servo_agrees; eauto.
Qed.
End Any.

(** ** C74: whatever keys are pressed, nothing is accessed outside the tables; the only
    undefined behaviour is the conversion of a number that does not fit (see C75 below
    and C74_defined_partial for when that cannot happen). *)
Lemma run_bad A ks : forall c f, wf A c -> all_agree A c -> calib_run A c ks = Ub f -> f = BadConv.
Proof.
  induction ks as [|k ks IH]; intros c f W G H; cbn in H; [discriminate|].
  destruct (calib_step A c k) as [[c1 e1]|e] eqn:E; cbn in H.
  - destruct (step_agree A _ _ _ _ W G E) as [W1 G1].
    destruct (calib_run A c1 ks) as [[c2 e2]|e] eqn:E2; cbn in H; [discriminate|]. injection H as <-. eapply IH; eauto.
  - injection H as <-. pose proof W as (L1 & L2 & S).
    destruct (zget_some (c_tab c) (c_sel c)) as [r Hr]; [lia|]. destruct (zget_some (c_servos c) (c_sel c)) as [s Hs]; [lia|].
    pose proof (step_eq A c k r s W Hr Hs) as Q. destruct (row_step A _ _ k r s) as [[[r' s'] ps]|f] eqn:RS.
    + destruct Q as (ev & Q & _). congruence.
    + rewrite Q in E. injection E as <-. eapply row_step_bad; eauto.
Qed.
Theorem C74_never_outside : forall (A : arith) g c0 ev0 ks f, length g = 6%nat ->
  calib_setup A g = Ok (c0, ev0) -> calib_run A c0 ks = Ub f -> f = BadConv.
Proof. intros A g c0 ev0 ks f L S R. destruct (setup_inv A _ _ _ L S) as (W & G & _). eapply run_bad; eauto. Qed.
Print Assumptions C74_never_outside.

(** ** C75: what p prints is what the servos do, after every history *)
Theorem C75_printed : forall (A : arith) g c0 ev0 ks c ev, length g = 6%nat ->
  calib_setup A g = Ok (c0, ev0) -> calib_run A c0 ks = Ok (c, ev) ->
  exists rows, calib_run A c0 (ks ++ [112]) = Ok (c, ev ++ [CConfig rows]) /\ length rows = 6%nat /\
    forall i s, zget (c_servos c) i = Ok s -> exists x0 x1 d0 d1, zget rows i = Ok (x0, x1, d0, d1) /\
      to_uint A x0 = Ok (s_minF s) /\ to_uint A x1 = Ok (s_maxF s) /\
      d0 = dmul A (f2d A (s_min s)) (RAD_TO_DEG A) /\ d1 = dmul A (f2d A (s_max s)) (RAD_TO_DEG A).
Proof.
  intros A g c0 ev0 ks c ev L S R. destruct (setup_inv A _ _ _ L S) as (W & G & _).
  destruct (run_agree A ks _ _ _ W G R) as [W1 G1].
  exists (map (printed_row A) (c_tab c)). splits.
  - clear - R. revert c0 c ev R. induction ks as [|k ks IH]; intros c0 c ev R; cbn in R.
    + injection R as <- <-. cbn. unfold calib_step, on_key. cbn. now destruct (c_test c0).
    + destruct (calib_step A c0 k) as [[c1 e1]|] eqn:E; cbn in R; [|discriminate].
      destruct (calib_run A c1 ks) as [[c2 e2]|] eqn:E2; cbn in R; [|discriminate]. injection R as <- <-.
      cbn. rewrite E. cbn. rewrite (IH _ _ _ E2). cbn. now rewrite app_assoc.
  - rewrite map_length. destruct W1 as (L1 & _). unfold zlen in L1. lia.
  - intros i s Hs. destruct (zget_nth _ _ _ Hs) as [B N]. pose proof W1 as (L1 & L2 & _).
    destruct (zget_some (c_tab c) i) as [r Hr]; [lia|]. destruct (G1 i r s Hr Hs) as (G1' & G2 & G3 & G4).
    exists (r_f0 r), (r_f1 r), (dmul A (f2d A (r_a0 r)) (RAD_TO_DEG A)), (dmul A (f2d A (r_a1 r)) (RAD_TO_DEG A)).
    splits; auto; try congruence.
    destruct (zget_nth _ _ _ Hr) as [B' N']. apply zget_of_nth; [unfold zlen; rewrite map_length; exact B'|].
    rewrite nth_error_map, N'. reflexivity.
Qed.
Print Assumptions C75_printed.

(** the controller built from the printed numbers drives every angle with the pulse the
    calibration program drives it with *)
Theorem C75_same_pulses : forall (A : arith) g c0 ev0 ks c ev i r s angle vel home pin,
  length g = 6%nat -> calib_setup A g = Ok (c0, ev0) -> calib_run A c0 ks = Ok (c, ev) ->
  zget (c_tab c) i = Ok r -> zget (c_servos c) i = Ok s ->
  forall f0 f1 t p, to_uint A (r_f0 r) = Ok f0 -> to_uint A (r_f1 r) = Ok f1 ->
    servo_new A pin vel f0 f1 (r_a0 r) (r_a1 r) home = Ok (t, p) ->
    servo_move A (with_cur A t angle) = servo_move A (with_cur A s angle).
Proof.
  intros A g c0 ev0 ks c ev i r s angle vel home pin L S R Hr Hs f0 f1 t p F0 F1 H.
  destruct (setup_inv A _ _ _ L S) as (W & G & _). destruct (run_agree A ks _ _ _ W G R) as [W1 G1].
  destruct (G1 i r s Hr Hs) as (Q0 & Q1 & Q2 & Q3). rewrite F0 in Q0. rewrite F1 in Q1. injection Q0 as Q0. injection Q1 as Q1.
  unfold servo_new in H. destruct (servo_move A (mkServo A pin _ _ _ _ _ _ _ _ _ _ _ _)); cbn [bind] in H; [|discriminate].
  injection H as <- _. unfold servo_move. cbn. now rewrite <- Q0, <- Q1, Q2, Q3.
Qed.
Print Assumptions C75_same_pulses.

(** ** C76: a key changes what it says and nothing else *)
(** a servo that is never selected is never moved, and its calibration never changes *)
Theorem C76_only_selected : forall (A : arith) ks c c' ev i, wf A c -> calib_run A c ks = Ok (c', ev) ->
  0 <= i < 6 -> c_sel c <> i -> ~ In (48 + i) ks ->
  zget (c_tab c') i = zget (c_tab c) i /\ zget (c_servos c') i = zget (c_servos c) i /\
  forall us, ~ In (CPulse i us) ev.
Proof.
  intros A ks. induction ks as [|k ks IH]; intros c c' ev i W H I NS NK; cbn in H.
  - injection H as <- <-. auto.
  - destruct (calib_step A c k) as [[c1 e1]|] eqn:E; cbn in H; [|discriminate].
    destruct (calib_run A c1 ks) as [[c2 e2]|] eqn:E2; cbn in H; [|discriminate]. injection H as <- <-.
    destruct (step_inv A _ _ _ _ W E) as (r & s & r' & s' & ps & Hr & Hs & RS & -> & P).
    pose proof W as (L1 & L2 & S). pose proof (after_wf A c k r' s' W) as W1.
    assert (NS1 : c_sel (after A c k r' s') <> i).
    { unfold after, sel_after, digit. cbn [c_sel]. destruct ((48 <=? k) && (k <=? 53)); [|exact NS].
      intros Q. apply NK. left. lia. }
    destruct (IH _ _ _ i W1 E2 I NS1) as (T1 & T2 & T3); [intros Q; apply NK; now right|].
    rewrite T1, T2. unfold after. cbn [c_tab c_servos]. split; [apply zget_upd_other; lia|]. split; [apply zget_upd_other; lia|].
    intros us Q. apply in_app_or in Q as [Q|Q]; [|eapply T3; eauto].
    assert (IN : In (i, us) (pulses A e1)).
    { unfold pulses. apply in_flat_map. exists (CPulse i us). split; [exact Q|now left]. }
    rewrite P in IN. unfold sent in IN. destruct (s_virtual s); [contradiction|].
    apply in_map_iff in IN as (q & EQ & _). injection EQ as EQ _. now apply NS.
Qed.
Print Assumptions C76_only_selected.

(** the calibration of a servo changes only by w and s, and only in one of the modes
    t, z, e, r of the calibrating mode (m switches it off) *)
Lemma step_config A c k c' ev : wf A c -> calib_step A c k = Ok (c', ev) ->
  (k =? key_w) || (k =? key_s) = false \/ c_set c = MOVE \/ c_test c = true ->
  map (config A) (c_tab c') = map (config A) (c_tab c).
Proof.
  intros W H K. destruct (step_inv A _ _ _ _ W H) as (r & s & r' & s' & ps & Hr & Hs & RS & -> & _).
  destruct (row_step_config A _ _ _ _ _ _ _ _ RS K) as [C _]. unfold after. cbn [c_tab].
  destruct (zget_nth _ _ _ Hr) as [_ N]. revert N. generalize (Z.to_nat (c_sel c)). generalize (c_tab c). clear - C.
  induction l as [|x l IH]; intros [|n] N; cbn in *; try discriminate.
  - injection N as ->. now rewrite C.
  - now rewrite IH.
Qed.
Theorem C76_config_kept : forall (A : arith) ks c c' ev, wf A c -> calib_run A c ks = Ok (c', ev) ->
  (forall k, In k ks -> k <> key_w /\ k <> key_s) \/
  (c_set c = MOVE /\ forall k, In k ks -> ~ In k (typed "tzer"%string)) \/
  (c_test c = true /\ forall k, In k ks -> ~ In k (typed "m"%string)) ->
  map (config A) (c_tab c') = map (config A) (c_tab c).
Proof.
  intros A ks. induction ks as [|k ks IH]; intros c c' ev W H K; cbn in H.
  - now injection H as <- <-.
  - destruct (calib_step A c k) as [[c1 e1]|] eqn:E; cbn in H; [|discriminate].
    destruct (calib_run A c1 ks) as [[c2 e2]|] eqn:E2; cbn in H; [|discriminate]. injection H as <- <-.
    destruct (step_inv A _ _ _ _ W E) as (r & s & r' & s' & ps & Hr & Hs & RS & E1 & P).
    assert (W1 : wf A c1) by (rewrite E1; now apply after_wf).
    rewrite (IH _ _ _ W1 E2).
    + eapply step_config; eauto. destruct K as [K|[[K _]|[K _]]]; auto.
      left. destruct (K k (or_introl eq_refl)) as [N1 N2]. apply orb_false_iff. split; now apply Z.eqb_neq.
    + destruct K as [K|[[K1 K2]|[K1 K2]]].
      * left. intros; apply K; now right.
      * right. left. split; [|intros; apply K2; now right]. rewrite E1. unfold after, set_after. cbn [c_set]. rewrite K1.
        specialize (K2 k (or_introl eq_refl)). cbn in K2.
        destruct (Z.eqb_spec k 101); [subst; tauto|]. destruct (Z.eqb_spec k 114); [subst; tauto|].
        destruct (Z.eqb_spec k 116); [subst; tauto|]. destruct (Z.eqb_spec k 122); [subst; tauto|]. now destruct (k =? 110).
      * right. right. split; [|intros; apply K2; now right]. rewrite E1. unfold after, test_after. cbn [c_test]. rewrite K1.
        specialize (K2 k (or_introl eq_refl)). cbn in K2. destruct (Z.eqb_spec k 109); [subst; tauto|reflexivity].
Qed.
Print Assumptions C76_config_kept.
