(** * CalibProofs: the calibration program acts on one row and one servo at a time. *)
From Verif Require Import Base Arith ServoModel RobotModel CalibModel.

Section P.
Context (A : arith).
Notation float := (F A).
Notation row := (row A).
Notation calib := (calib A).
Notation cev := (cev A).

(** the pulses among the events: (servo, microseconds) *)
Definition pulses (ev : list cev) : list (Z * Z) :=
  flat_map (fun e => match e with CPulse i p => [(i, p)] | _ => [] end) ev.
Lemma pulses_app a b : pulses (a ++ b) = pulses a ++ pulses b.
Proof. apply flat_map_app. Qed.

(** six rows, six servos, one of them selected *)
Definition wf (c : calib) : Prop :=
  zlen (c_tab c) = 6 /\ zlen (c_servos c) = 6 /\ 0 <= c_sel c < 6.

Definition digit (k : Z) : bool := (48 <=? k) && (k <=? 53).
Definition sel_after (k sel : Z) : Z := if digit k then k - 48 else sel.
Definition set_after (k : Z) (m : setmode) : setmode :=
  if k =? 101 then ANGLE_MIN else if k =? 114 then ANGLE_MAX else if k =? 116 then FREQ_MIN
  else if k =? 122 then FREQ_MAX else if k =? 110 then MOVE else m.
Definition test_after (k : Z) (t : bool) : bool := if k =? 109 then negb t else t.

Definition move_row (r : row) (s : servo A) (angle : float) : res (row * servo A * list Z) :=
  do (s', p) <- servo_process A (servo_set_target A s angle) 10000;
  Ok (with_rcur A r (fofz A p), s', [p]).
Definition drive_row (r : row) (s : servo A) (x : float) : res (row * servo A * list Z) :=
  do n <- to_int A x; Ok (with_rcur A r x, s, [n]).

(** what one key does to the selected row and servo, and the pulses it sends *)
Definition row_step (m : setmode) (test : bool) (k : Z) (r : row) (s : servo A) : res (row * servo A * list Z) :=
  if k =? 116 then if is_min m then drive_row r s (r_f0 r) else Ok (r, s, [])
  else if k =? 122 then if is_max m then drive_row r s (r_f1 r) else Ok (r, s, [])
  else if k =? 113 then move_row r s (fofz A 0)
  else if k =? 97 then move_row r s (r_a0 r)
  else if k =? 100 then move_row r s (r_a1 r)
  else if ((k =? 119) || (k =? 115)) && negb test then
    match m with
    | ANGLE_MIN | ANGLE_MAX =>
        let step := fun x : float => d2f A ((if k =? 119 then dadd A else dsub A) (f2d A x) (DEG_TO_RAD A)) in
        let r' := match m with ANGLE_MIN => with_ra0 A r (step (r_a0 r)) | _ => with_ra1 A r (step (r_a1 r)) end in
        Ok (r', servo_set_limits A s (r_a0 r') (r_a1 r'), [])
    | FREQ_MIN | FREQ_MAX =>
        let x := (if k =? 119 then fadd A else fsub A) (r_cur r) (fofz A 1) in
        let r' := with_rcur A (if is_min m then with_rf0 A r x else with_rf1 A r x) x in
        do n <- to_int A x; do f0 <- to_uint A (r_f0 r'); do f1 <- to_uint A (r_f1 r');
        Ok (r', servo_set_calibration A s f0 f1, [n])
    | MOVE =>
        let x := (if k =? 119 then fadd A else fsub A) (r_cur r) (fofz A 10) in
        do n <- to_int A x; Ok (with_rcur A r x, s, [n])
    end
  else Ok (r, s, []).

Lemma upd_id {B} (l : list B) n a : nth_error l n = Some a -> upd l n a = l.
Proof.
  revert n; induction l as [|b l IH]; intros [|n] H; cbn in *; try discriminate; f_equal; auto. congruence.
Qed.
Lemma zget_nth {B} (l : list B) i a : zget l i = Ok a -> 0 <= i < zlen l /\ nth_error l (Z.to_nat i) = Some a.
Proof.
  unfold zget. destruct ((0 <=? i) && (i <? zlen l)) eqn:E; [|discriminate].
  apply andb_true_iff in E as [E1 E2]. apply Z.leb_le in E1; apply Z.ltb_lt in E2.
  destruct (nth_error l (Z.to_nat i)); [|discriminate]. intros [= <-]. split; [lia|reflexivity].
Qed.
Lemma zget_of_nth {B} (l : list B) i a : 0 <= i < zlen l -> nth_error l (Z.to_nat i) = Some a -> zget l i = Ok a.
Proof.
  intros H N. unfold zget. rewrite N.
  now replace ((0 <=? i) && (i <? zlen l)) with true
    by (symmetry; apply andb_true_iff; split; [apply Z.leb_le | apply Z.ltb_lt]; lia).
Qed.
Lemma zget_some {B} (l : list B) i : 0 <= i < zlen l -> exists a, zget l i = Ok a.
Proof.
  intros H. destruct (nth_error l (Z.to_nat i)) eqn:E; [eexists; eapply zget_of_nth; eauto|].
  apply nth_error_None in E. unfold zlen in H. lia.
Qed.
Lemma zget_upd_same {B} (l : list B) i a : 0 <= i < zlen l -> zget (upd l (Z.to_nat i) a) i = Ok a.
Proof.
  intros H. apply zget_of_nth; [now rewrite zlen_upd|]. apply nth_error_upd_same. unfold zlen in H. lia.
Qed.
Lemma zget_upd_other {B} (l : list B) i j a : 0 <= i -> 0 <= j -> i <> j -> zget (upd l (Z.to_nat i) a) j = zget l j.
Proof.
  intros H0 H1 H. unfold zget. rewrite zlen_upd. now rewrite nth_error_upd_other by lia.
Qed.

Lemma status_ok c : wf c -> exists e, status A c = Ok e /\ pulses e = [].
Proof.
  intros (L1 & L2 & S). destruct (zget_some (c_tab c) (c_sel c)) as [r Hr]; [lia|].
  unfold status. rewrite Hr. cbn [bind]. eexists. split; reflexivity.
Qed.

(** the events of a step, with the pulses sent to the selected servo (none if virtual) *)
Definition sent (c : calib) (s : servo A) (ps : list Z) : list (Z * Z) :=
  if s_virtual s then [] else map (fun p => (c_sel c, p)) ps.
Definition after (c : calib) (k : Z) (r : row) (s : servo A) : calib :=
  mkCalib A (upd (c_tab c) (Z.to_nat (c_sel c)) r) (upd (c_servos c) (Z.to_nat (c_sel c)) s)
    (sel_after k (c_sel c)) (set_after k (c_set c)) (test_after k (c_test c)).

Lemma after_wf c k r s : wf c -> wf (after c k r s).
Proof.
  intros (L1 & L2 & S). unfold wf, after. cbn [c_tab c_servos c_sel]. rewrite !zlen_upd.
  repeat split; try assumption; unfold sel_after, digit;
    destruct ((48 <=? k) && (k <=? 53)) eqn:E; try lia; apply andb_true_iff in E as [E1 E2]; lia.
Qed.

Theorem step_eq c k r s : wf c -> zget (c_tab c) (c_sel c) = Ok r -> zget (c_servos c) (c_sel c) = Ok s ->
  match row_step (c_set c) (c_test c) k r s with
  | Ub f => calib_step A c k = Ub f
  | Ok (r', s', ps) => exists ev, calib_step A c k = Ok (after c k r' s', ev) /\ pulses ev = sent c s ps
  end.
Proof.
  intros W Hr Hs. pose proof W as (L1 & L2 & S).
  destruct (zget_nth _ _ _ Hr) as [B1 N1]. destruct (zget_nth _ _ _ Hs) as [B2 N2].
  pose proof (upd_id _ _ _ N1) as U1. pose proof (upd_id _ _ _ N2) as U2.
  assert (KEEP : forall ev1 ch k', (k' =? 119) || (k' =? 115) = false -> forall c' r' s', c' = after c k' r' s' ->
            on_key A c k' = Ok (c', ev1, ch) ->
            exists ev, calib_step A c k' = Ok (c', ev) /\ pulses ev = pulses ev1).
  { intros ev1 ch k' NK c' r' s' E H. unfold calib_step. rewrite H. cbn [bind].
    destruct (c_test c') eqn:T; [eexists; split; reflexivity|].
    unfold on_nudge. rewrite NK. cbn [bind]. rewrite orb_false_r.
    destruct ch; cbn [bind].
    - destruct (status_ok c') as (e & -> & P); [subst c'; now apply after_wf|]. cbn [bind].
      eexists. split; [reflexivity|]. rewrite !pulses_app, P. cbn. now rewrite app_nil_r.
    - eexists. split; [reflexivity|]. rewrite !pulses_app. cbn. now rewrite app_nil_r. }
  assert (SF : forall x, set_frequency A c (c_sel c) x = do n <- to_int A x; Ok (if s_virtual s then [] else [CPulse (c_sel c) n])).
  { intros x. unfold set_frequency. destruct (to_int A x); cbn [bind]; [|reflexivity]. now rewrite Hs. }
  assert (NO : sent c s [] = []) by (unfold sent; now destruct (s_virtual s)).
  assert (ONE : forall n, pulses (if s_virtual s then [] else [CPulse (c_sel c) n]) = sent c s [n]) by (intros n; unfold sent; now destruct (s_virtual s)).
  assert (ZT : forall v, zset (c_tab c) (c_sel c) v = Ok (upd (c_tab c) (Z.to_nat (c_sel c)) v)) by (intros; apply zset_ok; lia).
  assert (ZS : forall v, zset (c_servos c) (c_sel c) v = Ok (upd (c_servos c) (Z.to_nat (c_sel c)) v)) by (intros; apply zset_ok; lia).
  assert (ID : forall k', digit k' = false -> set_after k' (c_set c) = c_set c -> test_after k' (c_test c) = c_test c -> c = after c k' r s).
  { intros k' D S1 S2. unfold after, sel_after. rewrite D, S1, S2, U1, U2. now destruct c. }
  assert (DR : forall (pl : row -> float), drive_to A c pl = do (r', s', ps) <- drive_row r s (pl r);
            Ok (mkCalib A (upd (c_tab c) (Z.to_nat (c_sel c)) r') (upd (c_servos c) (Z.to_nat (c_sel c)) s') (c_sel c) (c_set c) (c_test c),
                if s_virtual s then [] else map (CPulse (c_sel c)) ps)).
  { intros pl. unfold drive_to, drive_row. rewrite Hr. cbn [bind]. rewrite ZT. cbn [bind]. rewrite SF. cbn [r_cur with_rcur].
    destruct (to_int A (pl r)); cbn [bind]; [|reflexivity]. unfold with_tab. now rewrite U2. }
  assert (MV : forall x, move_to_angle A c (c_sel c) x = do (r', s', ps) <- move_row r s x;
            Ok (mkCalib A (upd (c_tab c) (Z.to_nat (c_sel c)) r') (upd (c_servos c) (Z.to_nat (c_sel c)) s') (c_sel c) (c_set c) (c_test c),
                CMoving x :: if s_virtual s then [] else map (CPulse (c_sel c)) ps)).
  { intros x. unfold move_to_angle, move_row. rewrite Hs. cbn [bind].
    destruct (servo_process A (servo_set_target A s x) 10000) as [[s' p]|]; cbn [bind]; [|reflexivity].
    rewrite ZS. cbn [bind]. rewrite Hr. cbn [bind]. rewrite ZT. reflexivity. }
  assert (PM : forall ps, pulses (if s_virtual s then [] else map (CPulse (c_sel c)) ps) = sent c s ps).
  { intros ps. unfold sent. destruct (s_virtual s); [reflexivity|]. induction ps as [|p ps IH]; [reflexivity|]. cbn. now rewrite <- IH. }
  unfold row_step.
  destruct (Z.eqb_spec k 116) as [->|N116].
  { assert (KK : on_key A c 116 = do (c', ev) <- (if is_min (c_set c) then drive_to A c r_f0 else Ok (c, [])); Ok (with_set A c' FREQ_MIN, ev, true)) by reflexivity.
    destruct (is_min (c_set c)).
    - rewrite DR in KK. destruct (drive_row r s (r_f0 r)) as [[[r' s'] ps]|f]; cbn [bind] in KK.
      + destruct (KEEP _ _ 116 eq_refl _ r' s' eq_refl KK) as (ev & E & P).
        exists ev. split; [exact E|]. now rewrite P, PM.
      + unfold calib_step. now rewrite KK.
    - cbn [bind] in KK.
      destruct (KEEP _ _ 116 eq_refl _ r s ltac:(unfold with_set, after, sel_after; rewrite U1, U2; reflexivity) KK) as (ev & E & P).
      exists ev. split; [|now rewrite P, NO]. rewrite E. unfold with_set, after, sel_after. now rewrite U1, U2. }
  destruct (Z.eqb_spec k 122) as [->|N122].
  { assert (KK : on_key A c 122 = do (c', ev) <- (if is_max (c_set c) then drive_to A c r_f1 else Ok (c, [])); Ok (with_set A c' FREQ_MAX, ev, true)) by reflexivity.
    destruct (is_max (c_set c)).
    - rewrite DR in KK. destruct (drive_row r s (r_f1 r)) as [[[r' s'] ps]|f]; cbn [bind] in KK.
      + destruct (KEEP _ _ 122 eq_refl _ r' s' eq_refl KK) as (ev & E & P).
        exists ev. split; [exact E|]. now rewrite P, PM.
      + unfold calib_step. now rewrite KK.
    - cbn [bind] in KK.
      destruct (KEEP _ _ 122 eq_refl _ r s ltac:(unfold with_set, after, sel_after; rewrite U1, U2; reflexivity) KK) as (ev & E & P).
      exists ev. split; [|now rewrite P, NO]. rewrite E. unfold with_set, after, sel_after. now rewrite U1, U2. }
  assert (GO : forall x k', on_key A c k' = (do (c', ev) <- move_to_angle A c (c_sel c) x; Ok (c', ev, true)) -> 
             (k' =? 119) || (k' =? 115) = false -> digit k' = false -> set_after k' (c_set c) = c_set c -> test_after k' (c_test c) = c_test c ->
             match move_row r s x with
             | Ok (r', s', ps) => exists ev, calib_step A c k' = Ok (after c k' r' s', ev) /\ pulses ev = sent c s ps
             | Ub f => calib_step A c k' = Ub f end).
  { intros x k' KK NK D S1 S2. rewrite MV in KK. destruct (move_row r s x) as [[[r' s'] ps]|f]; cbn [bind] in KK.
    - destruct (KEEP _ _ k' NK _ r' s' ltac:(unfold after, sel_after; rewrite D, S1, S2; reflexivity) KK) as (ev & E & P).
      exists ev. split; [rewrite E; unfold after, sel_after; now rewrite D, S1, S2|]. rewrite P. apply PM.
    - unfold calib_step. now rewrite KK. }
  destruct (Z.eqb_spec k 113) as [->|N113]; [apply GO; reflexivity|].
  destruct (Z.eqb_spec k 97) as [->|N97].
  { apply GO; try reflexivity. unfold on_key. cbn. now rewrite Hr. }
  destruct (Z.eqb_spec k 100) as [->|N100].
  { apply GO; try reflexivity. unfold on_key. cbn. now rewrite Hr. }
  destruct ((k =? 119) || (k =? 115)) eqn:WS.
  - (* w, s *)
    assert (KK : on_key A c k = Ok (c, [], false)) by (apply orb_true_iff in WS as [E|E]; apply Z.eqb_eq in E; subst k; reflexivity).
    assert (IDK : digit k = false /\ set_after k (c_set c) = c_set c /\ test_after k (c_test c) = c_test c)
      by (apply orb_true_iff in WS as [E|E]; apply Z.eqb_eq in E; subst k; auto).
    destruct IDK as (D & S1 & S2).
    unfold calib_step. rewrite KK. cbn [bind].
    destruct (c_test c) eqn:T; cbn [andb negb].
    { exists []. split; [|now rewrite NO]. now rewrite <- (ID k D S1 S2). }
    unfold on_nudge. rewrite WS.
    assert (FIN : forall e1 r' s' ps,
      pulses e1 = sent c s ps ->
      exists ev, (do (c2, ev2, ch2) <- (do (c', ev) <- Ok (mkCalib A (upd (c_tab c) (Z.to_nat (c_sel c)) r') (upd (c_servos c) (Z.to_nat (c_sel c)) s') (c_sel c) (c_set c) (c_test c), e1); Ok (c', ev, true));
           do ev3 <- (if false || ch2 then status A c2 else Ok []); Ok (c2, [] ++ ev2 ++ ev3)) =
         Ok (after c k r' s', ev) /\ pulses ev = sent c s ps).
    { intros e1 r' s' ps P. cbn [bind orb].
      assert (EQ : mkCalib A (upd (c_tab c) (Z.to_nat (c_sel c)) r') (upd (c_servos c) (Z.to_nat (c_sel c)) s') (c_sel c) (c_set c) (c_test c) = after c k r' s')
        by (unfold after, sel_after; now rewrite D, S1, T, S2).
      rewrite EQ. destruct (status_ok (after c k r' s')) as (e & -> & PE); [now apply after_wf|]. cbn [bind app].
      eexists. split; [reflexivity|]. now rewrite pulses_app, PE, app_nil_r. }
    rewrite T in FIN.
    destruct (c_set c) eqn:M; cbn [is_min].
    + unfold nudge_pulse. rewrite Hr. cbn [bind]. rewrite ZT. cbn [bind]. rewrite SF, M. cbn [is_min r_cur with_rcur].
      destruct (to_int A ((if k =? 119 then fadd A else fsub A) (r_cur r) (fofz A 1))) as [n|] eqn:TI; cbn [bind]; [|reflexivity].
      destruct (to_uint A _) as [f0|] eqn:T0; cbn [bind]; [|reflexivity].
      destruct (to_uint A (r_f1 _)) as [f1|] eqn:T1; cbn [bind]; [|reflexivity].
      rewrite Hs. cbn [bind]. rewrite ZS. cbn [bind]. unfold with_servos, with_tab. cbn [c_tab c_servos c_sel c_set c_test]. rewrite M, T.
      apply FIN. apply ONE.
    + unfold nudge_pulse. rewrite Hr. cbn [bind]. rewrite ZT. cbn [bind]. rewrite SF, M. cbn [is_min r_cur with_rcur].
      destruct (to_int A ((if k =? 119 then fadd A else fsub A) (r_cur r) (fofz A 1))) as [n|] eqn:TI; cbn [bind]; [|reflexivity].
      destruct (to_uint A _) as [f0|] eqn:T0; cbn [bind]; [|reflexivity].
      destruct (to_uint A (r_f1 _)) as [f1|] eqn:T1; cbn [bind]; [|reflexivity].
      rewrite Hs. cbn [bind]. rewrite ZS. cbn [bind]. unfold with_servos, with_tab. cbn [c_tab c_servos c_sel c_set c_test]. rewrite M, T.
      apply FIN. apply ONE.
    + unfold nudge_angle. rewrite Hr. cbn [bind]. rewrite ZT, M. cbn [bind]. rewrite Hs. cbn [bind]. rewrite ZS. cbn [bind].
      unfold with_servos, with_tab. cbn [c_tab c_servos c_sel c_set c_test]. rewrite M, T.
      apply FIN. rewrite NO. destruct (flt A _ _); reflexivity.
    + unfold nudge_angle. rewrite Hr. cbn [bind]. rewrite ZT, M. cbn [bind]. rewrite Hs. cbn [bind]. rewrite ZS. cbn [bind].
      unfold with_servos, with_tab. cbn [c_tab c_servos c_sel c_set c_test]. rewrite M, T.
      apply FIN. rewrite NO. destruct (flt A _ _); reflexivity.
    + unfold nudge_move. rewrite Hr. cbn [bind]. rewrite ZT. cbn [bind]. rewrite SF. cbn [r_cur with_rcur].
      destruct (to_int A _) as [n|] eqn:TI; cbn [bind]; [|reflexivity].
      unfold with_tab. rewrite M, T. pose proof (fun e r' => FIN e r' s [n]) as Q. rewrite U2 in Q. apply Q. apply ONE.
  - (* the other keys *)
    cbn [andb]. rewrite NO.
    assert (AL : forall e1 ch, on_key A c k = Ok (after c k r s, e1, ch) -> pulses e1 = [] ->
              exists ev, calib_step A c k = Ok (after c k r s, ev) /\ pulses ev = []).
    { intros e1 ch KK P. destruct (KEEP e1 ch k WS _ r s eq_refl KK) as (ev & E & PE). exists ev. split; [exact E|congruence]. }
    unfold after, sel_after in AL. rewrite U1, U2 in AL. unfold after, sel_after. rewrite U1, U2.
    unfold on_key, set_after, test_after, digit in AL. unfold set_after, test_after, digit.
    destruct (Z.eqb_spec k 104) as [->|]; [eapply AL; destruct c; reflexivity|].
    destruct (Z.eqb_spec k 101) as [->|]; [eapply AL; destruct c; reflexivity|].
    destruct (Z.eqb_spec k 114) as [->|]; [eapply AL; destruct c; reflexivity|].
    destruct (Z.eqb_spec k 116) as [->|]; [congruence|].
    destruct (Z.eqb_spec k 122) as [->|]; [congruence|].
    destruct (Z.eqb_spec k 110) as [->|]; [eapply AL; destruct c; reflexivity|].
    destruct ((48 <=? k) && (k <=? 53)) eqn:DG.
    { assert ((k =? 109) = false) as K109 by (apply Z.eqb_neq; apply andb_true_iff in DG as [_ DG]; apply Z.leb_le in DG; lia).
      rewrite K109 in *. eapply AL; destruct c; reflexivity. }
    destruct (Z.eqb_spec k 113) as [->|]; [congruence|].
    destruct (Z.eqb_spec k 97) as [->|]; [congruence|].
    destruct (Z.eqb_spec k 100) as [->|]; [congruence|].
    destruct (Z.eqb_spec k 112) as [->|]; [eapply AL; destruct c; reflexivity|].
    destruct (Z.eqb_spec k 109) as [->|]; [eapply AL; destruct c; reflexivity|].
    eapply AL; destruct c; reflexivity.
Qed.
End P.
