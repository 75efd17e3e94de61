(** * CalibMoves: the calibration program on plausible tables, for any arithmetic in
    which the few facts of the section's hypotheses hold (discharged for exact and for
    IEEE arithmetic in PropCalibMove.v). *)
From Coq Require Import Reals Lra.
From Verif Require Import Base Arith ServoModel ServoProofs RobotModel CalibModel CalibProofs PropCalib.

Section V.
Context (A : arith) (is : F A -> R -> Prop).
Notation row := (row A).
Notation calib := (calib A).

(** a plausible row: pulses are whole microseconds between lo and hi, the angles are
    within 10 rad, zero (home) is between them, and they are at least 0.4 rad apart *)
Definition plausible_at (lo hi : Z) (r : row) (n m k : Z) (a0 a1 : R) : Prop :=
  is (r_cur r) (IZR n) /\ is (r_f0 r) (IZR m) /\ is (r_f1 r) (IZR k) /\ is (r_a0 r) a0 /\ is (r_a1 r) a1 /\
    lo <= n <= hi /\ lo <= m <= hi /\ lo <= k <= hi /\
    (-10 <= a0 <= 0)%R /\ (0 <= a1 <= 10)%R /\ (4 / 10 <= a1 - a0)%R.
Definition plausible (lo hi : Z) (r : row) : Prop := exists n m k a0 a1, plausible_at lo hi r n m k a0 a1.

(** the row of the selected servo is plausible before every key *)
Definition stays_plausible (lo hi : Z) (c0 : calib) (ks : list Z) : Prop :=
  forall ks1 ks2 c ev r, ks = ks1 ++ ks2 -> calib_run A c0 ks1 = Ok (c, ev) -> zget (c_tab c) (c_sel c) = Ok r -> plausible lo hi r.

Hypothesis h_int : forall n, Z.abs n <= 16777216 -> is (fofz A n) (IZR n).
Hypothesis h_add : forall x y m n, is x (IZR m) -> is y (IZR n) -> Z.abs (m + n) <= 16777216 -> is (fadd A x y) (IZR (m + n)).
Hypothesis h_sub : forall x y m n, is x (IZR m) -> is y (IZR n) -> Z.abs (m - n) <= 16777216 -> is (fsub A x y) (IZR (m - n)).
Hypothesis h_trunc : forall x n, is x (IZR n) -> ftoz A x = Some n.
(** a servo aimed at x from within 10 rad of zero, at 100 rad/s for 10 s, is there *)
Hypothesis h_there : forall (s : servo A) t x y, s_vel s = fofz A 100 -> is (s_cur s) x -> is t y -> (-10 <= x <= 10)%R -> (-10 <= y <= 10)%R ->
  s_cur (servo_advance A (servo_set_target A s t) 10000) = t /\ s_vel (servo_advance A (servo_set_target A s t) 10000) = s_vel s.
(** pulses between the limits *)
Hypothesis h_move : forall (s : servo A) a0 a1 x, is (s_min s) a0 -> is (s_max s) a1 -> is (s_cur s) x ->
  (-10 <= a0)%R -> (a1 <= 10)%R -> (4 / 10 <= a1 - a0)%R -> (a0 <= x <= a1)%R ->
  0 <= s_minF s <= 32767 -> 0 <= s_maxF s <= 32767 ->
  exists p, servo_move A s = Ok p /\ Z.min (s_minF s) (s_maxF s) - 1 <= p <= Z.max (s_minF s) (s_maxF s).

Definition at_rest (s : servo A) : Prop := s_vel s = fofz A 100 /\ exists x, is (s_cur s) x /\ (-10 <= x <= 10)%R.

Lemma v_to_int x n : is x (IZR n) -> -2147483648 <= n <= 2147483647 -> to_int A x = Ok n.
Proof.
  intros H B. unfold to_int. rewrite (h_trunc x n H).
  now replace ((-2147483648 <=? n) && (n <=? 2147483647)) with true by (symmetry; apply andb_true_iff; split; apply Z.leb_le; lia).
Qed.
Lemma v_to_uint x n : is x (IZR n) -> 0 <= n <= 4294967295 -> to_uint A x = Ok n.
Proof.
  intros H B. unfold to_uint. rewrite (h_trunc x n H).
  now replace ((0 <=? n) && (n <=? 4294967295)) with true by (symmetry; apply andb_true_iff; split; apply Z.leb_le; lia).
Qed.

(** the move of q, a and d *)
Lemma move_row_ok lo hi r s t y n m k a0 a1 : 1 <= lo -> hi <= 32000 -> plausible_at lo hi r n m k a0 a1 -> agrees A r s -> at_rest s -> is t y ->
  (a0 <= y <= a1)%R ->
  exists s' p, move_row A r s t = Ok (with_rcur A r (fofz A p), s', [p]) /\ at_rest s' /\ s_cur s' = t /\ lo - 1 <= p <= hi /\
    servo_move A s' = Ok p /\ s_minF s' = m /\ s_maxF s' = k /\ s_min s' = r_a0 r /\ s_max s' = r_a1 r.
Proof.
  intros Lo Hi (Vn & Vm & Vk & V0 & V1 & Bn & Bm & Bk & B0 & B1 & BD) (G0 & G1 & G2 & G3) (SV & x & SC & SB) Vt Y.
  rewrite (v_to_uint _ _ Vm) in G0 by lia. rewrite (v_to_uint _ _ Vk) in G1 by lia. injection G0 as G0. injection G1 as G1.
  destruct (h_there s t x y SV SC Vt) as [C1 C2]; [lra|lra|].
  set (s' := servo_advance A (servo_set_target A s t) 10000) in *.
  assert (CAL : calibration A s' = calibration A s).
  { unfold s', servo_advance, calibration. repeat destruct (flt A _ _); reflexivity. }
  unfold calibration in CAL. injection CAL as E1 E2 E3 E4.
  destruct (h_move s' a0 a1 y) as (p & MP & PB); rewrite ?E1, ?E2, ?E3, ?E4, ?G2, ?G3, ?C1; auto; try lra; try lia.
  rewrite E1, E2 in PB.
  exists s', p. unfold move_row, servo_process. fold s'. rewrite MP. cbn [bind]. splits; auto; try lia; try congruence.
  split; [congruence|]. exists y. rewrite C1. split; [exact Vt|lra].
Qed.

Lemma row_step_ok lo hi m t k r s : 1 <= lo -> hi <= 32000 -> plausible lo hi r -> agrees A r s -> at_rest s ->
  exists r' s' ps, row_step A m t k r s = Ok (r', s', ps) /\ at_rest s' /\ forall p, In p ps -> lo - 10 <= p <= hi + 10.
Proof.
  intros Lo Hi P G K. destruct P as (n & fm & fk & a0 & a1 & P).
  pose proof P as (Vn & Vm & Vk & V0 & V1 & Bn & Bm & Bk & B0 & B1 & BD).
  assert (MV : forall x y, is x y -> (a0 <= y <= a1)%R ->
     exists r' s' ps, move_row A r s x = Ok (r', s', ps) /\ at_rest s' /\ forall p, In p ps -> lo - 10 <= p <= hi + 10).
  { intros x y Vx Y. destruct (move_row_ok lo hi r s x y _ _ _ _ _ Lo Hi P G K Vx Y) as (s' & p & E & K' & _ & PB & _).
    exists (with_rcur A r (fofz A p)), s', [p]. splits; auto. intros q [<-|[]]. lia. }
  assert (NIL : forall p : Z, In p [] -> lo - 10 <= p <= hi + 10) by (intros p []).
  assert (NU : forall d (up : bool), 0 <= d <= 10 -> is ((if up then fadd A else fsub A) (r_cur r) (fofz A d)) (IZR (if up then n + d else n - d))).
  { intros d up B. destruct up; [apply h_add|apply h_sub]; auto; try lia; apply h_int; lia. }
  unfold row_step, drive_row.
  destruct (k =? 116).
  { destruct (is_min m); [|exists r, s, []; auto]. rewrite (v_to_int _ _ Vm) by lia. cbn [bind].
    exists (with_rcur A r (r_f0 r)), s, [fm]. splits; auto. intros q [<-|[]]. lia. }
  destruct (k =? 122).
  { destruct (is_max m); [|exists r, s, []; auto]. rewrite (v_to_int _ _ Vk) by lia. cbn [bind].
    exists (with_rcur A r (r_f1 r)), s, [fk]. splits; auto. intros q [<-|[]]. lia. }
  destruct (k =? 113); [apply (MV _ 0%R); [apply (h_int 0); lia|lra]|].
  destruct (k =? 97); [apply (MV _ a0 V0); lra|].
  destruct (k =? 100); [apply (MV _ a1 V1); lra|].
  destruct (((k =? 119) || (k =? 115)) && negb t); [|exists r, s, []; auto].
  destruct m; cbn [is_min].
  - pose proof (NU 1 (k =? 119) ltac:(lia)) as V.
    rewrite (v_to_int _ _ V) by (destruct (k =? 119); lia). cbn [bind with_rcur with_rf0 r_f0 r_f1].
    rewrite (v_to_uint _ _ V) by (destruct (k =? 119); lia). cbn [bind]. rewrite (v_to_uint _ _ Vk) by lia. cbn [bind].
    eexists _, _, _. split; [reflexivity|]. split; [exact K|]. intros q [<-|[]]. destruct (k =? 119); lia.
  - pose proof (NU 1 (k =? 119) ltac:(lia)) as V.
    rewrite (v_to_int _ _ V) by (destruct (k =? 119); lia). cbn [bind with_rcur with_rf1 r_f0 r_f1].
    rewrite (v_to_uint _ _ Vm) by lia. cbn [bind]. rewrite (v_to_uint _ _ V) by (destruct (k =? 119); lia). cbn [bind].
    eexists _, _, _. split; [reflexivity|]. split; [exact K|]. intros q [<-|[]]. destruct (k =? 119); lia.
  - eexists _, _, _. split; [reflexivity|]. split; [exact K|exact NIL].
  - eexists _, _, _. split; [reflexivity|]. split; [exact K|exact NIL].
  - pose proof (NU 10 (k =? 119) ltac:(lia)) as V.
    rewrite (v_to_int _ _ V) by (destruct (k =? 119); lia). cbn [bind].
    eexists _, _, _. split; [reflexivity|]. split; [exact K|]. intros q [<-|[]]. destruct (k =? 119); lia.
Qed.

Definition rests (c : calib) : Prop := forall i s, zget (c_servos c) i = Ok s -> at_rest s.

Lemma run_ok lo hi ks : 1 <= lo -> hi <= 32000 -> forall c, wf A c -> all_agree A c -> rests c -> stays_plausible lo hi c ks ->
  exists c' ev, calib_run A c ks = Ok (c', ev) /\ wf A c' /\ all_agree A c' /\ rests c' /\
    forall i us, In (CPulse i us) ev -> lo - 10 <= us <= hi + 10.
Proof.
  intros Lo Hi. induction ks as [|k ks IH]; intros c W G K P.
  - exists c, []. cbn. splits; auto. intros i us [].
  - pose proof W as (L1 & L2 & S).
    destruct (zget_some (c_tab c) (c_sel c)) as [r Hr]; [lia|]. destruct (zget_some (c_servos c) (c_sel c)) as [s Hs]; [lia|].
    pose proof (P [] (k :: ks) c [] r eq_refl eq_refl Hr) as Pr.
    destruct (row_step_ok lo hi (c_set c) (c_test c) k r s Lo Hi Pr (G _ _ _ Hr Hs) (K _ _ Hs)) as (r' & s' & ps & RS & K' & PB).
    pose proof (step_eq A c k r s W Hr Hs) as E. rewrite RS in E. destruct E as (ev1 & E & PE).
    destruct (step_agree A c k _ _ W G E) as [W1 G1].
    destruct (IH (after A c k r' s') W1 G1) as (c' & ev2 & R2 & W2 & G2 & K2 & B2).
    + intros i x. unfold after. cbn [c_servos]. destruct (Z.eq_dec i (c_sel c)) as [->|NE].
      * rewrite zget_upd_same by lia. now intros [= <-].
      * intros X. destruct (zget_nth _ _ _ X) as [BX _]. rewrite zlen_upd in BX. rewrite zget_upd_other in X by lia. eapply K; eauto.
    + intros ks1 ks2 c2 ev r2 -> R H. apply (P (k :: ks1) ks2 c2 (ev1 ++ ev) r2 eq_refl); [|exact H]. cbn. rewrite E. cbn. now rewrite R.
    + exists c', (ev1 ++ ev2). cbn. rewrite E. cbn. rewrite R2. cbn. splits; auto.
      intros i us I. apply in_app_or in I as [I|I]; [|eapply B2; eauto].
      assert (IN : In (i, us) (pulses A ev1)) by (unfold pulses; apply in_flat_map; exists (CPulse i us); split; [exact I|now left]).
      rewrite PE in IN. unfold sent in IN. destruct (s_virtual s); [contradiction|].
      apply in_map_iff in IN as (q & EQ & IQ). injection EQ as _ <-. now apply PB.
Qed.

Lemma setup_rests g c ev : calib_setup A g = Ok (c, ev) -> rests c.
Proof.
  intros H. unfold calib_setup in H. destruct (setup_servos A 0 _) as [[ss e]|] eqn:E; cbn in H; [|discriminate].
  injection H as <- _. intros i s X. cbn [c_servos] in X. destruct (zget_nth _ _ _ X) as [_ N].
  destruct (setup_servos_nth A _ _ _ _ E) as [LS NN].
  destruct (nth_error (map (row_of A) g) (Z.to_nat i)) as [r|] eqn:NR.
  - destruct (NN _ _ _ NR N) as [e' Q]. clear - Q h_int. unfold setup_servo, servo_new in Q.
    destruct (to_int A (r_pin r)); cbn [bind] in Q; [|discriminate].
    destruct (to_uint A (r_f0 r)); cbn [bind] in Q; [|discriminate]. destruct (to_uint A (r_f1 r)); cbn [bind] in Q; [|discriminate].
    destruct (servo_move A _); cbn [bind] in Q; [|discriminate]. injection Q as <- _. split; [reflexivity|].
    exists 0%R. split; [apply (h_int 0); lia|lra].
  - exfalso. apply nth_error_None in NR. assert (Z.to_nat i < length ss)%nat by (apply nth_error_Some; congruence). lia.
Qed.

(** setup ends when the table is plausible *)
Lemma setup_ok lo hi g : 1 <= lo -> hi <= 32000 ->
  Forall (fun r => plausible lo hi r /\ exists p, is (r_pin r) (IZR p) /\ -1000 <= p <= 1000) (map (row_of A) g) ->
  exists c ev, calib_setup A g = Ok (c, ev).
Proof.
  intros Lo Hi F. unfold calib_setup.
  assert (K : forall rs i, Forall (fun r => plausible lo hi r /\ exists p, is (r_pin r) (IZR p) /\ -1000 <= p <= 1000) rs -> exists ss ev, setup_servos A i rs = Ok (ss, ev)).
  { clear F. induction rs as [|r rs IH]; intros i F; [eexists _, _; reflexivity|]. inversion F as [|? ? [P (pin & VP & BP)] F' E1]; subst.
    destruct P as (n & m & k & a0 & a1 & Vn & Vm & Vk & V0 & V1 & Bn & Bm & Bk & B0 & B1 & BD).
    cbn [setup_servos]. unfold setup_servo, servo_new.
    rewrite (v_to_int _ _ VP) by lia. cbn [bind]. rewrite (v_to_uint _ _ Vm) by lia. cbn [bind]. rewrite (v_to_uint _ _ Vk) by lia. cbn [bind].
    match goal with |- context [servo_move A ?s] => destruct (h_move s a0 a1 0%R) as (p & -> & _); cbn; auto; try lra; try lia end.
    { apply (h_int 0). lia. }
    destruct (IH (i + 1) F') as (ss & ev & ->). cbn. eauto. }
  destruct (K _ 0 F) as (ss & ev & ->). cbn. eauto.
Qed.
Lemma stays_nil lo hi c : (forall r, zget (c_tab c) (c_sel c) = Ok r -> plausible lo hi r) -> stays_plausible lo hi c [].
Proof. intros P ks1 ks2 c1 ev r E R H. destruct ks1; [|discriminate]. cbn in R. injection R as <- _. auto. Qed.
Lemma stays_cons lo hi c k ks c' e : (forall r, zget (c_tab c) (c_sel c) = Ok r -> plausible lo hi r) ->
  calib_step A c k = Ok (c', e) -> stays_plausible lo hi c' ks -> stays_plausible lo hi c (k :: ks).
Proof.
  intros P S Q ks1 ks2 c1 ev r E R H. destruct ks1 as [|k1 ks1].
  - cbn in R. injection R as <- _. auto.
  - injection E as <- ->. cbn in R. rewrite S in R. cbn in R. destruct (calib_run A c' ks1) as [[c2 e2]|] eqn:X; cbn in R; [|discriminate].
    injection R as <- _. eapply Q; eauto.
Qed.

(** C74, C77: defined, and every pulse within 10 us of the range of the table *)
Lemma always_ok lo hi g c0 ev0 ks : 1 <= lo -> hi <= 32000 -> length g = 6%nat -> calib_setup A g = Ok (c0, ev0) ->
  stays_plausible lo hi c0 ks ->
  exists c ev, calib_run A c0 ks = Ok (c, ev) /\ forall i us, In (CPulse i us) ev -> lo - 10 <= us <= hi + 10.
Proof.
  intros Lo Hi L S P. destruct (setup_inv A _ _ _ L S) as (W & G & _).
  destruct (run_ok lo hi ks Lo Hi c0 W G (setup_rests _ _ _ S) P) as (c & ev & R & _ & _ & _ & B). eauto.
Qed.

(** C78: q, a and d after such a history *)
Lemma moves_ok lo hi g c0 ev0 ks c ev r n m k a0 a1 : 1 <= lo -> hi <= 32000 -> length g = 6%nat -> calib_setup A g = Ok (c0, ev0) ->
  stays_plausible lo hi c0 ks -> calib_run A c0 ks = Ok (c, ev) ->
  zget (c_tab c) (c_sel c) = Ok r -> plausible_at lo hi r n m k a0 a1 ->
  forall key t y, (key = 113 /\ t = fofz A 0 /\ y = 0%R) \/ (key = 97 /\ t = r_a0 r /\ y = a0) \/ (key = 100 /\ t = r_a1 r /\ y = a1) ->
  exists s s' c' ev' p, zget (c_servos c) (c_sel c) = Ok s /\ calib_step A c key = Ok (c', ev') /\
    pulses A ev' = (if s_virtual s then [] else [(c_sel c, p)]) /\
    servo_move A s' = Ok p /\ s_cur s' = t /\ is t y /\ s_minF s' = m /\ s_maxF s' = k /\ s_min s' = r_a0 r /\ s_max s' = r_a1 r /\
    exists r', zget (c_tab c') (c_sel c') = Ok r' /\ r' = with_rcur A r (fofz A p).
Proof.
  intros Lo Hi L S P R Hr Q key t y KEY. destruct (setup_inv A _ _ _ L S) as (W & G & _).
  destruct (run_ok lo hi ks Lo Hi c0 W G (setup_rests _ _ _ S) P) as (c1 & ev1 & R1 & W1 & G1 & K1 & _).
  rewrite R in R1. injection R1 as <- <-. pose proof W1 as (L1 & L2 & SL).
  destruct (zget_some (c_servos c) (c_sel c)) as [s Hs]; [lia|].
  pose proof Q as (Vn & Vm & Vk & V0 & V1 & Bn & Bm & Bk & B0 & B1 & BD).
  assert (VT : is t y /\ (a0 <= y <= a1)%R).
  { destruct KEY as [(_ & -> & ->)|[(_ & -> & ->)|(_ & -> & ->)]]; (split; [|lra]); auto. apply (h_int 0); lia. }
  destruct VT as [VT Y].
  destruct (move_row_ok lo hi r s t y _ _ _ _ _ Lo Hi Q (G1 _ _ _ Hr Hs) (K1 _ _ Hs) VT Y) as (s' & p & E & _ & C1 & PB & MP & E1 & E2 & E3 & E4).
  pose proof (step_eq A c key r s W1 Hr Hs) as SE.
  assert (RS : row_step A (c_set c) (c_test c) key r s = Ok (with_rcur A r (fofz A p), s', [p])).
  { destruct KEY as [(-> & -> & _)|[(-> & -> & _)|(-> & -> & _)]]; exact E. }
  rewrite RS in SE. destruct SE as (ev' & SE & PE).
  exists s, s', (after A c key (with_rcur A r (fofz A p)) s'), ev', p. splits; auto.
  exists (with_rcur A r (fofz A p)). split; [|reflexivity]. unfold after. cbn [c_tab c_sel].
  replace (sel_after key (c_sel c)) with (c_sel c) by (destruct KEY as [(-> & _)|[(-> & _)|(-> & _)]]; reflexivity).
  apply zget_upd_same. lia.
Qed.

(** C77: w pressed again and again in the mode n *)
Lemma step_w c r z : wf A c -> c_set c = MOVE -> c_test c = false -> zget (c_tab c) (c_sel c) = Ok r -> is (r_cur r) (IZR z) ->
  -16777206 <= z <= 16777206 ->
  exists c' ev s r', calib_step A c key_w = Ok (c', ev) /\ zget (c_servos c) (c_sel c) = Ok s /\
    pulses A ev = (if s_virtual s then [] else [(c_sel c, z + 10)]) /\
    wf A c' /\ c_set c' = MOVE /\ c_test c' = false /\ c_sel c' = c_sel c /\ zget (c_servos c') (c_sel c) = Ok s /\
    zget (c_tab c') (c_sel c) = Ok r' /\ is (r_cur r') (IZR (z + 10)).
Proof.
  intros W M T Hr V B. pose proof W as (L1 & L2 & S). destruct (zget_some (c_servos c) (c_sel c)) as [s Hs]; [lia|].
  pose proof (step_eq A c key_w r s W Hr Hs) as E. rewrite M, T in E.
  assert (V' : is (fadd A (r_cur r) (fofz A 10)) (IZR (z + 10))) by (apply h_add; auto; [apply h_int|]; lia).
  assert (RS : row_step A MOVE false key_w r s = Ok (with_rcur A r (fadd A (r_cur r) (fofz A 10)), s, [z + 10])).
  { unfold row_step, key_w. cbn. rewrite (v_to_int _ _ V') by lia. reflexivity. }
  rewrite RS in E. destruct E as (ev & E & PE).
  eexists _, ev, s, _. splits; [exact E|exact Hs|exact PE|now apply after_wf|unfold after; cbn; exact M|unfold after; cbn; exact T|reflexivity| | |].
  - unfold after. cbn [c_servos]. apply zget_upd_same. lia.
  - unfold after. cbn [c_tab]. apply zget_upd_same. lia.
  - exact V'.
Qed.
Lemma run_w n : forall c r s z, wf A c -> c_set c = MOVE -> c_test c = false -> zget (c_tab c) (c_sel c) = Ok r -> is (r_cur r) (IZR z) ->
  zget (c_servos c) (c_sel c) = Ok s -> s_virtual s = false -> 0 <= z -> z + 10 * Z.of_nat n <= 16777216 ->
  exists c' ev, calib_run A c (repeat key_w n) = Ok (c', ev) /\ pulses A ev = map (fun i => (c_sel c, z + 10 * Z.of_nat i)) (seq 1 n).
Proof.
  induction n as [|n IH]; intros c r s z W M T Hr V Hs NV Z0 B.
  - exists c, []. split; reflexivity.
  - destruct (step_w c r z W M T Hr V) as (c1 & e1 & s1 & r1 & E & Hs1 & P1 & W1 & M1 & T1 & S1 & Hs2 & Hr1 & V1); [lia|].
    rewrite Hs in Hs1. injection Hs1 as <-. rewrite NV in P1.
    destruct (IH c1 r1 s (z + 10) W1 M1 T1) as (c2 & e2 & E2 & P2); try (rewrite S1; assumption); auto; try lia.
    exists c2, (e1 ++ e2). cbn [repeat calib_run]. rewrite E. cbn [bind]. rewrite E2. cbn [bind]. split; [reflexivity|].
    rewrite pulses_app, P1, P2. cbn [seq map app]. apply (@f_equal2 _ _ _ (@cons (Z * Z))); [apply f_equal; lia|]. rewrite <- (seq_shift n 1), map_map. apply map_ext. intros i. rewrite S1. f_equal. lia.
Qed.
Lemma no_limit g c0 ev0 n s : length g = 6%nat -> calib_setup A g = Ok (c0, ev0) -> zget (c_servos c0) 0 = Ok s -> s_virtual s = false ->
  1500 + 10 * Z.of_nat n <= 16777216 ->
  exists c ev, calib_run A c0 (repeat key_w n) = Ok (c, ev) /\ pulses A ev = map (fun i => (0, 1500 + 10 * Z.of_nat i)) (seq 1 n).
Proof.
  intros L S Hs NV B. destruct (setup_inv A _ _ _ L S) as (W & G & S0 & M & T & TB). pose proof W as (L1 & L2 & SL).
  destruct (zget_some (c_tab c0) (c_sel c0)) as [r Hr]; [lia|].
  rewrite <- S0 in Hs. rewrite <- S0. eapply run_w; eauto; [|lia].
  destruct (zget_nth _ _ _ Hr) as [_ N]. rewrite TB, nth_error_map in N. destruct (nth_error g _); [|discriminate].
  injection N as <-. apply h_int. lia.
Qed.
(** without w and s a plausible table stays plausible, and the pulses stay in its range
    up to one microsecond *)
Definition firm (lo hi : Z) (r : row) : Prop :=
  exists n m k a0 a1, plausible_at lo hi r n m k a0 a1 /\ lo + 1 <= m /\ lo + 1 <= k.
Lemma firm_step lo hi m t k r s r' s' ps : 1 <= lo -> hi <= 32000 -> (k =? 119) || (k =? 115) = false -> firm lo hi r -> agrees A r s -> at_rest s ->
  row_step A m t k r s = Ok (r', s', ps) -> firm lo hi r' /\ at_rest s' /\ forall p, In p ps -> lo <= p <= hi.
Proof.
  intros Lo Hi NK F G K RS. pose proof F as (n & fm & fk & a0 & a1 & P & M2 & K2).
  pose proof P as (Vn & Vm & Vk & V0 & V1 & Bn & Bm & Bk & B0 & B1 & BD).
  assert (SET : forall x v, is x (IZR v) -> lo <= v <= hi -> firm lo hi (with_rcur A r x)).
  { intros x v X B. exists v, fm, fk, a0, a1. split; [|auto]. unfold plausible_at. cbn. splits; auto; lra || lia. }
  assert (MV : forall x y, is x y -> (a0 <= y <= a1)%R -> move_row A r s x = Ok (r', s', ps) -> firm lo hi r' /\ at_rest s' /\ forall p, In p ps -> lo <= p <= hi).
  { intros x y Vx Y E. destruct (move_row_ok lo hi r s x y _ _ _ _ _ Lo Hi P G K Vx Y) as (s1 & p & E1 & K1 & C1 & PB & MP & Q0 & Q1 & Q2 & Q3).
    assert (BP : lo <= p).
    { destruct (h_move s1 a0 a1 y) as (q & MQ & BQ); rewrite ?Q0, ?Q1, ?Q2, ?Q3, ?C1; auto; try lra; try lia. rewrite MP in MQ. injection MQ as ->. rewrite Q0, Q1 in BQ. lia. }
    rewrite E1 in E. injection E as <- <- <-. split; [apply (SET _ p); [apply h_int; lia|lia]|]. split; [exact K1|].
    intros q [<-|[]]. lia. }
  unfold row_step, drive_row in RS. rewrite NK in RS. cbn [andb] in RS.
  destruct (k =? 116).
  { destruct (is_min m); [|injection RS as <- <- <-; split; [auto|]; split; [auto|]; intros q []]. rewrite (v_to_int _ _ Vm) in RS by lia. cbn [bind] in RS.
    injection RS as <- <- <-. split; [eapply SET; eauto|]. split; [exact K|]. intros q [<-|[]]. lia. }
  destruct (k =? 122).
  { destruct (is_max m); [|injection RS as <- <- <-; split; [auto|]; split; [auto|]; intros q []]. rewrite (v_to_int _ _ Vk) in RS by lia. cbn [bind] in RS.
    injection RS as <- <- <-. split; [eapply SET; eauto|]. split; [exact K|]. intros q [<-|[]]. lia. }
  destruct (k =? 113); [apply (MV _ 0%R (h_int 0 ltac:(lia))); [lra|exact RS]|].
  destruct (k =? 97); [apply (MV _ a0 V0); [lra|exact RS]|].
  destruct (k =? 100); [apply (MV _ a1 V1); [lra|exact RS]|].
  injection RS as <- <- <-. split; [auto|]. split; [auto|]. intros q [].
Qed.
Lemma firm_plausible lo hi r : firm lo hi r -> plausible lo hi r.
Proof. intros (n & m & k & a0 & a1 & P & _). exists n, m, k, a0, a1. exact P. Qed.
Lemma firm_stays lo hi : 1 <= lo -> hi <= 32000 -> forall ks c, wf A c -> all_agree A c -> rests c -> (forall i r, zget (c_tab c) i = Ok r -> firm lo hi r) ->
  (forall k, In k ks -> k <> 119 /\ k <> 115) -> stays_plausible lo hi c ks /\
  forall c' ev i us, calib_run A c ks = Ok (c', ev) -> In (CPulse i us) ev -> lo <= us <= hi.
Proof.
  intros Lo Hi. induction ks as [|k ks IH]; intros c W G K F N.
  - split; [apply stays_nil; intros r Hr; apply firm_plausible; eauto|]. intros c' ev i us R I. cbn in R. injection R as _ <-. destruct I.
  - pose proof W as (L1 & L2 & S).
    destruct (zget_some (c_tab c) (c_sel c)) as [r Hr]; [lia|]. destruct (zget_some (c_servos c) (c_sel c)) as [s Hs]; [lia|].
    pose proof (firm_plausible _ _ _ (F _ _ Hr)) as P.
    destruct (row_step_ok lo hi (c_set c) (c_test c) k r s Lo Hi P (G _ _ _ Hr Hs) (K _ _ Hs)) as (r' & s' & ps & RS & _ & _).
    pose proof (step_eq A c k r s W Hr Hs) as E. rewrite RS in E. destruct E as (ev1 & E & PE).
    destruct (step_agree A c k _ _ W G E) as [W1 G1].
    destruct (firm_step lo hi (c_set c) (c_test c) k r s r' s' ps Lo Hi) as (F1 & K1 & PB); eauto.
    { destruct (N k (or_introl eq_refl)). apply orb_false_iff. split; now apply Z.eqb_neq. }
    destruct (IH (after A c k r' s')) as [ST PU]; auto; [| |intros; apply N; now right|].
    + intros i x. unfold after. cbn [c_servos]. destruct (Z.eq_dec i (c_sel c)) as [->|NE].
      * rewrite zget_upd_same by lia. now intros [= <-].
      * intros X. destruct (zget_nth _ _ _ X) as [BX _]. rewrite zlen_upd in BX. rewrite zget_upd_other in X by lia. eapply K; eauto.
    + intros i x. unfold after. cbn [c_tab]. destruct (Z.eq_dec i (c_sel c)) as [->|NE].
      * rewrite zget_upd_same by lia. now intros [= <-].
      * intros X. destruct (zget_nth _ _ _ X) as [BX _]. rewrite zlen_upd in BX. rewrite zget_upd_other in X by lia. eapply F; eauto.
    + split; [eapply stays_cons; [|exact E|exact ST]; intros r1 Hr1; rewrite Hr in Hr1; injection Hr1 as <-; exact P|].
      intros c' ev i us R I. cbn in R. rewrite E in R. cbn [bind] in R.
      destruct (calib_run A (after A c k r' s') ks) as [[c2 e2]|] eqn:R2; cbn [bind] in R; [|discriminate]. injection R as _ <-.
      apply in_app_or in I as [I|I]; [|eapply PU; eauto].
      assert (IN : In (i, us) (pulses A ev1)) by (unfold pulses; apply in_flat_map; exists (CPulse i us); split; [exact I|now left]).
      rewrite PE in IN. unfold sent in IN. destruct (s_virtual s); [contradiction|].
      apply in_map_iff in IN as (q & EQ & IQ). injection EQ as _ <-. now apply PB.
Qed.
Lemma firm_setup lo hi g c ev ks : 1 <= lo -> hi <= 32000 -> length g = 6%nat -> calib_setup A g = Ok (c, ev) -> Forall (fun x => firm lo hi (row_of A x)) g ->
  (forall k, In k ks -> k <> 119 /\ k <> 115) -> stays_plausible lo hi c ks /\
  exists c' ev', calib_run A c ks = Ok (c', ev') /\ forall i us, In (CPulse i us) ev' -> lo <= us <= hi.
Proof.
  intros Lo Hi L S F N. destruct (setup_inv A _ _ _ L S) as (W & G & _ & _ & _ & T). 
  destruct (firm_stays lo hi Lo Hi ks c W G) as [ST PU]; auto; [eapply setup_rests; eauto| |].
  2: { split; [exact ST|]. destruct (always_ok lo hi g c ev ks Lo Hi L S ST) as (c' & ev' & R & _). exists c', ev'. split; [exact R|]. intros i us. eapply PU; eauto. }
  intros i r Hr. rewrite T in Hr. destruct (zget_nth _ _ _ Hr) as [_ X]. rewrite nth_error_map in X. destruct (nth_error g (Z.to_nat i)) eqn:E; [|discriminate].
  injection X as <-. rewrite Forall_forall in F. apply F. eapply nth_error_In; eauto.
Qed.

End V.
