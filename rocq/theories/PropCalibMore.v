(** * PropCalibMore: w and s, the rounding of the printed numbers, the units, and
    concrete histories of the calibration program (C76, C78-C80). *)
From Coq Require Import Reals Lra.
From Coq Require Import String Ascii.
From Flocq Require Import Core BinarySingleNaN.
From Verif Require Import Base Arith FloatBridge ServoModel ServoSpec ServoProofs ServoFloat RobotModel ConfigModel PropRobot CalibModel CalibProofs PropCalib CalibMoves PropCalibMove PropKit PropFloat PropFloatMoves PropFloatSync DecFloat PropFloatText PropFloatKit.
Open Scope Z_scope.

(** ** C76: w and s change the one number of the mode by one degree or one microsecond
    (ten in mode n, where nothing is recorded), and drive the servo to the new pulse *)
Definition degrees_of (x : R) : R := (x * (57295779513082320876798154814105 / 10 ^ 30))%R.
Theorem C76_adjust : forall c c' ev k r s, wf RA c -> c_test c = false ->
  zget (c_tab c) (c_sel c) = Ok r -> zget (c_servos c) (c_sel c) = Ok s ->
  k = key_w \/ k = key_s -> calib_step RA c k = Ok (c', ev) ->
  exists r', zget (c_tab c') (c_sel c) = Ok r' /\ c_sel c' = c_sel c /\ c_set c' = c_set c /\ c_test c' = false /\
    let sign := (if k =? key_w then 1 else -1)%R in
    let sent := fun x : R => if s_virtual s then [] else [(c_sel c, rtrunc x)] in
    match c_set c with
    | ANGLE_MIN => (Rabs (degrees_of (r_a0 r') - (degrees_of (r_a0 r) + sign)) <= 1 / 10 ^ 20)%R /\
        r_a1 r' = r_a1 r /\ r_f0 r' = r_f0 r /\ r_f1 r' = r_f1 r /\ r_cur r' = r_cur r /\ pulses RA ev = []
    | ANGLE_MAX => (Rabs (degrees_of (r_a1 r') - (degrees_of (r_a1 r) + sign)) <= 1 / 10 ^ 20)%R /\
        r_a0 r' = r_a0 r /\ r_f0 r' = r_f0 r /\ r_f1 r' = r_f1 r /\ r_cur r' = r_cur r /\ pulses RA ev = []
    | FREQ_MIN => r_f0 r' = (r_cur r + sign)%R /\ r_cur r' = (r_cur r + sign)%R /\
        r_f1 r' = r_f1 r /\ r_a0 r' = r_a0 r /\ r_a1 r' = r_a1 r /\ pulses RA ev = sent (r_cur r + sign)%R
    | FREQ_MAX => r_f1 r' = (r_cur r + sign)%R /\ r_cur r' = (r_cur r + sign)%R /\
        r_f0 r' = r_f0 r /\ r_a0 r' = r_a0 r /\ r_a1 r' = r_a1 r /\ pulses RA ev = sent (r_cur r + sign)%R
    | MOVE => r_cur r' = (r_cur r + 10 * sign)%R /\
        r_f0 r' = r_f0 r /\ r_f1 r' = r_f1 r /\ r_a0 r' = r_a0 r /\ r_a1 r' = r_a1 r /\ pulses RA ev = sent (r_cur r + 10 * sign)%R
    end.
Proof.
  intros c c' ev k r s W T Hr Hs K H.
  destruct (step_inv RA _ _ _ _ W H) as (r1 & s1 & r' & s' & ps & Hr1 & Hs1 & RS & -> & P).
  rewrite Hr in Hr1. injection Hr1 as <-. rewrite Hs in Hs1. injection Hs1 as <-.
  pose proof W as (L1 & L2 & S). exists r'. rewrite T in *.
  split; [unfold after; cbn [c_tab]; apply zget_upd_same; lia|].
  assert (KS : sel_after k (c_sel c) = c_sel c /\ set_after k (c_set c) = c_set c /\ test_after k false = false) by (destruct K as [-> | ->]; auto).
  destruct KS as (K1 & K2 & K3). unfold after. cbn [c_sel c_set c_test]. rewrite T, K1, K2, K3. do 3 (split; [reflexivity|]).
  rewrite P. unfold sent. unfold row_step in RS.
  assert (TI : forall x n, to_int RA x = Ok n -> n = rtrunc x).
  { intros x n. unfold to_int. change (ftoz RA x) with (Some (rtrunc x)). cbv iota. destruct ((-2147483648 <=? rtrunc x) && (rtrunc x <=? 2147483647)); [|discriminate]. intros Q. injection Q. auto. }
  assert (UP : forall v : R, (degrees_of (v + 17453292519943295769236907684886 / 10 ^ 33) - (degrees_of v + 1))%R =
                 (57295779513082320876798154814105 / 10 ^ 30 * (17453292519943295769236907684886 / 10 ^ 33) - 1)%R) by (intros v; unfold degrees_of; ring).
  assert (DN : forall v : R, (degrees_of (v - 17453292519943295769236907684886 / 10 ^ 33) - (degrees_of v + -1))%R =
                 (- (57295779513082320876798154814105 / 10 ^ 30 * (17453292519943295769236907684886 / 10 ^ 33) - 1))%R) by (intros v; unfold degrees_of; ring).
  assert (SM : (Rabs (57295779513082320876798154814105 / 10 ^ 30 * (17453292519943295769236907684886 / 10 ^ 33) - 1) <= 1 / 10 ^ 20)%R).
  { apply Rabs_le. lra. }
  assert (DD : rdec false 17453292519943295769236907684886 (-33) = (17453292519943295769236907684886 / 10 ^ 33)%R).
  { unfold rdec. cbv iota. change (powerRZ 10 (-33)) with (/ 10 ^ Pos.to_nat 33)%R.
    replace (Pos.to_nat 33) with 33%nat by reflexivity. unfold Rdiv. ring. }
  assert (EQ1 : key_w =? key_w = true) by reflexivity. assert (EQ2 : key_s =? key_w = false) by reflexivity.
  assert (PS : forall n x, n = rtrunc x -> (if s_virtual s then [] else map (fun p : Z => (c_sel c, p)) [n]) = (if s_virtual s then [] else [(c_sel c, rtrunc x)])) by (now intros n x ->).
  assert (A1 : forall v, (Rabs (degrees_of (v + rdec false 17453292519943295769236907684886 (-33)) - (degrees_of v + 1)) <= 1 / 10 ^ 20)%R) by (intros v; rewrite DD, UP; exact SM).
  assert (A2 : forall v, (Rabs (degrees_of (v - rdec false 17453292519943295769236907684886 (-33)) - (degrees_of v + -1)) <= 1 / 10 ^ 20)%R) by (intros v; rewrite DD, DN, Rabs_Ropp; exact SM).
  assert (M1 : forall v : R, (v + -1)%R = (v - 1)%R) by (intros; ring). assert (M2 : forall v : R, (v + 10 * -1)%R = (v - 10)%R) by (intros; ring).
  assert (M3 : forall v : R, (v + 10 * 1)%R = (v + 10)%R) by (intros; ring).
  assert (NIL : (if s_virtual s then [] else []) = @nil (Z * Z)) by (now destruct (s_virtual s)).
  clear UP DN SM.
  destruct K as [-> | ->]; rewrite ?EQ1, ?EQ2; cbn - [rtrunc rdec degrees_of dadd dsub to_int to_uint Rabs] in RS;
    destruct (c_set c); cbn - [rtrunc rdec degrees_of to_int to_uint Rabs] in RS; rewrite ?M1, ?M2, ?M3;
    try (injection RS as <- <- <-; split; [first [apply A1 | apply A2]|cbn [map]; repeat (split; [reflexivity|]); exact NIL]).
  all: destruct (to_int RA _) as [n|] eqn:TN in RS; [|discriminate]; apply TI in TN; cbn [bind] in RS;
    try (destruct (to_uint RA _) in RS; [|discriminate]; cbn [bind] in RS; destruct (to_uint RA _) in RS; [|discriminate]; cbn [bind] in RS);
    injection RS as <- <- <-; cbn [r_f0 r_f1 r_a0 r_a1 r_cur with_rcur with_rf0 with_rf1]; repeat (split; [reflexivity|]); now apply PS.
Qed.
Print Assumptions C76_adjust.

(** ** C78: with the floats of the device d can stop one microsecond short of the
    calibrated pulse.  The sixth servo of the shipped table, as shipped: *)
Definition shipped : calib IF := match calib_setup IF (servodata IF) with Ok (c, _) => c | Ub _ => mkCalib IF [] [] 0 MOVE false end.
Example shipped_is : exists ev, calib_setup IF (servodata IF) = Ok (shipped, ev).
Proof.
  assert (K : match calib_setup IF (servodata IF) with Ok _ => true | Ub _ => false end = true) by (vm_compute; reflexivity).
  unfold shipped. destruct (calib_setup IF (servodata IF)) as [[c ev]|f]; [eauto|discriminate].
Qed.
Definition probe (ks : list Z) (i : Z) : option (Z * (Z * Z)) :=
  match calib_run IF shipped ks with
  | Ok (c, ev) => match zget (c_tab c) i with
                  | Ok r => match to_uint IF (r_f1 r) with Ok n => Some (n, last (pulses IF ev) (0, 0)) | Ub _ => None end
                  | Ub _ => None end
  | Ub _ => None
  end.
Lemma probe_inv ks i n q : probe ks i = Some (n, q) -> exists c ev r, calib_run IF shipped ks = Ok (c, ev) /\
  zget (c_tab c) i = Ok r /\ to_uint IF (r_f1 r) = Ok n /\ last (pulses IF ev) (0, 0) = q.
Proof.
  unfold probe. destruct (calib_run IF shipped ks) as [[c ev]|]; [|discriminate]. destruct (zget (c_tab c) i) as [r|] eqn:Z; [|discriminate].
  destruct (to_uint IF (r_f1 r)) eqn:U; [|discriminate]. intros [= <- <-]. exists c, ev, r. auto.
Qed.
Theorem C78_maximum_refuted : exists c ev r, calib_run IF shipped (typed "5rsssssd"%string) = Ok (c, ev) /\
  zget (c_tab c) 5 = Ok r /\ to_uint IF (r_f1 r) = Ok 570 /\ last (pulses IF ev) (0, 0) = (5, 569).
Proof. apply probe_inv. vm_compute. reflexivity. Qed.
Print Assumptions C78_maximum_refuted.

(** ** C79: the numbers are printed with two decimals.  A controller built from angles
    within 0.005 degrees of the calibrated ones drives every angle both can with the same
    pulse, up to one microsecond *)
Definition off (y x : R) : Prop := (Rabs (y - x) <= 5 / 1000 * (PI / 180))%R.
Lemma line_off a0 a1 b0 b1 x m k e : (a0 < a1)%R -> (b0 < b1)%R -> (Rabs (b0 - a0) <= e)%R -> (Rabs (b1 - a1) <= e)%R ->
  (a0 <= x <= a1)%R -> (Rabs (line b0 b1 m k x - line a0 a1 m k x) <= e / (b1 - b0) * Rabs (IZR k - IZR m))%R.
Proof.
  intros H0 H1 E0 E1 X. unfold line.
  replace (IZR m + (x - b0) / (b1 - b0) * (IZR k - IZR m) - (IZR m + (x - a0) / (a1 - a0) * (IZR k - IZR m)))%R
    with (((x - b0) / (b1 - b0) - (x - a0) / (a1 - a0)) * (IZR k - IZR m))%R by ring.
  rewrite Rabs_mult. apply Rmult_le_compat_r; [apply Rabs_pos|].
  set (t := ((x - a0) / (a1 - a0))%R).
  assert (T : (0 <= t <= 1)%R).
  { unfold t. split; [apply Rmult_le_pos; [lra|left; apply Rinv_0_lt_compat; lra]|]. apply Rmult_le_reg_r with (a1 - a0)%R; [lra|].
    unfold Rdiv. rewrite Rmult_assoc, Rinv_l by lra. lra. }
  assert (EX : x = (a0 + t * (a1 - a0))%R) by (unfold t; field; lra). clearbody t.
  replace ((x - b0) / (b1 - b0) - t)%R with ((- ((b0 - a0) * (1 - t) + (b1 - a1) * t)) / (b1 - b0))%R by (rewrite EX; field; lra).
  unfold Rdiv. rewrite Rabs_mult, (Rabs_pos_eq (/ _)) by (left; apply Rinv_0_lt_compat; lra).
  apply Rmult_le_compat_r; [left; apply Rinv_0_lt_compat; lra|]. rewrite Rabs_Ropp.
  eapply Rle_trans; [apply Rabs_triang|]. rewrite !Rabs_mult, (Rabs_pos_eq (1 - t)), (Rabs_pos_eq t) by lra.
  replace e with (e * (1 - t) + e * t)%R by ring. apply Rplus_le_compat; apply Rmult_le_compat_r; lra.
Qed.
Theorem C79_rounded_exact : forall g c0 ev0 ks c ev i r s pin vel home b0 b1 t p m k x,
  length g = 6%nat -> calib_setup RA g = Ok (c0, ev0) -> calib_run RA c0 ks = Ok (c, ev) ->
  zget (c_tab c) i = Ok r -> zget (c_servos c) i = Ok s ->
  to_uint RA (r_f0 r) = Ok m -> to_uint RA (r_f1 r) = Ok k -> 1 <= m <= 32000 -> 1 <= k <= 32000 ->
  (r_a0 r < r_a1 r)%R -> (b0 < b1)%R -> off b0 (r_a0 r) -> off b1 (r_a1 r) -> (Rabs (IZR k - IZR m) <= 8000 * (b1 - b0))%R ->
  servo_new RA pin vel m k b0 b1 home = Ok (t, p) ->
  (r_a0 r <= x <= r_a1 r)%R -> (b0 <= x <= b1)%R ->
  exists p1 p2, servo_move RA (with_cur RA s x) = Ok p1 /\ servo_move RA (with_cur RA t x) = Ok p2 /\ Z.abs (p2 - p1) <= 1.
Proof.
  intros g c0 ev0 ks c ev i r s pin vel home b0 b1 t p m k x Lg S RN Hr Hs F0 F1 Bm Bk LT NZ O0 O1 W N X Y.
  destruct (setup_inv RA _ _ _ Lg S) as (WF & G & _). destruct (run_agree RA ks _ _ _ WF G RN) as [_ G1].
  destruct (G1 i r s Hr Hs) as (Q0 & Q1 & Q2 & Q3). rewrite F0 in Q0. rewrite F1 in Q1. injection Q0 as Q0. injection Q1 as Q1.
  assert (ET : s_min t = b0 /\ s_max t = b1 /\ s_minF t = m /\ s_maxF t = k).
  { unfold servo_new in N. destruct (servo_move RA (mkServo RA pin _ _ _ _ _ _ _ _ _ _ _ _)); cbn [bind] in N; [|discriminate]. injection N as <- _. auto. }
  destruct ET as (T0 & T1 & T2 & T3).
  assert (E : (5 / 1000 * (PI / 180) <= 112 / 1000000)%R) by (pose proof PI_4; lra).
  assert (BOTH : forall (u : servo RA) (a a' : R), s_min u = a -> s_max u = a' -> s_minF u = m -> s_maxF u = k -> (a < a')%R -> (a <= x <= a')%R ->
    exists q, servo_move RA (with_cur RA u x) = Ok q /\ q = rtrunc (line a a' m k x) /\ (1 <= line a a' m k x)%R).
  { intros u a a' U0 U1 U2 U3 H Z. destruct (move_in_range (with_cur RA u x)) as (q & MV & EQ & _).
    - unfold ServoProofs.sane. cbn. rewrite U0, U1, U2, U3. splits; try lia. exact H.
    - unfold in_range. cbn. rewrite U0, U1. exact Z.
    - exists q. split; [exact MV|]. cbn in EQ. rewrite U0, U1, U2, U3 in EQ. split; [exact EQ|].
      pose proof (calibrated_range a a' (IZR m) (IZR k) x H Z) as [Q _]. apply Rle_trans with (2 := Q).
      unfold Rmin. destruct Rle_dec; apply (IZR_le 1); lia. }
  destruct (BOTH s (r_a0 r) (r_a1 r) ltac:(congruence) ltac:(congruence) ltac:(congruence) ltac:(congruence) LT X) as (p1 & M1 & E1 & L1).
  destruct (BOTH t b0 b1 T0 T1 T2 T3 NZ Y) as (p2 & M2 & E2 & L2).
  exists p1, p2. split; [exact M1|]. split; [exact M2|].
  pose proof (line_off (r_a0 r) (r_a1 r) b0 b1 x m k _ LT NZ O0 O1 X) as D.
  assert (B : (5 / 1000 * (PI / 180) / (b1 - b0) * Rabs (IZR k - IZR m) < 1)%R).
  { assert (I : (0 < / (b1 - b0))%R) by (apply Rinv_0_lt_compat; lra).
    apply Rle_lt_trans with (112 / 1000000 / (b1 - b0) * (8000 * (b1 - b0)))%R.
    - apply Rmult_le_compat; [|apply Rabs_pos| |exact W].
      + pose proof PI_RGT_0. apply Rmult_le_pos; [lra|lra].
      + apply Rmult_le_compat_r; lra.
    - replace (112 / 1000000 / (b1 - b0) * (8000 * (b1 - b0)))%R with (896 / 1000)%R by (field; lra). lra. }
  assert (DD : (-1 < line b0 b1 m k x - line (r_a0 r) (r_a1 r) m k x < 1)%R) by (apply Rabs_bounds in D; lra).
  destruct (rtrunc_pos (line (r_a0 r) (r_a1 r) m k x)) as [K1 K2]; [lra|]. destruct (rtrunc_pos (line b0 b1 m k x)) as [K3 K4]; [lra|].
  rewrite <- E1 in K1, K2. rewrite <- E2 in K3, K4.
  assert (UP : (IZR p2 < IZR (p1 + 2))%R) by (rewrite plus_IZR; lra). assert (DN : (IZR p1 < IZR (p2 + 2))%R) by (rewrite plus_IZR; lra).
  apply lt_IZR in UP. apply lt_IZR in DN. lia.
Qed.
Print Assumptions C79_rounded_exact.

(** ** C80: what is printed about angles *)
(** the status line, printed after every key that is not h, p, m or unknown (and, when m
    has switched to testing, not at all): mode, servo, the number of the mode (an angle in
    degrees or a pulse in microseconds), and the angle in degrees of the current pulse *)
Definition mode_number (m : setmode) (r : row RA) : R :=
  match m with FREQ_MIN => r_f0 r | FREQ_MAX => r_f1 r | ANGLE_MIN => degrees_of (r_a0 r) | ANGLE_MAX => degrees_of (r_a1 r) | MOVE => r_cur r end.
Definition angle_at (f0 f1 a0 a1 p : R) : R := (a0 + (p - f0) / (f1 - f0) * (a1 - a0))%R.
Lemma rad_deg x : @eq R (dmul RA (f2d RA x) (RAD_TO_DEG RA)) (degrees_of x).
Proof.
  unfold degrees_of, RAD_TO_DEG. cbn [dmul f2d ddec RA]. unfold rdec. cbv iota. change (powerRZ 10 (-30)) with (/ 10 ^ Pos.to_nat 30)%R.
  replace (Pos.to_nat 30) with 30%nat by reflexivity. unfold Rdiv. ring.
Qed.
Theorem C80_status : forall c c' ev k, wf RA c -> calib_step RA c k = Ok (c', ev) -> c_test c = false ->
  In k (typed "ertznqad012345ws"%string) ->
  exists r v a ev', ev = ev' ++ [CStatus (c_set c') v (c_sel c') a] /\ zget (c_tab c') (c_sel c') = Ok r /\
    v = mode_number (c_set c') r /\ ((r_f0 r <> r_f1 r) -> a = degrees_of (angle_at (r_f0 r) (r_f1 r) (r_a0 r) (r_a1 r) (r_cur r))).
Proof.
  intros c c' ev k W H T K.
  destruct (step_inv RA _ _ _ _ W H) as (r0 & s0 & r' & s' & ps & _ & _ & _ & EC & _).
  assert (W' : wf RA c') by (rewrite EC; now apply after_wf).
  assert (T' : c_test c' = false).
  { rewrite EC. unfold after, test_after. cbn [c_test]. rewrite T. cbn in K. destruct (Z.eqb_spec k 109); [lia|reflexivity]. }
  clear r0 s0 r' s' ps EC. unfold calib_step in H.
  destruct (on_key RA c k) as [[[c1 ev1] ch1]|] eqn:OK; cbn [bind] in H; [|discriminate].
  destruct (c_test c1) eqn:T1; [injection H as -> _; congruence|].
  destruct (on_nudge RA c1 k) as [[[c2 ev2] ch2]|] eqn:ON; cbn [bind] in H; [|discriminate].
  assert (CH : ch1 || ch2 = true).
  { assert (KK : (k = 119 \/ k = 115) \/ In k (typed "ertznqad012345"%string)) by (cbn in *; lia). clear K. destruct KK as [K|K].
    - apply orb_true_iff. right. unfold on_nudge in ON. replace ((k =? 119) || (k =? 115)) with true in ON by (destruct K as [-> | ->]; reflexivity).
      destruct (c_set c1);
        (match type of ON with bind ?x _ = _ => destruct x as [[c3 e3]|] end; cbn [bind] in ON; [|discriminate]; injection ON; auto).
    - apply orb_true_iff. left. clear ON H. cbn in K.
      assert (MV : forall x, (do (c', ev) <- move_to_angle RA c (c_sel c) x; Ok (c', ev, true)) = Ok (c1, ev1, ch1) -> ch1 = true).
      { intros x Q. destruct (move_to_angle RA c (c_sel c) x) as [[? ?]|]; cbn in Q; [|discriminate]. now injection Q. }
      repeat match type of K with _ \/ _ => destruct K as [<-|K] end; try contradiction; unfold on_key in OK; cbn in OK;
        try (injection OK; auto; fail); try (eapply MV; exact OK).
      + destruct (is_min (c_set c)); [destruct (drive_to RA c r_f0) as [[? ?]|]|]; cbn in OK; try discriminate; injection OK; auto.
      + destruct (is_max (c_set c)); [destruct (drive_to RA c r_f1) as [[? ?]|]|]; cbn in OK; try discriminate; injection OK; auto.
      + destruct (zget (c_tab c) (c_sel c)); cbn in OK; [eapply MV; exact OK|discriminate].
      + destruct (zget (c_tab c) (c_sel c)); cbn in OK; [eapply MV; exact OK|discriminate]. }
  rewrite CH in H. unfold status in H. destruct (zget (c_tab c2) (c_sel c2)) as [r|] eqn:Hr; cbn [bind] in H; [|discriminate].
  injection H as <- <-. eexists r, _, _, (ev1 ++ ev2). split; [rewrite <- app_assoc; reflexivity|]. split; [exact Hr|]. split.
  - destruct (c_set c2); cbn [mode_number]; first [apply rad_deg | reflexivity].
  - intros NE. etransitivity; [apply rad_deg|]. f_equal. unfold map_float, angle_at. cbn [fadd fmul fdiv fsub RA]. unfold Rdiv. ring.
Qed.
Print Assumptions C80_status.

(** the line "moving to angle: x degree" of q, a and d: x is in radians *)
Theorem C80_moving_refuted : forall c c' ev r, wf RA c -> zget (c_tab c) (c_sel c) = Ok r -> r_a0 r <> 0%R ->
  calib_step RA c key_a = Ok (c', ev) ->
  In (@CMoving RA (r_a0 r)) ev /\ ~ In (@CMoving RA (degrees_of (r_a0 r))) ev.
Proof.
  intros c c' ev r W Hr NZ H. unfold calib_step, on_key in H. cbn in H. rewrite Hr in H. cbn [bind] in H.
  unfold move_to_angle in H. destruct (zget (c_servos c) (c_sel c)) as [s|]; cbn [bind] in H; [|discriminate].
  destruct (servo_process RA _ 10000) as [[s' p]|]; cbn [bind] in H; [|discriminate].
  destruct (zset (c_servos c) (c_sel c) s') as [ss|]; cbn [bind] in H; [|discriminate]. rewrite Hr in H. cbn [bind] in H.
  destruct (zset (c_tab c) (c_sel c) _) as [t|]; cbn [bind] in H; [|discriminate].
  assert (E : exists e, ev = CMoving (r_a0 r) :: (if s_virtual s then [] else [CPulse (c_sel c) p]) ++ e /\ forall x, ~ In (CMoving x) e).
  { cbn [c_test with_servos with_tab] in H. destruct (c_test c); [injection H as _ <-; exists []; rewrite app_nil_r; auto|].
    cbn in H. match type of H with context [status RA ?c2] => destruct (status RA c2) as [e|] eqn:ST end; cbn [bind] in H; [|discriminate].
    injection H as _ <-. exists e. split; [reflexivity|]. intros x. unfold status in ST. match type of ST with bind ?z _ = _ => destruct z end; cbn [bind] in ST; [|discriminate].
    injection ST as <-. intros [Q|[]]. discriminate. }
  destruct E as (e & -> & NE). split; [now left|]. intros [Q|Q].
  - injection Q as Q. apply NZ. unfold degrees_of in Q. lra.
  - apply in_app_or in Q as [Q|Q]; [|eapply NE; eauto]. destruct (s_virtual s); [contradiction|]. destruct Q as [Q|[]]. discriminate.
Qed.
Print Assumptions C80_moving_refuted.

(** ** C77 on histories without w and s: every pulse is in the table's range, less one
    microsecond.  Both arithmetics, and the shipped table *)
Theorem C77_without_ws_partial : forall lo hi g c0 ev0 ks, 1 <= lo -> hi <= 32000 -> length g = 6%nat -> calib_setup RA g = Ok (c0, ev0) ->
  Forall (fun x => firm RA exactly lo hi (row_of RA x)) g -> (forall k, In k ks -> k <> key_w /\ k <> key_s) ->
  exists c ev, calib_run RA c0 ks = Ok (c, ev) /\ forall i us, In (CPulse i us) ev -> lo <= us <= hi.
Proof.
  intros lo hi g c0 ev0 ks Lo Hi L S F N.
  exact (proj2 (firm_setup RA exactly x_int x_add x_sub x_trunc x_there x_move lo hi g c0 ev0 ks Lo Hi L S F N)).
Qed.
Print Assumptions C77_without_ws_partial.

Section Shipped.
Context (L : libm).
Notation A := (IEEE L).
Lemma shipped_row p m k a b : 570 <= m <= 2370 -> 570 <= k <= 2370 -> -500 <= a <= 0 -> 0 <= b <= 500 -> 30 <= b - a ->
  firm A v32 569 2370 (row_of A (mkCfg A (fofz A p) (fofz A m) (fofz A k) (deg A a) (deg A b))).
Proof.
  intros M K A0 B0 D. exists 1500, m, k, (rad L (IZR a)), (rad L (IZR b)).
  split; [|lia]. unfold plausible_at, row_of. cbn [r_cur r_f0 r_f1 r_a0 r_a1 g_f0 g_f1 g_a0 g_a1].
  assert (BA : (-500 <= IZR a <= 0)%R) by (split; apply IZR_le; lia). assert (BB : (0 <= IZR b <= 500)%R) by (split; apply IZR_le; lia).
  assert (BD : (30 <= IZR b - IZR a)%R) by (rewrite <- minus_IZR; apply IZR_le; lia).
  pose proof (rad_within L (IZR a) 500 ltac:(apply Rabs_le; lra) ltac:(lra)) as EA. apply Rabs_bounds in EA.
  pose proof (rad_within L (IZR b) 500 ltac:(apply Rabs_le; lra) ltac:(lra)) as EB. apply Rabs_bounds in EB.
  assert (Z0 : rad L 0 = 0%R).
  { unfold rad. assert (Z : r64 0 = 0%R) by exact (rnd_0 53 1024). rewrite Z, r32_0, Z, Rmult_0_l, Z. apply r32_0. }
  assert (NA : (rad L (IZR a) <= 0)%R) by (rewrite <- Z0; apply (rad_le L); lra).
  assert (NB : (0 <= rad L (IZR b))%R) by (rewrite <- Z0; apply (rad_le L); lra).
  assert (TR : forall d, to_radians d = (d * (PI / 180))%R) by (intros d; unfold to_radians; field).
  rewrite TR in EA, EB. assert (PU : (174 / 10000 <= PI / 180 <= 175 / 10000)%R) by (pose proof PI_digits; lra).
  set (u := (PI / 180)%R) in *. clearbody u.
  assert (MA : (IZR a * u >= -500 * (175 / 10000))%R) by nra. assert (MB : (IZR b * u <= 500 * (175 / 10000))%R) by nra.
  assert (MD : (30 * (174 / 10000) <= IZR b * u - IZR a * u)%R) by nra.
  splits; try (apply v_int; lia); try (apply (deg_v L); lia); try lia; lra.
Qed.
Lemma shipped_rows : Forall (fun x => firm A v32 569 2370 (row_of A x)) (servodata A).
Proof. repeat constructor; apply shipped_row; lia. Qed.
End Shipped.

Theorem C77_without_ws_ieee_partial : forall (L : libm) lo hi g c0 ev0 ks, 1 <= lo -> hi <= 32000 -> length g = 6%nat -> calib_setup (IEEE L) g = Ok (c0, ev0) ->
  Forall (fun x => firm (IEEE L) v32 lo hi (row_of (IEEE L) x)) g -> (forall k, In k ks -> k <> key_w /\ k <> key_s) ->
  exists c ev, calib_run (IEEE L) c0 ks = Ok (c, ev) /\ forall i us, In (CPulse i us) ev -> lo <= us <= hi.
Proof.
  intros L lo hi g c0 ev0 ks Lo Hi Lg S F N.
  exact (proj2 (firm_setup (IEEE L) v32 (i_int L) (i_add L) (i_sub L) (i_trunc L) (i_there L) (i_move L) lo hi g c0 ev0 ks Lo Hi Lg S F N)).
Qed.
Print Assumptions C77_without_ws_ieee_partial.

(** the shipped table, with the floats of the device: it starts, every history without w
    and s is defined, and no pulse is below 569 or above 2370 microseconds *)
Theorem C77_shipped_ieee_partial : forall (L : libm), exists c0 ev0, calib_setup (IEEE L) (servodata (IEEE L)) = Ok (c0, ev0) /\
  forall ks, (forall k, In k ks -> k <> key_w /\ k <> key_s) ->
  exists c ev, calib_run (IEEE L) c0 ks = Ok (c, ev) /\ forall i us, In (CPulse i us) ev -> 569 <= us <= 2370.
Proof.
  intros L. destruct (setup_ok (IEEE L) v32 (i_int L) (i_trunc L) (i_move L) 569 2370 (servodata (IEEE L)) ltac:(lia) ltac:(lia)) as (c0 & ev0 & S).
  { assert (K : Forall (fun r : row (IEEE L) => exists p, v32 (r_pin r) (IZR p) /\ -1000 <= p <= 1000) (map (row_of (IEEE L)) (servodata (IEEE L)))).
    { repeat constructor; eexists; (split; [apply v_int|]; lia). }
    pose proof (shipped_rows L) as F. rewrite Forall_forall in *. intros r I. split; [|auto].
    apply in_map_iff in I as (x & <- & I). apply firm_plausible. auto. }
  exists c0, ev0. split; [exact S|]. intros ks N.
  exact (C77_without_ws_ieee_partial L 569 2370 (servodata (IEEE L)) c0 ev0 ks ltac:(lia) ltac:(lia) eq_refl S (shipped_rows L) N).
Qed.
Print Assumptions C77_shipped_ieee_partial.
(** it moves something: the servo 0 to its lower limit and back *)
Example shipped_moves : exists ev, (exists c, calib_run IF shipped (typed "adq"%string) = Ok (c, ev)) /\ pulses IF ev = [(0, 852); (0, 2091); (0, 1471)].
Proof.
  assert (K : match calib_run IF shipped (typed "adq"%string) with Ok (_, ev) => pulses IF ev | Ub _ => [] end = [(0, 852); (0, 2091); (0, 1471)]) by (vm_compute; reflexivity).
  destruct (calib_run IF shipped (typed "adq"%string)) as [[c ev]|]; [eauto|discriminate].
Qed.

(** ** Cases that meet the hypotheses of the theorems *)
(** C74, C77, C78 with floats: the shipped table, any history without w and s *)
Example shipped_plausible : forall (L : libm) c0 ev0 ks, calib_setup (IEEE L) (servodata (IEEE L)) = Ok (c0, ev0) ->
  (forall k, In k ks -> k <> key_w /\ k <> key_s) -> stays_plausible (IEEE L) v32 569 2370 c0 ks.
Proof.
  intros L c0 ev0 ks S N.
  exact (proj1 (firm_setup (IEEE L) v32 (i_int L) (i_add L) (i_sub L) (i_trunc L) (i_there L) (i_move L) 569 2370 (servodata (IEEE L)) c0 ev0 ks ltac:(lia) ltac:(lia) eq_refl S (shipped_rows L) N)).
Qed.
(** C77_no_limit_ieee_refuted: servo 0 is a real one *)
Example shipped_real : match zget (c_servos shipped) 0 with Ok s => negb (s_virtual s) | Ub _ => false end = true.
Proof. vm_compute. reflexivity. Qed.
(** exact arithmetic: a table of six equal servos *)
Definition plain : list (cfg RA) := repeat (mkCfg RA 3%R 1000%R 2000%R (-1)%R 1%R) 6.
Lemma plain_firm : Forall (fun x => firm RA exactly 999 2000 (row_of RA x)) plain.
Proof.
  repeat constructor; exists 1500, 1000, 2000, (-1)%R, 1%R; (split; [|lia]); unfold plausible_at, exactly; cbn; splits; try lia; try lra; reflexivity.
Qed.
Example plain_plausible : exists c0 ev0, calib_setup RA plain = Ok (c0, ev0) /\
  (forall ks, (forall k, In k ks -> k <> key_w /\ k <> key_s) -> stays_plausible RA exactly 999 2000 c0 ks) /\
  (exists r, zget (c_tab c0) (c_sel c0) = Ok r /\ plausible_at RA exactly 999 2000 r 1500 1000 2000 (-1) 1).
Proof.
  destruct (setup_ok RA exactly x_int x_trunc x_move 999 2000 plain ltac:(lia) ltac:(lia)) as (c0 & ev0 & S).
  { pose proof plain_firm as F. rewrite Forall_forall in *. intros r I. apply in_map_iff in I as (x & <- & I). split; [apply firm_plausible; auto|].
    exists 3. apply repeat_spec in I. subst x. split; [reflexivity|lia]. }
  exists c0, ev0. split; [exact S|]. split.
  - intros ks N. exact (proj1 (firm_setup RA exactly x_int x_add x_sub x_trunc x_there x_move 999 2000 plain c0 ev0 ks ltac:(lia) ltac:(lia) eq_refl S plain_firm N)).
  - destruct (setup_inv RA plain c0 ev0 eq_refl S) as (_ & _ & E & _ & _ & T). rewrite E, T.
    exists (row_of RA (mkCfg RA 3%R 1000%R 2000%R (-1)%R 1%R)). split; [reflexivity|]. unfold plausible_at, exactly; cbn; splits; try lia; try lra; reflexivity.
Qed.

(** ** C74: with w and s the pulse can be driven below zero, and recording it is then
    undefined: a float of a negative value is converted to unsigned int *)
Theorem C74_negative_refuted : calib_run IF shipped (typed "n"%string ++ repeat key_s 151 ++ typed "tw"%string) = Ub BadConv.
Proof.
  assert (K : match calib_run IF shipped (typed "n"%string ++ repeat key_s 151 ++ typed "tw"%string) with Ub BadConv => true | _ => false end = true)
    by (vm_compute; reflexivity).
  destruct (calib_run IF shipped _) as [?|f]; [discriminate|]. destruct f; try discriminate. reflexivity.
Qed.
Print Assumptions C74_negative_refuted.

(** ** C76: e, r, t, z and n choose the mode, 0 to 5 the servo, m switches between
    calibrating and testing; no other key does *)
Theorem C76_selects : forall (A : arith) c c' ev k, wf A c -> calib_step A c k = Ok (c', ev) ->
  (typed "e"%string = [k] -> c_set c' = ANGLE_MIN) /\ (typed "r"%string = [k] -> c_set c' = ANGLE_MAX) /\
  (typed "t"%string = [k] -> c_set c' = FREQ_MIN) /\ (typed "z"%string = [k] -> c_set c' = FREQ_MAX) /\
  (typed "n"%string = [k] -> c_set c' = MOVE) /\ (~ In k (typed "ertzn"%string) -> c_set c' = c_set c) /\
  (forall i, zget (typed "012345"%string) i = Ok k -> c_sel c' = i) /\ (~ In k (typed "012345"%string) -> c_sel c' = c_sel c) /\
  (typed "m"%string = [k] -> c_test c' = negb (c_test c)) /\ (typed "m"%string <> [k] -> c_test c' = c_test c).
Proof.
  intros A c c' ev k W H. destruct (step_inv A _ _ _ _ W H) as (r & s & r' & s' & ps & _ & _ & _ & -> & _).
  unfold after, set_after, sel_after, test_after, digit. cbn [c_set c_sel c_test].
  splits; try (now intros [= <-]).
  - intros N. cbn in N. destruct (Z.eqb_spec k 101); [lia|]. destruct (Z.eqb_spec k 114); [lia|]. destruct (Z.eqb_spec k 116); [lia|].
    destruct (Z.eqb_spec k 122); [lia|]. destruct (Z.eqb_spec k 110); [lia|reflexivity].
  - intros i Q. destruct (zget_nth _ _ _ Q) as [B N]. change (zlen (typed "012345")) with 6 in B.
    assert (E : i = 0 \/ i = 1 \/ i = 2 \/ i = 3 \/ i = 4 \/ i = 5) by lia.
    repeat (destruct E as [E|E]; [subst i; injection N as <-; reflexivity|]). subst i. injection N as <-. reflexivity.
  - intros N. cbn in N. replace ((48 <=? k) && (k <=? 53)) with false; [reflexivity|]. symmetry. apply andb_false_iff.
    destruct (Z.leb_spec 48 k); [right; apply Z.leb_gt; lia|now left].
  - intros N. cbn in N. destruct (Z.eqb_spec k 109); [subst; now destruct N|reflexivity].
Qed.
Print Assumptions C76_selects.

(** ** C78: t pressed in mode t, and z in mode z, drive the selected servo to the recorded pulse *)
Theorem C78_recorded : forall (A : arith) c r s k x p, wf A c -> zget (c_tab c) (c_sel c) = Ok r -> zget (c_servos c) (c_sel c) = Ok s ->
  (typed "t"%string = [k] /\ c_set c = FREQ_MIN /\ x = r_f0 r) \/ (typed "z"%string = [k] /\ c_set c = FREQ_MAX /\ x = r_f1 r) ->
  to_int A x = Ok p ->
  exists c' ev r', calib_step A c k = Ok (c', ev) /\ pulses A ev = (if s_virtual s then [] else [(c_sel c, p)]) /\
    zget (c_tab c') (c_sel c) = Ok r' /\ r_cur r' = x /\ config A r' = config A r.
Proof.
  intros A c r s k x p W Hr Hs K P. pose proof (step_eq A c k r s W Hr Hs) as E. pose proof W as (L1 & _ & S).
  unfold row_step, drive_row in E.
  destruct K as [(K & M & ->)|(K & M & ->)]; injection K as <-; rewrite M in E; cbn [is_min is_max] in E;
    cbn [Z.eqb Z.of_N Ascii.N_of_ascii Ascii.N_of_digits N.add N.mul Pos.eqb] in E; cbn in E; rewrite P in E; cbn [bind] in E;
    destruct E as (ev & E & PE); eexists _, ev, _; (split; [exact E|]); (split; [rewrite PE; unfold sent; now destruct (s_virtual s)|]);
    (split; [unfold after; cbn [c_tab]; apply zget_upd_same; lia|]); split; reflexivity.
Qed.
Print Assumptions C78_recorded.

(** ** C80: after a the status shows the minimum angle, after d the maximum *)
Theorem C80_after_move : forall g c0 ev0 ks c ev r n m k a0 a1, length g = 6%nat -> calib_setup RA g = Ok (c0, ev0) ->
  stays_plausible RA exactly 1 32000 c0 ks -> calib_run RA c0 ks = Ok (c, ev) ->
  zget (c_tab c) (c_sel c) = Ok r -> plausible_at RA exactly 1 32000 r n m k a0 a1 -> m <> k -> c_test c = false ->
  forall key y, (key = key_a /\ y = a0) \/ (key = key_d /\ y = a1) ->
  exists c' ev' v, calib_step RA c key = Ok (c', ev') /\ last ev' CHelp = @CStatus RA (c_set c) v (c_sel c) (degrees_of y).
Proof.
  intros g c0 ev0 ks c ev r n m k a0 a1 Lg S P R Hr Q MK T key y K.
  pose proof (C78_moves_exact g c0 ev0 ks c ev r n m k a0 a1 Lg S P R Hr Q) as (s0 & Hs0 & C78).
  pose proof (moves_ok RA exactly x_int x_add x_sub x_trunc x_there x_move 1 32000 g c0 ev0 ks c ev r n m k a0 a1 ltac:(lia) ltac:(lia) Lg S P R Hr Q) as M.
  pose proof Q as (Vn & Vm & Vk & V0 & V1 & Bn & Bm & Bk & B0 & B1 & BD). unfold exactly in *.
  destruct (setup_inv RA _ _ _ Lg S) as (W0 & G0 & _). destruct (run_agree RA ks _ _ _ W0 G0 R) as [W _].
  assert (GO : forall t f p, (key = 97 /\ t = r_a0 r /\ y = a0 /\ f = r_f0 r /\ p = m) \/ (key = 100 /\ t = r_a1 r /\ y = a1 /\ f = r_f1 r /\ p = k) ->
    exists c' ev' v, calib_step RA c key = Ok (c', ev') /\ last ev' CHelp = @CStatus RA (c_set c) v (c_sel c) (degrees_of y)).
  { intros t f p KK.
    destruct (M key t y) as (s & s' & c' & ev' & p' & Hs & E & _ & MP & C1 & _ & E1 & E2 & E3 & E4 & r' & Hr' & Er).
    { destruct KK as [(-> & -> & -> & _)|(-> & -> & -> & _)]; auto. }
    assert (EP : p' = p).
    { destruct (move_in_range s') as (q & MQ & EQ & _).
      - unfold ServoProofs.sane. rewrite E1, E2, E3, E4, V0, V1. splits; try lia. lra.
      - unfold in_range. rewrite E3, E4, C1, V0, V1. destruct KK as [(_ & -> & _)|(_ & -> & _)]; rewrite ?V0, ?V1; lra.
      - rewrite MP in MQ. injection MQ as ->. rewrite EQ, E1, E2, E3, E4, C1, V0, V1.
        destruct KK as [(_ & -> & _ & _ & ->)|(_ & -> & _ & _ & ->)]; rewrite ?V0, ?V1; unfold calibrated.
        + replace (IZR m + (a0 - a0) / (a1 - a0) * (IZR k - IZR m))%R with (IZR m) by (field; lra). apply rtrunc_IZR.
        + replace (IZR m + (a1 - a0) / (a1 - a0) * (IZR k - IZR m))%R with (IZR k) by (field; lra). apply rtrunc_IZR. }
    destruct (C80_status c c' ev' key W E T) as (r2 & v & a & ev2 & -> & Hr2 & _ & AN).
    { destruct KK as [(-> & _)|(-> & _)]; cbn; lia. }
    rewrite Hr' in Hr2. injection Hr2 as <-. subst r' p'. cbn [r_f0 r_f1 r_a0 r_a1 r_cur with_rcur fofz RA] in AN.
    assert (NE : (IZR m <> IZR k)%R) by (intros X; apply eq_IZR in X; contradiction).
    assert (NE2 : (IZR k - IZR m <> 0)%R) by lra.
    rewrite Vm, Vk, V0, V1 in AN. specialize (AN NE).
    destruct (step_inv RA _ _ _ _ W E) as (r3 & s3 & r4 & s4 & ps & _ & _ & _ & EC & _).
    exists c', (ev2 ++ [CStatus (c_set c') v (c_sel c') a]), v. split; [exact E|]. rewrite last_last, AN.
    assert (EQ : c_set c' = c_set c /\ c_sel c' = c_sel c) by (rewrite EC; unfold after; cbn [c_set c_sel]; destruct KK as [(-> & _)|(-> & _)]; auto).
    destruct EQ as [-> ->]. f_equal. f_equal. unfold angle_at.
    destruct KK as [(_ & _ & -> & _ & ->)|(_ & _ & -> & _ & ->)]; field; exact NE2. }
  destruct K as [[-> ->]|[-> ->]]; [eapply (GO (r_a0 r) (r_f0 r) m)|eapply (GO (r_a1 r) (r_f1 r) k)]; auto 10.
Qed.
Print Assumptions C80_after_move.
