(** * C28-C31: the servo driver. *)
From Verif Require Import Base Arith ServoModel ServoSpec ServoProofs.
From Coq Require Import Reals Lra Floats.SpecFloat.
Open Scope Z_scope.

(** ** C28 monotone motion to the target, no overshoot, stays there *)
Theorem C28_monotone_to_target (s s1 s2 : servo RA) (t : R) (dts1 dts2 : list Z) :
  (0 < s_vel s)%R -> Forall (fun d => 0 <= d) (dts1 ++ dts2) ->
  total (dts1 ++ dts2) < 4294967296 ->
  sop_run RA s (STarget RA t ++ ticks RA dts1) = Ok s1 ->
  sop_run RA s1 (ticks RA dts2) = Ok s2 ->
  s_cur s1 = ideal (s_cur s) t (s_vel s) (IZR (total dts1)) /\
  on_way (s_cur s) (s_cur s1) t /\
  (Rabs (t - s_cur s2) <= Rabs (t - s_cur s1))%R /\
  ((Rabs (t - s_cur s) <= s_vel s * IZR (total dts1) / 1000)%R -> s_cur s1 = t /\ s_cur s2 = t).
Proof.
  intros Hv Hn Ht R1 R2. apply Forall_app in Hn as [Hn1 Hn2]. rewrite total_app in Ht.
  pose proof (total_nonneg _ Hn1) as P1. pose proof (total_nonneg _ Hn2) as P2.
  rewrite sop_run_app, sop_run_target in R1. cbn [bind] in R1.
  pose proof (minv_start s t Hv) as I0.
  assert (I1 : MInv (s_cur s) t (s_vel s) (total dts1) s1).
  { apply (minv_ticks _ _ _ dts1 0 _ _ Hv (Z.le_refl 0) Hn1 ltac:(lia) I0 R1). }
  assert (I2 : MInv (s_cur s) t (s_vel s) (total dts1 + total dts2) s2).
  { eapply minv_ticks; eauto. }
  rewrite (minv_cur _ _ _ _ _ I1), (minv_cur _ _ _ _ _ I2). rewrite plus_IZR.
  assert (0 <= IZR (total dts1))%R as Q1 by (apply IZR_le; lia).
  assert (0 <= IZR (total dts2))%R as Q2 by (apply IZR_le; lia).
  assert (0 <= s_vel s * IZR (total dts1) / 1000)%R as K1 by nra.
  assert (0 <= s_vel s * IZR (total dts2) / 1000)%R as K2 by nra.
  assert (s_vel s * (IZR (total dts1) + IZR (total dts2)) / 1000
          = s_vel s * IZR (total dts1) / 1000 + s_vel s * IZR (total dts2) / 1000)%R as E
    by (unfold Rdiv; ring).
  splits; auto.
  - apply ideal_between; lra.
  - unfold ideal. rewrite E. mcases; rabs; lra.
  - intros L. unfold ideal. rewrite E. mcases; rabs; lra.
Qed.

(** once it got there it stays, for ever (no bound on the time, elapsed-time counter
    wrapping or not) *)
Theorem C28_stays_at_target (s s1 s2 : servo RA) (t : R) (dts1 dts2 : list Z) :
  (0 < s_vel s)%R -> Forall (fun d => 0 <= d) dts1 -> total dts1 < 4294967296 ->
  sop_run RA s (STarget RA t ++ ticks RA dts1) = Ok s1 ->
  (Rabs (t - s_cur s) < s_vel s * IZR (total dts1) / 1000)%R ->
  sop_run RA s1 (ticks RA dts2) = Ok s2 ->
  s_cur s2 = t.
Proof.
  intros Hv Hn Ht R1 L R2.
  rewrite sop_run_app, sop_run_target in R1. cbn [bind] in R1.
  pose proof (minv_start s t Hv) as I0.
  assert (I1 : MInv (s_cur s) t (s_vel s) (total dts1) s1).
  { apply (minv_ticks _ _ _ dts1 0 _ _ Hv (Z.le_refl 0) Hn ltac:(lia) I0 R1). }
  destruct I1 as (V & G & _ & [(_ & _ & X) | (S & C & _)]); [lra|].
  apply (arrived_stays t dts2 s1 s2); auto. rewrite V; exact Hv.
Qed.

(** the ticks are defined when start and target are in the servo's range *)
Theorem C28_motion_is_defined (s : servo RA) (t : R) (dts : list Z) :
  (0 < s_vel s)%R -> Forall (fun d => 0 <= d) dts -> total dts < 4294967296 ->
  (s_min s < s_max s)%R -> 0 <= s_minF s <= 2147483647 -> 0 <= s_maxF s <= 2147483647 ->
  (s_min s <= s_cur s <= s_max s)%R -> (s_min s <= t <= s_max s)%R ->
  exists s', sop_run RA s (STarget RA t ++ ticks RA dts) = Ok s'.
Proof.
  intros Hv Hn Ht H1 H2 H3 H4 H5. rewrite sop_run_app, sop_run_target. cbn [bind].
  apply (ticks_defined (s_cur s) t (s_vel s) dts 0); auto; try lia.
  - now apply minv_start.
  - unfold sane; cbn; auto.
Qed.

(** a servo turning from 0 to 1 rad at 2 rad/s: half way after 250 ms, there after 500 *)
Definition demo_servo : servo RA :=
  mkServo RA 3 false 0%R 700 2380 0 0%R 0%R 0%R (-2)%R 2%R 2%R 5%R.
Example C28_reachable :
  exists s1 s2, sop_run RA demo_servo (STarget RA 1%R ++ ticks RA [100; 150]) = Ok s1 /\
                s_cur s1 = (1 / 2)%R /\
                sop_run RA s1 (ticks RA [250; 20]) = Ok s2 /\ s_cur s2 = 1%R.
Proof.
  assert (V : (0 < s_vel demo_servo)%R) by (cbn; lra).
  assert (K : Forall (fun d => 0 <= d) ([100; 150] ++ [250; 20])) by (repeat constructor; lia).
  destruct (C28_motion_is_defined demo_servo 1%R ([100; 150] ++ [250; 20])) as [s2 E2];
    auto; try (cbn; lra); try (cbn; lia).
  unfold ticks in E2. rewrite map_app, app_assoc in E2. rewrite sop_run_app in E2.
  destruct (sop_run RA demo_servo (STarget RA 1%R ++ map STick [100; 150])) as [s1|] eqn:E1;
    [|discriminate]. cbn [bind] in E2.
  exists s1, s2. split; [exact E1|].
  destruct (C28_monotone_to_target demo_servo s1 s2 1%R [100; 150] [250; 20] V K ltac:(cbn; lia) E1 E2)
    as (A & _ & _ & _).
  split; [|split; [exact E2|]].
  - rewrite A. unfold ideal. cbn. mcases; rabs; lra.
  - assert (E3 : sop_run RA demo_servo (STarget RA 1%R ++ ticks RA ([100;150] ++ [250;20])) = Ok s2).
    { unfold ticks. rewrite map_app, app_assoc, sop_run_app.
      unfold ticks in E1. rewrite E1. exact E2. }
    destruct (C28_monotone_to_target demo_servo s2 s2 1%R ([100; 150] ++ [250; 20]) [] V)
      as (B & _); auto.
    + cbn; lia.
    + rewrite B. unfold ideal. cbn. mcases; rabs; lra.
Qed.

(** ** C29 speed always in (0, max] *)
Theorem C29_speed_in_range (s : servo RA) (vs : list R) :
  (1 / 10 <= s_maxvel s)%R -> (0 < s_vel s <= s_maxvel s)%R ->
  exists s', sop_run RA s (map (fun v => SVel (v : F RA)) vs) = Ok s' /\
             (0 < s_vel s' <= s_maxvel s)%R.
Proof.
  revert s. induction vs as [|v l IH]; intros s Hm Hv.
  - exists s; split; [reflexivity|exact Hv].
  - destruct (set_vel_range s v Hm) as [A B].
    destruct (IH (servo_set_vel RA s v)) as (s' & R & V); [now rewrite B | now rewrite B |].
    exists s'. split; [exact R|]. now rewrite <- B.
Qed.

Theorem C29_request_in_range_is_used (s : servo RA) (v : R) :
  (0 < v <= s_maxvel s)%R -> s_vel (servo_set_vel RA s v) = v.
Proof. intros H. rewrite set_vel_RA. cbn. mcases; lra. Qed.

(** the same with IEEE binary32 numbers, for every request that is not NaN (zeros of
    both signs, infinities and subnormal numbers included) *)
Theorem C29_speed_in_range_ieee (L : libm) (s : servo (IEEE L)) (v : spec_float) :
  sf_notnan v -> SFltb (S754_zero false) (s_maxvel s) = true ->
  SFleb (d2f (IEEE L) (ddec (IEEE L) false 1 (-1))) (s_maxvel s) = true ->
  SFltb (S754_zero false) (s_vel (servo_set_vel (IEEE L) s v)) = true /\
  SFleb (s_vel (servo_set_vel (IEEE L) s v)) (s_maxvel s) = true /\
  (SFltb (S754_zero false) v = true -> SFleb v (s_maxvel s) = true ->
   s_vel (servo_set_vel (IEEE L) s v) = v).
Proof.
  intros Hv Hp Ht.
  assert (Hm : sf_notnan (s_maxvel s)).
  { intros E. rewrite E in Hp. discriminate. }
  assert (H0 : sf_notnan (S754_zero false)) by discriminate.
  unfold servo_set_vel. cbn [flt fle fofz IEEE]. fold (IEEE L).
  change (binary_normalize 24 128 0 0 false) with (S754_zero false).
  destruct (SFltb (s_maxvel s) v) eqn:A.
  - cbn [s_vel with_vel]. splits; auto using SFleb_refl.
    intros _ X. exfalso. destruct (SFcompare_some (s_maxvel s) v Hm Hv) as [c E].
    unfold SFltb in A. rewrite E in A. unfold SFleb in X. rewrite (SFcompare_sym _ _ _ E) in X.
    destruct c; cbn in X; discriminate.
  - destruct (SFleb v (S754_zero false)) eqn:B.
    + cbn [s_vel with_vel]. splits; auto.
      intros X. exfalso. destruct (SFcompare_some v (S754_zero false) Hv H0) as [c E].
      unfold SFleb in B. rewrite E in B. unfold SFltb in X. rewrite (SFcompare_sym _ _ _ E) in X.
      destruct c; cbn in X; discriminate.
    + cbn [s_vel with_vel]. splits; auto using SFleb_false, SFltb_false.
Qed.

(** NaN is outside the property: it is stored as it is *)
Theorem C29_nan_is_stored (L : libm) (s : servo (IEEE L)) :
  sf_notnan (s_maxvel s) -> s_vel (servo_set_vel (IEEE L) s S754_nan) = S754_nan.
Proof.
  intros H. unfold servo_set_vel; cbn [flt fle IEEE].
  unfold SFltb, SFleb. destruct (s_maxvel s) as [| | |]; try reflexivity; now destruct H.
Qed.

Example C29_reachable :
  (1 / 10 <= s_maxvel demo_servo)%R /\ (0 < s_vel demo_servo <= s_maxvel demo_servo)%R.
Proof. cbn; lra. Qed.
Definition no_libm : libm :=
  let f := fun x : spec_float => x in let g := fun x (_ : spec_float) => x in
  mkLibm f f f f g f f f g g.
Example C29_ieee_reachable :  (* 300 deg/s, the shipped maximum, as binary32 *)
  let m := d2f (IEEE no_libm) (ddec (IEEE no_libm) false 5235987755982989 (-15)) in
  SFltb (S754_zero false) m = true /\
  SFleb (d2f (IEEE no_libm) (ddec (IEEE no_libm) false 1 (-1))) m = true.
Proof. vm_compute. auto. Qed.

(** ** C30 pulse width inside the calibration interval *)
Theorem C30_pulse_in_calibration (s : servo RA) :
  (s_min s < s_max s)%R -> 0 <= s_minF s <= 2147483647 -> 0 <= s_maxF s <= 2147483647 ->
  (s_min s <= s_cur s <= s_max s)%R ->
  exists p, servo_move RA s = Ok p /\
    Z.min (s_minF s) (s_maxF s) <= p <= Z.max (s_minF s) (s_maxF s) /\
    (IZR p <= calibrated (s_min s) (s_max s) (IZR (s_minF s)) (IZR (s_maxF s)) (s_cur s) < IZR p + 1)%R /\
    (s_cur s = s_min s -> p = s_minF s) /\ (s_cur s = s_max s -> p = s_maxF s).
Proof.
  intros H1 H2 H3 H4.
  destruct (move_in_range s) as (p & E & P & B); [unfold sane; auto | exact H4 |].
  exists p. split; [exact E|]. split; [exact B|].
  pose proof (calibrated_range (s_min s) (s_max s) (IZR (s_minF s)) (IZR (s_maxF s)) (s_cur s) H1 H4) as [L _].
  assert (0 <= IZR (s_minF s))%R by (apply IZR_le; lia).
  assert (0 <= IZR (s_maxF s))%R by (apply IZR_le; lia).
  split; [|split].
  - destruct (rtrunc_pos (calibrated (s_min s) (s_max s) (IZR (s_minF s)) (IZR (s_maxF s)) (s_cur s))) as [K _].
    + eapply Rle_trans; [|exact L]. apply Rmin_glb; auto.
    + rewrite <- P in K. exact K.
  - intros X. rewrite P, X. rewrite <- (rtrunc_IZR (s_minF s)) at 2. f_equal.
    unfold calibrated. field. lra.
  - intros X. rewrite P, X. rewrite <- (rtrunc_IZR (s_maxF s)) at 2. f_equal.
    unfold calibrated. field. lra.
Qed.

(** monotone in the angle, in the direction of the calibration *)
Theorem C30_pulse_monotone (s : servo RA) (x y : R) (p q : Z) :
  (s_min s < s_max s)%R -> 0 <= s_minF s <= 2147483647 -> 0 <= s_maxF s <= 2147483647 ->
  (s_min s <= x)%R -> (x <= y)%R -> (y <= s_max s)%R ->
  servo_move RA (with_cur RA s x) = Ok p -> servo_move RA (with_cur RA s y) = Ok q ->
  (s_minF s <= s_maxF s -> p <= q) /\ (s_maxF s <= s_minF s -> q <= p).
Proof.
  intros H1 H2 H3 H4 H5 H6 Ep Eq.
  destruct (move_in_range (with_cur RA s x)) as (p' & E & P & _);
    [unfold sane; auto | unfold in_range; cbn; lra |].
  assert (p' = p) as X by congruence. rewrite X in P. clear E Ep X.
  destruct (move_in_range (with_cur RA s y)) as (q' & E & Q & _);
    [unfold sane; auto | unfold in_range; cbn; lra |].
  assert (q' = q) as X by congruence. rewrite X in Q. clear E Eq X. cbn in P, Q.
  assert (L : ((x - s_min s) / (s_max s - s_min s) <= (y - s_min s) / (s_max s - s_min s))%R).
  { apply Rmult_le_compat_r; [left; apply Rinv_0_lt_compat; lra | lra]. }
  split; intros M; apply IZR_le in M; rewrite P, Q; apply rtrunc_mono; unfold calibrated; nra.
Qed.

(** setCalibrationFreq and setAngleLimits take effect: the pulse lies on the new calibration line, for every angle inside the new limits *)
Theorem C30_recalibrated (s : servo RA) (f g : Z) (lo hi : R) :
  (lo < hi)%R -> 0 <= f <= 2147483647 -> 0 <= g <= 2147483647 -> (lo <= s_cur s <= hi)%R ->
  exists p, servo_move RA (servo_set_calibration RA (servo_set_limits RA s lo hi) f g) = Ok p /\
    Z.min f g <= p <= Z.max f g /\
    (IZR p <= IZR f + (s_cur s - lo) / (hi - lo) * (IZR g - IZR f) < IZR p + 1)%R.
Proof.
  intros H1 H2 H3 H4. destruct (C30_pulse_in_calibration (servo_set_calibration RA (servo_set_limits RA s lo hi) f g)) as (p & E & B & C & _); auto.
  exists p. auto.
Qed.
Example C30_recalibrated_reachable : (-1 < 1)%R /\ 0 <= 2380 <= 2147483647 /\ 0 <= 700 <= 2147483647 /\ (-1 <= s_cur demo_servo <= 1)%R.
Proof. cbn. splits; try lia; lra. Qed.

Example C30_reachable :
  servo_move RA demo_servo = Ok 1540.
Proof.
  destruct (C30_pulse_in_calibration demo_servo) as (p & E & _ & B & _);
    try (cbn; lra); try (cbn; lia).
  rewrite E. f_equal. unfold calibrated in B. cbn in B.
  destruct B as [B1 B2]. assert (IZR p <= 1540)%R by lra. assert (1540 < IZR p + 1)%R by lra.
  apply le_IZR in H. rewrite <- plus_IZR in H0. apply lt_IZR in H0. lia.
Qed.

(** ** C31 speed limit per tick *)

(** True for every history of ticks and uninterrupted moves. *)
Theorem C31_tick_speed_limit_partial pin (m : R) minF maxF (mn mx home : R) s0 p0 evs d s1 s2 :
  (1 / 10 <= m)%R ->
  servo_new RA pin (m : F RA) minF maxF mn mx home = Ok (s0, p0) ->
  Forall sev_ok evs -> 0 <= d -> total (map sev_time evs) + d < 4294967296 ->
  sop_run RA s0 (flat_map sev_ops evs) = Ok s1 ->
  sop_step RA s1 (STick d) = Ok s2 ->
  (Rabs (s_cur s2 - s_cur s1) <= m * IZR d / 1000)%R.
Proof.
  intros Hm Hnew Ho Hd Ht R1 R2.
  assert (0 <= total (map sev_time evs)).
  { apply total_nonneg. clear - Ho. induction Ho as [|x l Hx]; constructor; auto.
    destruct x; cbn in *; lia. }
  apply sinv_new in Hnew; auto.
  assert (I : SInv m (total (map sev_time evs)) s1).
  { change (total (map sev_time evs)) with (0 + total (map sev_time evs)).
    eapply sinv_events; eauto; lia. }
  eapply sinv_step; eauto.
Qed.

(** False when the speed is changed during a move: for every servo, the next tick then
    jumps by the whole difference accumulated since the start of the move. *)
Theorem C31_speed_change_during_move_refuted (s : servo RA) (t v1 v2 : R) (T d : Z) :
  sane s -> (s_min s <= s_cur s)%R -> (t <= s_max s)%R ->
  (0 < v1 < v2)%R -> (v2 <= s_maxvel s)%R -> 0 < T -> 0 <= d -> T + d < 4294967296 ->
  (s_cur s + v2 * IZR (T + d) / 1000 <= t)%R ->
  exists s1 s2,
    sop_run RA s (SVel (v1 : F RA) :: STarget RA t ++ [STick T; SVel (v2 : F RA)]) = Ok s1 /\
    sop_step RA s1 (STick d) = Ok s2 /\
    (s_cur s2 - s_cur s1 = v2 * IZR d / 1000 + (v2 - v1) * IZR T / 1000)%R /\
    (s_vel s2 * IZR d / 1000 < s_cur s2 - s_cur s1)%R.
Proof.
  intros Hsane H0 H1 Hv H2 HT Hd Hs Hfar.
  assert (0 < IZR T)%R as PT by (apply IZR_lt; lia).
  assert (0 <= IZR d)%R as PD by (apply IZR_le; lia).
  rewrite plus_IZR in Hfar.
  assert (FAR : (s_cur s + v1 * IZR T / 1000 < t)%R) by nra.
  set (sv := servo_set_vel RA s v1).
  assert (Esv : sv = with_vel RA s v1).
  { unfold sv. rewrite set_vel_RA. f_equal. mcases; lra. }
  set (st := servo_set_target RA sv t).
  assert (Ist : MInv (s_cur s) t v1 0 st).
  { unfold st. rewrite Esv. apply (minv_start (with_vel RA s v1) t). cbn; lra. }
  set (sa := servo_advance RA st T).
  assert (Isa : MInv (s_cur s) t v1 T sa).
  { change T with (0 + T). apply minv_tick; auto; try lia; lra. }
  assert (Csa : s_cur sa = (s_cur s + v1 * IZR T / 1000)%R).
  { rewrite (minv_cur _ _ _ _ _ Isa). unfold ideal.
    assert (0 < v1 * IZR T / 1000)%R by nra. mcases; rabs; lra. }
  destruct (advance_config st T) as (C1 & C2 & C3 & C4 & C5).
  assert (SAsane : sane sa).
  { unfold sane, sa. rewrite C1, C2, C3, C4. unfold st. rewrite Esv. exact Hsane. }
  assert (Mn : s_min sa = s_min s) by (unfold sa; rewrite C1; unfold st; rewrite Esv; reflexivity).
  assert (Mx : s_max sa = s_max s) by (unfold sa; rewrite C2; unfold st; rewrite Esv; reflexivity).
  destruct (move_in_range sa SAsane) as (p & Ep & _).
  { unfold in_range. rewrite Mn, Mx, Csa.
    assert (0 < v1 * IZR T / 1000)%R by nra. nra. }
  assert (MV : s_maxvel sa = s_maxvel s) by (unfold sa; rewrite C5; unfold st; rewrite Esv; reflexivity).
  set (sb := servo_set_vel RA sa v2).
  assert (Esb : sb = with_vel RA sa v2).
  { unfold sb. rewrite set_vel_RA, MV. f_equal. mcases; lra. }
  set (sc := servo_advance RA sb d).
  assert (Ist' : s_start sa = s_cur s).
  { destruct Isa as (_ & _ & _ & [(X & _)|(_ & _ & X)]); auto.
    exfalso. rabs; lra. }
  assert (Itg : s_target sa = t) by apply Isa.
  assert (Iel : s_elapsed sa = T) by apply Isa.
  assert (Csc : s_cur sc = (s_cur s + v2 * (IZR T + IZR d) / 1000)%R).
  { unfold sc. rewrite advance_eq, Esb. cbn [s_elapsed s_vel s_target s_start with_vel]. cbv zeta.
    rewrite Iel, Itg, Ist'. rewrite u32_small by lia. rewrite plus_IZR.
    assert (0 < v2 * (IZR T + IZR d) / 1000)%R by nra.
    destruct Rlt_dec as [X|X]; [exfalso; revert X; rabs; lra|].
    destruct Rlt_dec as [Y|Y]; [cbn; reflexivity | exfalso; lra]. }
  destruct (advance_config sb d) as (G1 & G2 & G3 & G4 & _).
  destruct (move_in_range sc) as (p2 & Ep2 & _).
  { unfold sane, sc. rewrite G1, G2, G3, G4. rewrite Esb. exact SAsane. }
  { unfold in_range. rewrite Csc. unfold sc. rewrite G1, G2, Esb. cbn. rewrite Mn, Mx.
    assert (0 < v2 * (IZR T + IZR d) / 1000)%R by nra. nra. }
  exists sb, sc. splits.
  - cbn [sop_run sop_step bind app STarget]. fold sv.
    change (set_target_3 RA (set_target_2 RA (set_target_1 RA sv)) t) with st.
    unfold servo_process. fold sa. rewrite Ep. cbn [bind]. reflexivity.
  - cbn [sop_step]. unfold servo_process. fold sc. rewrite Ep2. reflexivity.
  - rewrite Csc. rewrite Esb. cbn [s_cur with_vel]. rewrite Csa. unfold Rdiv. ring.
  - rewrite Csc. unfold sc. rewrite advance_vel. rewrite Esb. cbn [s_cur s_vel with_vel]. rewrite Csa.
    assert (0 < (v2 - v1) * IZR T / 1000)%R by nra.
    unfold Rdiv in *. nra.
Qed.

(** False when the timer interrupt falls between the first and the second statement of
    setTargetRadAngle: the old elapsed time is applied to the new start angle. *)
Theorem C31_interrupt_race_refuted (s : servo RA) (t t' : R) (T d : Z) :
  sane s -> (s_min s <= s_cur s)%R -> (t <= s_max s)%R ->
  (0 < s_vel s)%R -> 0 < T -> 0 <= d -> T + d < 4294967296 ->
  (s_cur s + s_vel s * IZR (T + (T + d)) / 1000 <= t)%R ->
  exists s1 s2 s3,
    sop_run RA s (STarget RA t ++ [STick T; SStmt1]) = Ok s1 /\
    sop_step RA s1 (STick d) = Ok s2 /\                         (* the interrupt *)
    sop_run RA s2 [SStmt2; SStmt3 (t' : F RA)] = Ok s3 /\       (* setTargetRadAngle(t') resumes *)
    (s_cur s2 - s_cur s1 = s_vel s * IZR (T + d) / 1000)%R /\
    (s_vel s2 * IZR d / 1000 < s_cur s2 - s_cur s1)%R.
Proof.
  intros Hsane H0 H1 Hv HT Hd Hs Hfar.
  assert (0 < IZR T)%R as PT by (apply IZR_lt; lia).
  assert (0 <= IZR d)%R as PD by (apply IZR_le; lia).
  rewrite !plus_IZR in Hfar.
  set (v := s_vel s) in *.
  assert (P1 : (0 < v * IZR T / 1000)%R) by nra.
  assert (P2 : (0 <= v * IZR d / 1000)%R) by nra.
  assert (PE : (v * (IZR T + (IZR T + IZR d)) / 1000 = v * IZR T / 1000 + (v * IZR T / 1000 + v * IZR d / 1000))%R)
    by (unfold Rdiv; ring).
  rewrite PE in Hfar. clear PE.
  set (st := servo_set_target RA s t).
  assert (Ist : MInv (s_cur s) t v 0 st) by (apply (minv_start s t Hv)).
  set (sa := servo_advance RA st T).
  assert (Isa : MInv (s_cur s) t v T sa).
  { change T with (0 + T). apply minv_tick; auto; try lia; lra. }
  assert (Csa : s_cur sa = (s_cur s + v * IZR T / 1000)%R).
  { rewrite (minv_cur _ _ _ _ _ Isa). unfold ideal. mcases; rabs; lra. }
  destruct (advance_config st T) as (C1 & C2 & C3 & C4 & C5).
  assert (SAsane : sane sa) by (unfold sane, sa; rewrite C1, C2, C3, C4; exact Hsane).
  assert (Mn : s_min sa = s_min s) by (unfold sa; rewrite C1; reflexivity).
  assert (Mx : s_max sa = s_max s) by (unfold sa; rewrite C2; reflexivity).
  destruct (move_in_range sa SAsane) as (p & Ep & _).
  { unfold in_range. rewrite Mn, Mx, Csa. lra. }
  set (sb := set_target_1 RA sa).
  set (sc := servo_advance RA sb d).
  assert (Itg : s_target sa = t) by apply Isa.
  assert (Iel : s_elapsed sa = T) by apply Isa.
  assert (Ivl : s_vel sa = v) by apply Isa.
  assert (Csc : s_cur sc = (s_cur sa + v * (IZR T + IZR d) / 1000)%R).
  { unfold sc. rewrite advance_eq. unfold sb, set_target_1.
    cbn [s_elapsed s_vel s_target s_start s_cur with_start]. cbv zeta.
    rewrite Iel, Itg, Ivl. rewrite u32_small by lia. rewrite plus_IZR.
    replace (v * (IZR T + IZR d) / 1000)%R with (v * IZR T / 1000 + v * IZR d / 1000)%R by (unfold Rdiv; ring).
    rewrite Csa.
    destruct Rlt_dec as [X|X]; [exfalso; revert X; rabs; lra|].
    destruct Rlt_dec as [Y|Y]; [cbn; lra | exfalso; lra]. }
  destruct (advance_config sb d) as (G1 & G2 & G3 & G4 & _).
  assert (PE : (v * (IZR T + IZR d) / 1000 = v * IZR T / 1000 + v * IZR d / 1000)%R) by (unfold Rdiv; ring).
  destruct (move_in_range sc) as (p2 & Ep2 & _).
  { unfold sane, sc. rewrite G1, G2, G3, G4. exact SAsane. }
  { unfold in_range. rewrite Csc. unfold sc. rewrite G1, G2. unfold sb; cbn. rewrite Mn, Mx, Csa. lra. }
  exists sb, sc, (set_target_3 RA (set_target_2 RA sc) t'). splits.
  - cbn [sop_run sop_step bind app STarget].
    change (set_target_3 RA (set_target_2 RA (set_target_1 RA s)) t) with st.
    unfold servo_process. fold sa. rewrite Ep. cbn [bind]. reflexivity.
  - cbn [sop_step]. unfold servo_process. fold sc. rewrite Ep2. reflexivity.
  - reflexivity.
  - rewrite Csc, plus_IZR. change (s_cur sb) with (s_cur sa). lra.
  - rewrite Csc. change (s_cur sb) with (s_cur sa). unfold sc. rewrite advance_vel.
    change (s_vel sb) with (s_vel sa). rewrite Ivl. lra.
Qed.

Example C31_refutations_reachable :
  sane demo_servo /\ (s_min demo_servo <= s_cur demo_servo)%R /\ (1 <= s_max demo_servo)%R /\
  (s_cur demo_servo + 5 * IZR (100 + 20) / 1000 <= 1)%R /\
  (s_cur demo_servo + s_vel demo_servo * IZR (100 + (100 + 20)) / 1000 <= 1)%R.
Proof. unfold sane; cbn. splits; try lra; try lia. Qed.

Print Assumptions C28_monotone_to_target.
Print Assumptions C28_stays_at_target.
Print Assumptions C28_motion_is_defined.
Print Assumptions C29_speed_in_range.
Print Assumptions C29_speed_in_range_ieee.
Print Assumptions C30_pulse_in_calibration.
Print Assumptions C30_pulse_monotone.
Print Assumptions C30_recalibrated.
Print Assumptions C31_tick_speed_limit_partial.
Print Assumptions C31_speed_change_during_move_refuted.
Print Assumptions C31_interrupt_race_refuted.
