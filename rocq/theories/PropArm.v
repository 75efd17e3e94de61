(** * C53: the arm as a whole: motion controller + kinematics + servos, in exact arithmetic.

    The motion controller (RobotModel) is put together with the real kinematics (KinModel). *)
From Coq Require Import Reals Lra Psatz.
From Verif Require Import Base Arith ServoModel ServoSpec ServoProofs RobotModel RobotSpec RobotProofs RobotExact PropRobot
  KinModel KinSpec KinProofs KinEuler KinInv KinWrist KinSolve KinNan KinReach PropKin ConfigModel PropConfig.

(** Kinematic::inverse as the motion controller uses it: the six angles, or nothing for
    OUT_OF_RANGE (Kinematic.cpp:215-225) *)
Definition all_numbers (a : V6 (option R)) : option (V6 R) :=
  match a with
  | mk6 (Some a0) (Some a1) (Some a2) (Some a3) (Some a4) (Some a5) => Some (mk6 a0 a1 a2 a3 a4 a5)
  | _ => None
  end.
Definition exact_inverse (g : geom R) (p : V6 R) : option (V6 R) :=
  let (status, a) := kin_inverse NRA (kin_new NRA (someG g)) (some6 p) (some6 p) in
  if status =? 0 then all_numbers a else None.
Definition exact_forward (g : geom R) : V6 R -> V6 R := kin_forward RA (kin_new RA g).

Open Scope R_scope.
Lemma all_numbers_some (a : V6 (option R)) (b : V6 R) : all_numbers a = Some b -> a = some6 b.
Proof.
  destruct a as [a0 a1 a2 a3 a4 a5]. cbn [all_numbers].
  destruct a0, a1, a2, a3, a4, a5; intros H; inversion H; reflexivity.
Qed.
Lemma exact_inverse_ok g p a : exact_inverse g p = Some a ->
  kin_inverse NRA (kin_new NRA (someG g)) (some6 p) (some6 p) = (0%Z, some6 a).
Proof.
  unfold exact_inverse. destruct kin_inverse as [st x]. destruct (st =? 0)%Z eqn:E; [|discriminate].
  apply Z.eqb_eq in E. subst. intros H. now rewrite (all_numbers_some _ _ H).
Qed.

(** the poses the controller can plan are the reachable ones *)
Theorem C53_plannable_iff_reachable : forall g p, documented g -> as_shipped g ->
  (reachable g p <-> exists a, exact_inverse g p = Some a).
Proof.
  intros g p G S. destruct (C45_ok_iff_reachable g p (some6 p) G S) as (A & _ & C & _). split.
  - intros H. apply A in H. destruct (C H) as [j E]. exists j.
    unfold exact_inverse. destruct kin_inverse as [st x]. cbn [fst snd] in *. subst. destruct j; reflexivity.
  - intros [a H]. apply A. rewrite (exact_inverse_ok _ _ _ H). reflexivity.
Qed.

Lemma sin_abs_le x : Rabs (sin x) <= Rabs x.
Proof.
  assert (P : forall y, 0 < y -> Rabs (sin y) <= y).
  { intros y Hy. pose proof (sin_lt_x y Hy). pose proof (SIN_bound y). unfold Rabs at 1. destruct Rcase_abs; [|lra].
    destruct (Rlt_dec y 1); [|lra]. pose proof PI2_3_2. pose proof (sin_gt_0 y Hy). lra. }
  destruct (Rtotal_order x 0) as [L|[->|L]].
  - rewrite <- Rabs_Ropp, <- sin_neg, (Rabs_left x) by lra. apply P. lra.
  - rewrite sin_0. lra.
  - rewrite (Rabs_pos_eq x) by lra. apply P. lra.
Qed.
Lemma near_cos r : at_singularity (A:=RA) (mk6 0 0 0 0 r 0) = true -> Rabs (cos r) <= 1/20.
Proof.
  unfold at_singularity. cbn [at6 dlt dabs dsub ddiv f2d dpi ddec RA v4]. rewrite rdec_int.
  replace (rdec false 5 (-2)) with (1/20). 2:{ unfold rdec. assert (E : powerRZ 10 (-2) = / 100).
      { unfold powerRZ. replace (Pos.to_nat 2) with 2%nat by reflexivity. f_equal. cbn [pow]. ring. }
      rewrite E. lra. }
  intros H. apply rltb_true in H. rewrite <- sin_shift. pose proof (sin_abs_le (PI / 2 - r)) as B.
  rewrite <- Rabs_Ropp in H. replace (- (r - PI / 2)) with (PI / 2 - r) in H by ring. lra.
Qed.

Lemma dist_rot f u v : rotation f -> dist (f u) (f v) = dist u v.
Proof.
  intros H. unfold dist, norm3R. f_equal.
  pose proof (rot_dot f H u u) as A. pose proof (rot_dot f H u v) as B. pose proof (rot_dot f H v v) as C.
  set (x := f u) in *. set (y := f v) in *. v3. lra.
Qed.
Lemma dist_add a u v : dist (add3 a u) (add3 a v) = dist u v.
Proof. unfold dist, norm3R. f_equal. v3. ring. Qed.
Lemma dist_refl u : dist u u = 0.
Proof. unfold dist, norm3R. replace (dot3 (sub3 u u) (sub3 u u)) with 0 by (v3; ring). apply sqrt_0. Qed.

(** turning joint 3 with joint 4 near 90 degrees hardly moves the tool *)
Lemma circle_dist (z c s a b d e : R) : a * a + b * b = 1 -> d * d + e * e = 1 -> 
  dist (scale3 z (mk3 s (a * c) (b * c))) (scale3 z (mk3 s (d * c) (e * c))) <= 2 * Rabs z * Rabs c.
Proof.
  intros H1 H2. unfold dist, norm3R.
  apply Rle_trans with (sqrt ((2 * Rabs z * Rabs c) * (2 * Rabs z * Rabs c))).
  - apply sqrt_le_1_alt.
    replace ((2 * Rabs z * Rabs c) * (2 * Rabs z * Rabs c)) with (4 * (z * z * (c * c))).
    2:{ replace (2 * Rabs z * Rabs c * (2 * Rabs z * Rabs c)) with (4 * ((Rabs z * Rabs z) * (Rabs c * Rabs c))) by ring.
        assert (Q : forall x, Rabs x * Rabs x = x * x).
        { intros x. rewrite <- Rabs_mult. apply Rabs_pos_eq. apply Rle_0_sqr. }
        rewrite !Q. reflexivity. }
    v3.
    match goal with |- ?l <= _ => replace l with ((z * z * (c * c)) * ((a - d) * (a - d) + (b - e) * (b - e))) by ring end.
    assert (Q : (a - d) * (a - d) + (b - e) * (b - e) <= 4).
    { pose proof (Rle_0_sqr (a + d)). pose proof (Rle_0_sqr (b + e)). unfold Rsqr in *. nra. }
    assert (0 <= z * z * (c * c)) by (apply Rmult_le_pos; apply Rle_0_sqr). nra.
  - rewrite sqrt_square; [lra|]. pose proof (Rabs_pos z). pose proof (Rabs_pos c). nra.
Qed.
Definition wrist_turned (a : V6 R) (s3 s5 : R) : V6 R := mk6 (v0 a) (v1 a) (v2 a) s3 (v4 a) s5.
Lemma turned_tip g a s3 s5 : documented g ->
  dist (tip g (wrist_turned a s3 s5)) (tip g a) <= 2 * Rabs (vz (g4 g)) * Rabs (cos (v4 a)).
Proof.
  intros (G1 & G2 & G3 & G4).
  assert (J : joint4 g (wrist_turned a s3 s5) = joint4 g a).
  { unfold joint4. f_equal. unfold link3, wrist_turned. cbn [v3].
    assert (E : forall t, rotx t (g3 g) = g3 g).
    { intros t. apply v3_eta; v3; rewrite ?G1, ?G2; ring. }
    rewrite !E. reflexivity. }
  unfold tip. rewrite J, dist_add.
  assert (E : forall j, link4 j (g4 g) = link2 j (scale3 (vz (g4 g)) (mk3 (sin (v4 j)) (- sin (v3 j) * cos (v4 j)) (cos (v3 j) * cos (v4 j))))).
  { intros j. unfold link4, link3. f_equal. apply v3_eta; v3; rewrite ?G3, ?G4; ring. }
  rewrite !E. change (link2 (wrist_turned a s3 s5)) with (link2 a). rewrite (dist_rot _ _ _ (rotation_link2 a)).
  unfold wrist_turned. cbn [v3 v4]. apply circle_dist.
  - pose proof (cs1 s3). lra.
  - pose proof (cs1 (v3 a)). lra.
Qed.
Lemma turned_axis a s3 s5 : dist (flange (wrist_turned a s3 s5) ez) (flange a ez) <= 2 * Rabs (cos (v4 a)).
Proof.
  rewrite !flange_is_hand. change (link2 (wrist_turned a s3 s5)) with (link2 a). rewrite (dist_rot _ _ _ (rotation_link2 a)), !hand_ez.
  unfold wrist_turned. cbn [v3 v4 v5].
  pose proof (circle_dist 1 (cos (v4 a)) (- sin (v4 a)) (sin s3) (- cos s3) (sin (v3 a)) (- cos (v3 a))) as C.
  rewrite Rabs_R1 in C. 
  match type of C with _ -> _ -> dist ?x ?y <= _ => match goal with |- dist ?u ?v <= _ => replace u with x; [replace v with y|] end end.
  - pose proof (cs1 s3). pose proof (cs1 (v3 a)). lra.
  - v3. apply f_equal3_mk3; ring.
  - v3. apply f_equal3_mk3; ring.
Qed.

Section Arm.
Context (g : geom R) (l2p p2l : V6 R -> V6 R) (limits : V6 (R * R)).
Context (G : documented g) (S : as_shipped g).
Context (coupling : forall a, p2l (l2p a) = a).
Notation process := (r_process RA (exact_forward g) (exact_inverse g) l2p p2l limits).
Notation run := (r_run RA (exact_forward g) (exact_inverse g) l2p p2l limits).
Notation pose := (current_pose RA (exact_forward g) p2l).

(** after a commanded step the servos are where they were sent *)
Lemma step_arrives (rs r1 : robot RA) evs : RR rs -> RR r1 ->
  r_start_move RA (exact_forward g) (exact_inverse g) l2p p2l limits rs = Ok (r1, evs) -> servo_cmds evs <> [] ->
  exists (tl : V6 R) (time : R) es T,
    r_plan RA (exact_inverse g) (with_steps RA rs (u32 (r_cur rs + 1)) (r_total rs)) = Ok (PMove (A:=RA) tl time, es) /\
    waypoints evs = waypoints es /\ 0 < T /\
    forall dts, Forall (fun d => (0 <= d)%Z) dts -> (total dts < 4294967296)%Z -> 1000 * T <= IZR (total dts) ->
    exists r2, run r1 (map OTick dts) = Ok (r2, []) /\ current_logical RA p2l r2 = tl.
Proof.
  intros Hs H1 E N.
  destruct (start_move_timing (exact_forward g) (exact_inverse g) l2p p2l limits rs r1 evs Hs E N)
    as (p & es & tl & time & T & P & -> & TP & TL & SP & CM & SV & LST).
  exists tl, time, es, T. split; [exact P|]. split.
  { pose proof (plan_events _ _ _ _ _ P) as [_ P2]. rewrite P2. 
    apply (start_move_waypoints RA (exact_forward g) (exact_inverse g) l2p p2l limits) in E.
    exact E. }
  split; [exact TP|]. intros dts Hd Ht HT.
  assert (RT : forall l r, RR r -> exists r2, run r (map OTick l) = Ok (r2, []) /\ RR r2).
  { clear. induction l as [|d l IH]; intros r H; [exists r; auto|].
    destruct (RR_tick r d H) as (x & Ex & Hx). destruct (IH x Hx) as (y & Ey & Hy).
    exists y. split; auto. cbn [map r_run r_step]. rewrite Ex. cbn [bind]. rewrite Ey. reflexivity. }
  destruct (RT dts r1 H1) as (r2 & E2 & H2). exists r2. split; [exact E2|].
  pose proof (step_progress (exact_forward g) (exact_inverse g) l2p p2l limits rs r1 (l2p tl) T dts r2 _ Hs TP SV Hd Ht E2) as X.
  assert (PR : progress T (IZR (total dts)) = 1).
  { unfold progress. apply Rmin_left. apply (Rmult_le_reg_r (1000 * T)); [lra|].
    unfold Rdiv. rewrite Rmult_assoc, Rinv_l by lra. lra. }
  rewrite PR in X. unfold axes in X. cbn [at6] in X. destruct X as ((X0 & _) & (X1 & _) & (X2 & _) & (X3 & _) & (X4 & _) & (X5 & _)).
  unfold current_logical. rewrite <- (coupling tl). f_equal. unfold servo_angles, map6.
  destruct (l2p tl) as [a0 a1 a2 a3 a4 a5]. cbn [v0 v1 v2 v3 v4 v5] in *.
  assert (Q : forall c a : R, c + (a - c) * 1 = a) by (intros; ring).
  rewrite X0, X1, X2, X3, X4, X5, !Q. reflexivity.
Qed.

(** the pose [q] realises the requested pose [w] *)
Definition realises (q w : V6 R) : Prop := position q = position w /\ tool q ez = tool w ez.

Lemma exact_pose w a : exact_inverse g w = Some a ->
  realises (exact_forward g a) w /\ (cos (v4 a) <> 0 -> forall v, tool (exact_forward g a) v = tool w v).
Proof.
  intros E. apply exact_inverse_ok in E. destruct (C44_inverse_then_forward_partial g w a _ G S E) as (P & Q & O).
  split; [split|]; assumption.
Qed.

(** ** C53, linear moves: each step brings the tool to its waypoint *)
Theorem C53_step_reaches_waypoint : forall (r r1 : robot RA) evs (w : V6 R),
  RR r -> process r = Ok (r1, evs) -> waypoints evs = [w] -> servo_cmds evs <> [] ->
  exists (a : V6 R) T, exact_inverse g w = Some a /\ 0 < T /\
    forall dts, Forall (fun d => (0 <= d)%Z) dts -> (total dts < 4294967296)%Z -> 1000 * T <= IZR (total dts) ->
    exists r2, run r1 (map OTick dts) = Ok (r2, []) /\
      (at_singularity (A:=RA) a = false ->
         realises (pose r2) w /\ (cos (v4 a) <> 0 -> forall v, tool (pose r2) v = tool w v)) /\
      (at_singularity (A:=RA) a = true ->
         dist (position (pose r2)) (position w) <= Rabs (vz (g4 g)) / 10 /\
         dist (tool (pose r2) ez) (tool w ez) <= 1 / 10).
Proof.
  intros r r1 evs w H E W N. apply process_cases in E as [[-> _]|(rs & E & Ss & _)]; [now destruct N|].
  assert (Hs : RR rs) by (unfold RR; rewrite Ss; exact H).
  assert (H1 : RR r1) by (eapply RR_start_move; eauto).
  destruct (step_arrives rs r1 evs Hs H1 E N) as (tl & time & es & T & P & WE & TP & X).
  rewrite W in WE. unfold r_plan in P. destruct (r_method (with_steps RA rs (u32 (r_cur rs + 1)) (r_total rs))).
  - inversion P; subst. discriminate.
  - match type of P with context [exact_inverse g ?p] => change p with (p : V6 R) in P; remember (p : V6 R) as w' eqn:EW in P; clear EW end.
    match type of P with context [exact_inverse g ?p] => destruct (exact_inverse g p) as [a|] eqn:I; [|inversion P] end.
    inversion P as [[P1 P2 P3]]. subst es. cbn [waypoints] in WE. injection WE as ->.
    exists a, T. split; [exact I|]. split; [exact TP|]. intros dts D1 D2 D3. destruct (X dts D1 D2 D3) as (r2 & R2 & L2).
    exists r2. split; [exact R2|]. unfold current_pose. rewrite L2, <- P1.
    destruct (exact_pose _ _ I) as ((E1 & E2) & E3).
    unfold singularity. change (near_singular RA (v4 a)) with (at_singularity (A:=RA) a).
    split; intros A; rewrite A.
    + split; [split; assumption|exact E3].
    + match goal with |- context [set6 (set6 a 3 ?x) 5 ?y] => 
        change (set6 (set6 a 3 x) 5 y) with (wrist_turned a x y);
        generalize x y; intros s3 s5 end.
      change (at_singularity (A:=RA) a) with (at_singularity (A:=RA) (mk6 0 0 0 0 (v4 a) 0)) in A.
      apply near_cos in A. rewrite <- E1, <- E2. unfold exact_forward.
      rewrite !C41_position_is_tip, !C43_reported_orientation. split.
      * pose proof (turned_tip g a s3 s5 G). pose proof (Rmult_le_compat_l _ _ _ (Rabs_pos (vz (g4 g))) A).
        eapply Rle_trans; [eassumption|]. lra.
      * eapply Rle_trans; [apply turned_axis|]. lra.
  - discriminate.
Qed.

(** ** C53, point-to-point moves to a pose *)
Theorem C53_p2p_reaches_pose : forall (r r1 : robot RA) evs (w : V6 R),
  RR r -> r_method r = P2P -> r_trans r = false -> r_achg r = false -> reachable g w ->
  run r [OSetPose6 (A:=RA) w; OProcess] = Ok (r1, evs) -> servo_cmds evs <> [] ->
  exists (a : V6 R) T, exact_inverse g w = Some a /\ 0 < T /\
    forall dts, Forall (fun d => (0 <= d)%Z) dts -> (total dts < 4294967296)%Z -> 1000 * T <= IZR (total dts) ->
    exists r2, run r1 (map OTick dts) = Ok (r2, []) /\
      realises (pose r2) w /\ (cos (v4 a) <> 0 -> forall v, tool (pose r2) v = tool w v).
Proof.
  intros r r1 evs w H M TR AC RE E N.
  destruct (proj1 (C53_plannable_iff_reachable g w G S) RE) as [a I].
  cbn [r_run r_step bind] in E.
  destruct (process (set_pose6 RA r w)) as [[rx ex]|] eqn:Ep; [|discriminate]. cbn [bind] in E. 
  inversion E; subst rx evs; clear E. rewrite app_nil_r in N. cbn [app] in N.
  unfold r_process, set_pose6 in Ep. cbn [r_state with_state] in Ep.
  apply prepare_cases in Ep as [(X & _) | [(_ & X & _) | (_ & _ & [(_ & _ & ->) | (_ & k & Hn & K)])]];
    [cbn in X; congruence | cbn in X; congruence | contradiction |].
  match type of K with r_start_move _ _ _ _ _ _ ?x = _ => set (rs := x) in * end.
  assert (Ss : r_servos rs = r_servos r).
  { unfold rs. cbn [r_servos with_state with_steps]. rewrite prepared_servos. reflexivity. }
  assert (Hs : RR rs) by (unfold RR; rewrite Ss; exact H).
  assert (H1 : RR r1) by (eapply RR_start_move; eauto).
  destruct (step_arrives rs r1 _ Hs H1 K N) as (tl & time & es & T & P & _ & TP & X).
  assert (MM : r_method (with_steps RA rs (u32 (r_cur rs + 1)) (r_total rs)) = P2P).
  { unfold rs. cbn [r_method with_state with_steps]. rewrite prepared_method. exact M. }
  assert (TA : r_targetA (with_steps RA rs (u32 (r_cur rs + 1)) (r_total rs)) = a).
  { unfold rs. cbn. rewrite AC, I. reflexivity. }
  unfold r_plan in P. rewrite MM, TA in P. inversion P as [[P1 P2 P3]]. subst tl.
  exists a, T. split; [exact I|]. split; [exact TP|]. intros dts D1 D2 D3. destruct (X dts D1 D2 D3) as (r2 & R2 & L2).
  exists r2. split; [exact R2|]. unfold current_pose. rewrite L2. apply exact_pose. exact I.
Qed.

(** a reachable pose inside all limits is executed *)
Theorem C53_p2p_legal_pose_is_executed : forall (r : robot RA) (w target : V6 R),
  RR r -> r_method r = P2P -> (0 < r_maxvel r)%R -> r_trans r = false -> r_achg r = false ->
  exact_inverse g w = Some target ->
  within (A:=RA) l2p limits (r_servos r) target -> ~ close (current_logical RA p2l r) target ->
  exists r1 evs vels, run r [OSetPose6 (A:=RA) w; OProcess] = Ok (r1, evs) /\
    servo_cmds evs = all_six (A:=RA) vels (l2p target) /\ is_moving r1 = true.
Proof.
  intros r w target H M V TR AC I [W1 W2] N.
  cbn [r_run r_step bind]. unfold r_process, set_pose6. cbn [r_state with_state].
  unfold r_prepare. cbn [r_trans r_achg r_pchg r_targetP r_targetA with_state with_flags with_targets]. rewrite TR, AC, I. cbn [andb].
  cbv zeta.
  match goal with |- context [angles_equal RA ?x ?y] =>
    change (angles_equal RA x y) with (angles_equal RA (current_logical RA p2l r) target) end.
  destruct (angles_equal RA (current_logical RA p2l r) target) eqn:AE; [exfalso; apply N; apply angles_equal_RA; exact AE|].
  cbn [r_method with_state with_flags with_targets with_starts]. rewrite M. cbn [bind].
  match goal with |- context [r_start_move _ _ _ _ _ _ ?x] => set (rs := x) in * end.
  assert (MS : r_method rs = P2P) by exact M.
  set (time := (max_change RA (current_logical RA p2l r) target / r_maxvel r * RAD_TO_DEG RA)%R).
  destruct (start_move_p2p_accept RA (exact_forward g) (exact_inverse g) l2p p2l limits rs time MS) as (r1 & evs & vels & E & C & SM).
  - apply outside_iff. exact W1.
  - apply outside_iff. exact W2.
  - reflexivity.
  - change (r_targetA rs) with target.
    destruct (feq RA (min_time RA rs (l2p target) time) (fofz RA 0)) eqn:Q; [|reflexivity].
    exfalso. apply reqb_true in Q. apply N. unfold close.
    assert (B := fold_max (list6 (zip6 (fdiv RA) (travel RA rs (l2p target)) (map6 s_maxvel (r_servos rs)))) time).
    cbv zeta in B. destruct B as [B _]. fold (min_time RA rs (l2p target) time) in B. rewrite Q in B. change (fofz RA 0) with 0%R in B.
    unfold time in B.
    assert (B2 := fold_max (list6 (map6 (fabsf RA) (zip6 (fsub RA) (current_logical RA p2l r) target))) 0%R).
    cbv zeta in B2. destruct B2 as [B1 B2].
    change (fold_left (fun m x : F RA => if flt RA m x then x else m)
             (list6 (map6 (fabsf RA) (zip6 (fsub RA) (current_logical RA p2l r) target))) 0%R)
      with (max_change RA (current_logical RA p2l r) target) in B1, B2.
    set (mc := max_change RA (current_logical RA p2l r) target) in *. clearbody mc.
    assert (RP : (0 < RAD_TO_DEG RA)%R) by (apply rdec_pos; lia).
    assert (IV : (0 < / r_maxvel r)%R) by (apply Rinv_0_lt_compat; auto).
    assert (Z : mc = 0%R).
    { destruct (Rle_lt_or_eq_dec 0 mc B1) as [X|X]; auto. exfalso.
      assert (0 < mc / r_maxvel r)%R by (unfold Rdiv; apply Rmult_lt_0_compat; auto).
      assert (0 < mc / r_maxvel r * RAD_TO_DEG RA)%R by (apply Rmult_lt_0_compat; auto). lra. }
    rewrite Z in B2. unfold list6 in B2. cbn [map6 zip6 v0 v1 v2 v3 v4 v5 fsub fabsf RA] in B2.
    apply Forall_cons_iff in B2 as [C0 B2]. apply Forall_cons_iff in B2 as [C1 B2].
    apply Forall_cons_iff in B2 as [C2 B2]. apply Forall_cons_iff in B2 as [C3 B2].
    apply Forall_cons_iff in B2 as [C4 B2]. apply Forall_cons_iff in B2 as [C5 _].
    unfold axes; cbn [at6]. splits; (eapply Rle_lt_trans; [eassumption|lra]).
  - rewrite E. cbn [bind]. exists r1, (evs ++ []), vels. rewrite app_nil_r.
    split; [reflexivity|]. split; [exact C|]. unfold is_moving. now rewrite SM.
Qed.
End Arm.

(** ** The robot kit *)
(** mp-robot-kit's coupling is inverted exactly (C40), so C53 holds for the shipped robot *)
Theorem C53_kit : forall (limits : V6 (R * R)) (r r1 : robot RA) evs (w : V6 R),
  RR r -> r_process RA (exact_forward kit_geometry) (exact_inverse kit_geometry) (kit_l2p RA) (kit_p2l RA) limits r = Ok (r1, evs) ->
  waypoints evs = [w] -> servo_cmds evs <> [] ->
  exists (a : V6 R) T, exact_inverse kit_geometry w = Some a /\ 0 < T /\
    forall dts, Forall (fun d => (0 <= d)%Z) dts -> (total dts < 4294967296)%Z -> 1000 * T <= IZR (total dts) ->
    exists r2, r_run RA (exact_forward kit_geometry) (exact_inverse kit_geometry) (kit_l2p RA) (kit_p2l RA) limits r1 (map OTick dts) = Ok (r2, []) /\
      let q := current_pose RA (exact_forward kit_geometry) (kit_p2l RA) r2 in
      (at_singularity (A:=RA) a = false -> position q = position w /\ tool q ez = tool w ez) /\
      (at_singularity (A:=RA) a = true ->
         dist (position q) (position w) <= 3 / 10 /\ dist (tool q ez) (tool w ez) <= 1 / 10).
Proof.
  intros limits r r1 evs w H E W N. destruct C44_kit_geometry as [G S].
  destruct (C53_step_reaches_waypoint kit_geometry (kit_l2p RA) (kit_p2l RA) limits G S (fun a => proj1 (C40_kit a)) r r1 evs w H E W N)
    as (a & T & I & TP & X).
  exists a, T. split; [exact I|]. split; [exact TP|]. intros dts D1 D2 D3. destruct (X dts D1 D2 D3) as (r2 & R2 & L & M).
  exists r2. split; [exact R2|]. cbv zeta. split; intros AS.
  - destruct (L AS) as [[P Q] _]. split; assumption.
  - destruct (M AS) as [P Q]. split; [|exact Q]. eapply Rle_trans; [exact P|].
    unfold kit_geometry. cbn [g4 vz]. rewrite Rabs_left by lra. lra.
Qed.

(** a concrete case: the kit's home pose, approached with joint 0 turned by one radian, on an
    arm with wide limits; the controller executes it *)
Definition wide_servo (x lim : R) : servo RA := mkServo RA 3 false x 700 2380 0 x x x (- lim) lim 5 5.
Definition big (a : V6 R) : R :=
  2 + Rabs (v0 a) + Rabs (v1 a) + Rabs (v2 a) + Rabs (v3 a) + Rabs (v4 a) + Rabs (v5 a).
Lemma big_in (a : V6 R) : axes (fun i => - big a < at6 a i - 1 /\ at6 a i + 1 < big a).
Proof.
  unfold axes, big. cbn [at6].
  pose proof (Rle_abs (v0 a)). pose proof (Rle_abs (v1 a)). pose proof (Rle_abs (v2 a)).
  pose proof (Rle_abs (v3 a)). pose proof (Rle_abs (v4 a)). pose proof (Rle_abs (v5 a)).
  pose proof (Rle_abs (- v0 a)) as N0. pose proof (Rle_abs (- v1 a)) as N1. pose proof (Rle_abs (- v2 a)) as N2.
  pose proof (Rle_abs (- v3 a)) as N3. pose proof (Rle_abs (- v4 a)) as N4. pose proof (Rle_abs (- v5 a)) as N5.
  rewrite Rabs_Ropp in N0, N1, N2, N3, N4, N5. repeat split; lra.
Qed.
Example C53_case : exists limits r w r1 evs,
  RR r /\ r_method r = P2P /\ r_trans r = false /\ r_achg r = false /\ reachable kit_geometry w /\
  r_run RA (exact_forward kit_geometry) (exact_inverse kit_geometry) (fun a => a) (fun a => a) limits r
     [OSetPose6 (A:=RA) w; OProcess] = Ok (r1, evs) /\ servo_cmds evs <> [].
Proof.
  destruct C44_kit_geometry as [G S]. destruct C45_kit_home_reachable as [_ [a I]].
  set (w := mk6 (1775/100) 0 (181/10) PI 0 PI : V6 R) in *.
  assert (RE : reachable kit_geometry w).
  { apply (proj1 (C45_ok_iff_reachable kit_geometry w (some6 w) G S)). rewrite I. reflexivity. }
  assert (EI : exact_inverse kit_geometry w = Some a).
  { unfold exact_inverse. rewrite I. destruct a; reflexivity. }
  set (b := big a).
  set (lim := mk6 (- b, b) (- b, b) (- b, b) (- b, b) (- b, b) (- b, b) : V6 (R * R)).
  set (sv := mk6 (wide_servo (v0 a + 1) b) (wide_servo (v1 a) b) (wide_servo (v2 a) b)
                 (wide_servo (v3 a) b) (wide_servo (v4 a) b) (wide_servo (v5 a) b)).
  set (r := robot_new RA (exact_forward kit_geometry) (fun a => a) sv).
  pose proof (big_in a) as B. fold b in B. unfold axes in B. cbn [at6] in B.
  assert (HR : RR r).
  { unfold RR, axes, SR, sane, in_range. cbn. unfold in_range. cbn. destruct B as (B0 & B1 & B2 & B3 & B4 & B5).
    splits; try lia; lra. }
  destruct (C53_p2p_legal_pose_is_executed kit_geometry (fun a => a) (fun a => a) lim r w a HR) as (r1 & evs & vels & E & C & _);
    try reflexivity; try assumption.
  - cbn. lra.
  - unfold within, axes, not_outside. cbn. destruct B as (B0 & B1 & B2 & B3 & B4 & B5). splits; apply rltb_false; lra.
  - intros [X _]. cbn in X. replace (v0 a + 1 - v0 a) with 1 in X by ring. rewrite Rabs_R1 in X. lra.
  - exists lim, r, w, r1, evs. splits; try reflexivity; try assumption. rewrite C. discriminate.
Qed.
