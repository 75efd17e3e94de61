(** * RobotExact: lemmas about the robot controller in exact arithmetic. *)
From Verif Require Import Base Arith ServoModel ServoSpec ServoProofs RobotModel RobotSpec RobotProofs.
From Coq Require Import Reals Lra.
Open Scope Z_scope.

(** a servo in working order: calibrated, inside its limits, moving at an allowed speed *)
Definition SR (s : servo RA) : Prop :=
  sane s /\ in_range s (s_start s) /\ in_range s (s_cur s) /\ in_range s (s_target s) /\
  (1 / 10 <= s_maxvel s)%R /\ (0 < s_vel s <= s_maxvel s)%R.

Lemma advance_on_way (s : servo RA) d : (0 < s_vel s)%R ->
  on_way (s_start s) (s_cur (servo_advance RA s d)) (s_target s) /\
  (s_start (servo_advance RA s d) = s_start s \/ s_start (servo_advance RA s d) = s_target s) /\
  s_target (servo_advance RA s d) = s_target s.
Proof.
  intros V. rewrite advance_eq. cbv zeta.
  pose proof (u32_range (s_elapsed s + d)) as [U _].
  apply IZR_le in U. set (T := IZR (u32 (s_elapsed s + d))) in *.
  assert (0 <= s_vel s * T / 1000)%R as P by nra. set (dl := (s_vel s * T / 1000)%R) in *.
  unfold on_way. mcases; cbn; rabs; splits; auto; lra.
Qed.

Lemma SR_advance s d : SR s -> SR (servo_advance RA s d).
Proof.
  intros (S & A & B & C & M & V).
  destruct (advance_config s d) as (C1 & C2 & C3 & C4 & C5).
  destruct (advance_on_way s d) as (W & ST & TG); [lra|].
  unfold SR, sane, in_range in *. rewrite C1, C2, C3, C4, C5, TG, advance_vel. splits; try tauto.
  all: try (destruct ST as [ST|ST]; rewrite ST; tauto).
  all: pose proof (on_way_range _ _ _ _ _ W A C); tauto.
Qed.

Lemma SR_process s d : SR s -> exists s' p, servo_process RA s d = Ok (s', p) /\ SR s' /\
  s' = servo_advance RA s d.
Proof.
  intros H. pose proof (SR_advance s d H) as H'. unfold servo_process.
  destruct (move_in_range (servo_advance RA s d)) as (p & E & _); [apply H' | apply H' |].
  cbv zeta. rewrite E. cbn. eauto.
Qed.

Lemma SR_command (s : servo RA) (v a : R) : SR s -> in_range s a ->
  SR (servo_set_target RA (servo_set_vel RA s v) a).
Proof.
  intros (S & A & B & C & M & V) R. rewrite set_vel_RA. unfold SR, sane, in_range in *; cbn.
  splits; try tauto; mcases; lra.
Qed.

(** all six *)
Definition RR (r : robot RA) : Prop := axes (fun i => SR (at6 (r_servos r) i)).

Lemma angles_equal_RA (a b : V6 R) : angles_equal RA a b = true <-> close a b.
Proof.
  assert (E : rdec false 1 (-4) = (1 / 10000)%R).
  { unfold rdec, powerRZ. replace (Pos.to_nat 4) with 4%nat by reflexivity. cbn [pow]. field. }
  unfold angles_equal, close, axes. cbn [list6 zip6 v0 v1 v2 v3 v4 v5 forallb at6 fsub fabsf f2d dle ddec RA].
  rewrite E, !andb_true_iff. 
  assert (K : forall x, negb (rleb (1 / 10000) (Rabs x)) = true <-> (Rabs x < 1 / 10000)%R).
  { intros x. unfold rleb. destruct Rle_dec; cbn; split; intros; try lra; try discriminate; auto. }
  rewrite !K. tauto.
Qed.

Section Exact.
Context (fwd : V6 R -> V6 R) (inv : V6 R -> option (V6 R)) (l2p p2l : V6 R -> V6 R) (limits : V6 (R * R)).
Notation step := (r_step RA fwd inv l2p p2l limits).
Notation run := (r_run RA fwd inv l2p p2l limits).
Notation process := (r_process RA fwd inv l2p p2l limits).
Notation start_move := (r_start_move RA fwd inv l2p p2l limits).

Lemma RR_tick r d : RR r -> exists r', r_tick RA r d = Ok r' /\ RR r'.
Proof.
  intros (H0 & H1 & H2 & H3 & H4 & H5). cbn [at6] in *. unfold r_tick.
  destruct (SR_process _ d H0) as (s0 & p0 & -> & K0 & _).
  destruct (SR_process _ d H1) as (s1 & p1 & -> & K1 & _).
  destruct (SR_process _ d H2) as (s2 & p2 & -> & K2 & _).
  destruct (SR_process _ d H3) as (s3 & p3 & -> & K3 & _).
  destruct (SR_process _ d H4) as (s4 & p4 & -> & K4 & _).
  destruct (SR_process _ d H5) as (s5 & p5 & -> & K5 & _).
  cbn [bind]. eexists; split; [reflexivity|]. unfold RR, axes; cbn. auto 10.
Qed.

Lemma not_outside_R x lo hi : not_outside RA x lo hi -> (lo <= x <= hi)%R.
Proof. unfold not_outside; cbn. intros [H K]. apply rltb_false in H. apply rltb_false in K. lra. Qed.

Lemma RR_start_move r r' e : RR r -> start_move r = Ok (r', e) -> RR r'.
Proof.
  intros H E. apply start_move_commands in E as [[_ X]|(tl & vels & _ & L & _ & X)].
  - unfold RR. rewrite X. exact H.
  - unfold RR. rewrite X. unfold axes in *. cbn [at6 zip6 v0 v1 v2 v3 v4 v5 fst snd] in *.
    unfold RR, axes in H. cbn [at6] in H.
    destruct H as (H0 & H1 & H2 & H3 & H4 & H5). destruct L as (L0 & L1 & L2 & L3 & L4 & L5).
    apply not_outside_R in L0, L1, L2, L3, L4, L5.
    split; [|split; [|split; [|split; [|split]]]]; apply SR_command; auto.
Qed.

Lemma RR_step r r' o e : RR r -> step r o = Ok (r', e) -> RR r'.
Proof.
  intros H E. destruct o.
  1-2,4-5,6-9: cbn in E; inversion E; subst; exact H.
  - cbn in E. unfold set_angle in E. destruct ((0 <=? i) && (i <? 6)); [|discriminate].
    cbn in E; inversion E; subst; exact H.
  - cbn [r_step] in E. apply process_cases in E as [[_ X]|(rs & E & X & _)].
    + unfold RR. rewrite X. exact H.
    + apply RR_start_move in E; auto. unfold RR. rewrite X. exact H.
  - apply step_tick in E as [E ->]. destruct (RR_tick r dt H) as (x & Ex & Hx).
    assert (r' = x) by congruence. now subst.
Qed.

Lemma RR_run os : forall r r' e, RR r -> run r os = Ok (r', e) -> RR r'.
Proof.
  induction os as [|o os IH]; intros r r' e C H; cbn [r_run] in H.
  - inversion H; subst; auto.
  - destruct (step r o) as [[r1 e1]|] eqn:E1; [|discriminate]. cbn [bind] in H.
    destruct (run r1 os) as [[r2 e2]|] eqn:E2; [|discriminate]. cbn [bind] in H. inversion H; subst.
    apply RR_step in E1; eauto.
Qed.

(** ticks act on each servo separately *)
Lemma run_ticks dts : forall (r r' : robot RA) e, run r (map OTick dts) = Ok (r', e) ->
  e = [] /\ (exists s, r' = with_servos RA r s) /\
  axes (fun i => sop_run RA (at6 (r_servos r) i) (ticks RA dts) = Ok (at6 (r_servos r') i)).
Proof.
  induction dts as [|d l IH]; intros r r' e H; cbn [map r_run] in H.
  - inversion H; subst. split; auto. split; [exists (r_servos r'); now destruct r'|]. unfold axes; cbn; auto 10.
  - destruct (step r (OTick d)) as [[r1 e1]|] eqn:E1; [|discriminate]. cbn [bind] in H.
    destruct (run r1 _) as [[r2 e2]|] eqn:E2 in H; [|discriminate]. cbn [bind] in H. inversion H; subst.
    apply step_tick in E1 as [E1 ->]. apply IH in E2 as (-> & (s2 & ->) & X). split; auto.
    destruct (tick_frame _ _ _ _ E1) as [s1 ->]. split; [exists s2; reflexivity|].
    unfold r_tick in E1. unfold axes in *. cbn [at6 r_servos with_servos] in *.
    repeat match type of E1 with
    | bind (bind ?x _) _ = _ => let E := fresh "E" in destruct x as [[? ?]|] eqn:E; cbn [bind] in E1; [|discriminate]
    end.
    injection E1 as <-. cbn [v0 v1 v2 v3 v4 v5] in X.
    unfold ticks. cbn [map sop_run sop_step].
    repeat match goal with K : servo_process RA _ _ = Ok _ |- _ => rewrite K; clear K end.
    cbn [bind]. exact X.
Qed.

(** ** the common move time *)
Lemma fold_max (l : list R) : forall m,
  let r := fold_left (fun m x => if flt RA m x then x else m) l m in
  (m <= r)%R /\ Forall (fun x => x <= r)%R l.
Proof.
  induction l as [|x l IH]; intros m; cbn [fold_left].
  - split; [lra|constructor].
  - specialize (IH (if flt RA m x then x else m)). cbv zeta in IH. destruct IH as [A B].
    set (r := fold_left (fun m x : F RA => if flt RA m x then x else m) l (if flt RA m x then x else m)) in *.
    cbv zeta. fold r. clearbody r. cbn in A. unfold rltb in A.
    destruct (Rlt_dec m x); split; try lra; constructor; auto; lra.
Qed.

Lemma fold_least (l : list R) (b : R) : forall m, (m <= b)%R -> Forall (fun x => x <= b)%R l ->
  (fold_left (fun m x => if flt RA m x then x else m) l m <= b)%R.
Proof.
  induction l as [|x l IH]; intros m M H; cbn [fold_left]; [exact M|].
  apply Forall_cons_iff in H as [X H]. apply IH; [|exact H]. destruct (flt RA m x); assumption.
Qed.

(** speed actually used for a requested speed d/T *)
Definition used (d T : R) : R := if Rle_dec (d / T) 0 then (1 / 10)%R else (d / T)%R.

Lemma command_state (s : servo RA) (T a : R) : SR s -> (0 < T)%R ->
  (Rabs (a - s_cur s) / s_maxvel s <= T)%R ->
  (Rabs (a - s_cur s) / T <= s_maxvel s)%R /\
  servo_set_target RA (servo_set_vel RA s (Rabs (a - s_cur s) / T)%R) a =
  servo_set_target RA (with_vel RA s (used (Rabs (a - s_cur s)) T)) a.
Proof.
  intros (_ & _ & _ & _ & M & V) HT H.
  assert (L : (Rabs (a - s_cur s) / T <= s_maxvel s)%R).
  { apply (Rmult_le_reg_r T); auto. unfold Rdiv at 1. rewrite Rmult_assoc, Rinv_l, Rmult_1_r by lra.
    apply (Rmult_le_compat_r (s_maxvel s)) in H; [|lra].
    unfold Rdiv in H. rewrite Rmult_assoc, Rinv_l, Rmult_1_r in H by lra. lra. }
  split; auto. rewrite set_vel_RA. unfold used.
  destruct (Rlt_dec (s_maxvel s) _); [lra|]. reflexivity.
Qed.

Lemma ideal_progress (c a T t : R) : (0 < T)%R -> (0 <= t)%R ->
  ideal c a (used (Rabs (a - c)) T) t = (c + (a - c) * progress T t)%R.
Proof.
  intros HT Ht. unfold progress. set (d := Rabs (a - c)).
  assert (D0 : (0 <= d)%R) by apply Rabs_pos.
  assert (I : (0 < / T)%R) by (apply Rinv_0_lt_compat; auto).
  destruct (Req_dec a c) as [->|N].
  { unfold d, ideal. replace (c - c)%R with 0%R by ring. rewrite Rabs_R0.
    destruct (Rle_dec 0 _) as [|X]; [ring|]. exfalso. apply X.
    unfold used. destruct Rle_dec as [Y|Y]; [nra|]. unfold Rdiv in *. nra. }
  assert (DP : (0 < d)%R) by (apply Rabs_pos_lt; lra).
  assert (DT : (0 < d / T)%R) by (unfold Rdiv; nra).
  unfold used. destruct (Rle_dec (d / T) 0); [lra|].
  assert (E : (d / T * t / 1000 = d * (t / (1000 * T)))%R) by (field; lra).
  unfold ideal. fold d. rewrite E. set (f := (t / (1000 * T))%R).
  assert (F0 : (0 <= f)%R).
  { unfold f, Rdiv. rewrite Rinv_mult. nra. }
  destruct (Rle_dec d (d * f)) as [X|X].
  - rewrite Rmin_left by nra. ring.
  - rewrite Rmin_right by nra. destruct (Rlt_dec c a).
    + unfold d. rewrite Rabs_pos_eq by lra. ring.
    + unfold d. rewrite Rabs_left by lra. ring.
Qed.

(** everything about a commanded step: a common time T *)
Lemma start_move_timing (r r' : robot RA) evs : RR r -> start_move r = Ok (r', evs) -> servo_cmds evs <> [] ->
  exists (p : plan RA) es (tl : V6 (F RA)) (time : F RA) (T : R),
    let r1 := with_steps RA r (u32 (r_cur r + 1)) (r_total r) in
    let a := l2p tl in
    r_plan RA inv r1 = Ok (p, es) /\ p = PMove tl time /\
    (0 < T)%R /\ (time <= T)%R /\
    axes (fun i => Rabs (at6 a i - s_cur (at6 (r_servos r) i)) / T <= s_maxvel (at6 (r_servos r) i))%R /\
    servo_cmds evs = all_six (A:=RA) (map6 (fun d => d / T)%R (travel RA r a)) a /\
    axes (fun i => at6 (r_servos r') i =
       servo_set_target RA (with_vel RA (at6 (r_servos r) i)
          (used (Rabs (at6 a i - s_cur (at6 (r_servos r) i))) T)) (at6 a i)) /\
    (forall b : R, (time <= b)%R -> axes (fun i => Rabs (at6 a i - s_cur (at6 (r_servos r) i)) / s_maxvel (at6 (r_servos r) i) <= b)%R -> (T <= b)%R).
Proof.
  intros H E N. apply start_move_cases in E as (p & es & P & E). cbv zeta in E.
  pose proof (plan_events _ _ _ _ _ P) as [P1 _].
  destruct E as [[-> ->] | (tl & time & -> & O1 & O2 & [(Q & -> & ->) | (Q & -> & ->)])]; try contradiction.
  set (r1 := with_steps RA r (u32 (r_cur r + 1)) (r_total r)) in *.
  set (a := l2p tl) in *. set (T := min_time RA r1 a time) in *.
  exists (PMove tl time), es, tl, time, T. cbv zeta. fold r1. fold a.
  assert (B := fold_max (list6 (zip6 (fdiv RA) (travel RA r1 a) (map6 s_maxvel (r_servos r1)))) time).
  cbv zeta in B. fold (min_time RA r1 a time) in B. fold T in B. destruct B as [B1 B2].
  unfold list6 in B2. cbn [map6 zip6 v0 v1 v2 v3 v4 v5 travel r1 with_steps r_servos servo_angles fsub fdiv fabsf RA] in B2.
  apply Forall_cons_iff in B2 as [B20 B2]. apply Forall_cons_iff in B2 as [B21 B2].
  apply Forall_cons_iff in B2 as [B22 B2]. apply Forall_cons_iff in B2 as [B23 B2].
  apply Forall_cons_iff in B2 as [B24 B2]. apply Forall_cons_iff in B2 as [B25 _].
  unfold RR, axes in H. cbn [at6] in H. destruct H as (H0 & H1 & H2 & H3 & H4 & H5).
  assert (TP : (0 < T)%R).
  { assert (T <> 0%R). { cbn in Q. apply reqb_false in Q. exact Q. }
    assert (0 <= Rabs (v0 a - s_cur (v0 (r_servos r))) / s_maxvel (v0 (r_servos r)))%R.
    { apply Rmult_le_pos; [apply Rabs_pos|]. left. apply Rinv_0_lt_compat. destruct H0 as (_ & _ & _ & _ & M & _). lra. }
    assert (0 <= T)%R by (eapply Rle_trans; [eassumption|exact B20]).
    destruct (Rle_lt_or_eq_dec 0 T ltac:(assumption)); [assumption|congruence]. }
  destruct (command_state _ T (v0 a) H0 TP B20) as [G0 K0].
  destruct (command_state _ T (v1 a) H1 TP B21) as [G1 K1].
  destruct (command_state _ T (v2 a) H2 TP B22) as [G2 K2].
  destruct (command_state _ T (v3 a) H3 TP B23) as [G3 K3].
  destruct (command_state _ T (v4 a) H4 TP B24) as [G4 K4].
  destruct (command_state _ T (v5 a) H5 TP B25) as [G5 K5].
  split; [exact P|]. split; [reflexivity|]. split; [exact TP|]. split; [exact B1|].
  split; [unfold axes; cbn [at6]; auto 10|].
  split; [rewrite servo_cmds_app, P1; reflexivity|].
  split; [unfold axes; cbn [at6]; splits; assumption|].
  intros b Hb K. unfold axes in K. cbn [at6] in K. destruct K as (Y0 & Y1 & Y2 & Y3 & Y4 & Y5).
  apply fold_least; [exact Hb|]. unfold list6. cbn [map6 zip6 v0 v1 v2 v3 v4 v5 travel r1 with_steps r_servos servo_angles fsub fdiv fabsf RA].
  repeat apply Forall_cons; try assumption. apply Forall_nil.
Qed.

(** after such a step every servo has covered the same fraction of its way *)
Lemma step_progress (r r' : robot RA) (a : V6 R) (T : R) dts r2 e2 :
  RR r -> (0 < T)%R ->
  axes (fun i => at6 (r_servos r') i =
       servo_set_target RA (with_vel RA (at6 (r_servos r) i)
          (used (Rabs (at6 a i - s_cur (at6 (r_servos r) i))) T)) (at6 a i)) ->
  Forall (fun d => 0 <= d) dts -> total dts < 4294967296 ->
  run r' (map OTick dts) = Ok (r2, e2) ->
  axes (fun i => s_cur (at6 (r_servos r2) i) =
     (s_cur (at6 (r_servos r) i) + (at6 a i - s_cur (at6 (r_servos r) i)) *
        progress T (IZR (total dts)))%R /\
     s_target (at6 (r_servos r2) i) = at6 a i).
Proof.
  intros H TP E Hd Ht Hr. apply run_ticks in Hr as (_ & _ & Hr).
  pose proof (total_nonneg _ Hd) as T0. assert (0 <= IZR (total dts))%R as T0' by (apply IZR_le; lia).
  assert (one : forall (s s2 : servo RA) (x : R),
    sop_run RA (servo_set_target RA (with_vel RA s (used (Rabs (x - s_cur s)) T)) x) (ticks RA dts) = Ok s2 ->
    s_cur s2 = (s_cur s + (x - s_cur s) * progress T (IZR (total dts)))%R /\ s_target s2 = x).
  { intros s s2 x Rn. set (v := used (Rabs (x - s_cur s)) T) in *.
    assert (V : (0 < v)%R).
    { unfold v, used. destruct Rle_dec; lra. }
    pose proof (minv_start (with_vel RA s v) x V) as I0. cbn [s_cur s_vel with_vel] in I0.
    assert (I1 : MInv (s_cur s) x v (total dts) s2).
    { apply (minv_ticks _ _ _ dts 0 _ _ V (Z.le_refl 0) Hd ltac:(lia) I0 Rn). }
    split; [|apply I1]. rewrite (minv_cur _ _ _ _ _ I1). apply ideal_progress; auto. }
  unfold axes in *. cbn [at6] in *.
  destruct E as (E0 & E1 & E2 & E3 & E4 & E5). rewrite E0, E1, E2, E3, E4, E5 in Hr.
  destruct Hr as (R0 & R1 & R2 & R3 & R4 & R5).
  apply one in R0, R1, R2, R3, R4, R5.
  split; [exact R0|]. split; [exact R1|]. split; [exact R2|]. split; [exact R3|]. split; [exact R4|exact R5].
Qed.

(** ** straight lines *)
Lemma points_upto (s t : V6 R) n m : forall k,
  points RA s t n k m = map (fun j => on_segment s t (IZR j / IZR n)) (map (fun j => Z.of_nat j + (k - 1)) (seq 1 m)).
Proof.
  induction m as [|m IH]; intros k; [reflexivity|].
  cbn [points seq map]. f_equal.
  { replace (Z.of_nat 1 + (k - 1)) with k by lia. reflexivity. }
  rewrite IH. f_equal.
  rewrite <- (seq_shift m 1), !map_map. apply map_ext. intros; lia.
Qed.

Lemma waypoint_RA (s t : V6 R) k n : waypoint RA s t k n = on_segment s t (IZR k / IZR n).
Proof. reflexivity. Qed.

Lemma linear_steps_RA (s t : V6 R) : (distance s t <= 1000000000)%R ->
  linear_steps RA s t = Ok (segments s t) /\ 1 <= segments s t < 4294967296.
Proof.
  intros B. pose proof (sqrt_pos ((v0 t - v0 s) * (v0 t - v0 s) + (v1 t - v1 s) * (v1 t - v1 s) + (v2 t - v2 s) * (v2 t - v2 s))) as P.
  fold (distance s t) in P.
  change (linear_steps RA s t) with
    (do ds <- to_int RA (distance s t / f_dec RA 5 (-1) + 1)%R;
     do as_ <- to_int RA (rotation_angle RA s t / 15 + 1)%R;
     Ok (u32 (if as_ <? ds then ds else as_))).
  assert (H5 : f_dec RA 5 (-1) = (1 / 2)%R).
  { unfold f_dec; cbn [d2f ddec RA]. rewrite rdec_1. lra. }
  rewrite H5.
  set (d := distance s t) in *.
  assert (A1 : (0 <= rotation_angle RA s t <= PI)%R).
  { unfold rotation_angle. destruct (norm3 RA (orient RA s)) as [[a0 a1] a2].
    destruct (norm3 RA (orient RA t)) as [[b0 b1] b2]. cbn [facos RA]. apply acos_bound. }
  set (w := rotation_angle RA s t) in *. clearbody w.
  assert (TA : rtrunc (w / 15 + 1) = 1).
  { destruct (rtrunc_pos (w / 15 + 1)) as [[Q1 Q2] _]; [lra|].
    pose proof PI_4. assert (w / 15 + 1 < 2)%R by lra.
    assert (IZR (rtrunc (w / 15 + 1)) < 2)%R as X by lra. apply lt_IZR in X.
    assert (0 < IZR (rtrunc (w / 15 + 1)))%R as Y by lra. apply lt_IZR in Y. lia. }
  assert (TD : rtrunc (d / (1 / 2) + 1) = segments s t).
  { unfold segments. fold d.
    destruct (rtrunc_pos (d / (1 / 2) + 1)) as [[Q1 Q2] _]; [lra|].
    set (z := rtrunc (d / (1 / 2) + 1)) in *.
    assert (z - 1 = Int_part (2 * d)) as <-; [|lia].
    destruct (base_Int_part (2 * d)) as [I1 I2]. set (y := Int_part (2 * d)) in *.
    assert (IZR z < IZR (y + 2))%R as X1 by (rewrite plus_IZR; lra). apply lt_IZR in X1.
    assert (IZR y < IZR z)%R as X2 by lra. apply lt_IZR in X2. lia. }
  destruct (base_Int_part (2 * d)) as [I1 I2].
  assert (S1 : 1 <= segments s t < 2000000002).
  { unfold segments. fold d. split.
    - assert (IZR (-1) < IZR (Int_part (2 * d)))%R as X by (cbn; lra). apply lt_IZR in X. lia.
    - assert (IZR (Int_part (2 * d)) <= IZR 2000000000)%R as X by lra. apply le_IZR in X. lia. }
  split; [|lia].
  rewrite !to_int_RA by (rewrite ?TD, ?TA; lia). rewrite TA, TD. cbn [bind].
  f_equal. rewrite u32_small; destruct (Z.ltb_spec 1 (segments s t)); lia.
Qed.

(** spacing of the waypoints *)
Lemma segments_spacing (s t : V6 R) : (0 <= distance s t / IZR (segments s t) < 1 / 2)%R /\ 1 <= segments s t.
Proof.
  pose proof (sqrt_pos ((v0 t - v0 s) * (v0 t - v0 s) + (v1 t - v1 s) * (v1 t - v1 s) + (v2 t - v2 s) * (v2 t - v2 s))) as P.
  fold (distance s t) in P. set (d := distance s t) in *.
  unfold segments. fold d. destruct (base_Int_part (2 * d)) as [I1 I2].
  assert (IZR (-1) < IZR (Int_part (2 * d)))%R as X by (cbn; lra). apply lt_IZR in X.
  rewrite plus_IZR. set (n := IZR (Int_part (2 * d))) in *.
  assert (0 <= n)%R by (apply IZR_le; lia).
  split; [|lia]. split.
  - apply Rmult_le_pos; auto. left; apply Rinv_0_lt_compat; lra.
  - apply (Rmult_lt_reg_r (n + 1)); [lra|]. unfold Rdiv. rewrite Rmult_assoc, Rinv_l by lra. lra.
Qed.

Lemma on_segment_distance (s t : V6 R) f g : 
  distance (on_segment s t f) (on_segment s t g) = (distance s t * Rabs (g - f))%R.
Proof.
  unfold distance, on_segment; cbn.
  match goal with |- sqrt ?x = (sqrt ?y * _)%R => replace x with (y * ((g - f) * (g - f)))%R by ring end.
  rewrite sqrt_mult_alt.
  - f_equal. apply sqrt_Rsqr_abs.
  - pose proof (Rle_0_sqr (v0 t - v0 s)). pose proof (Rle_0_sqr (v1 t - v1 s)).
    pose proof (Rle_0_sqr (v2 t - v2 s)). unfold Rsqr in *. lra.
Qed.

End Exact.
