(** * Joint moves (point to point) in the arithmetic of the device: nothing faults, no NaN is commanded, and the
    servos stay inside of their limits *)
From Coq Require Import Reals Lra ZArith Lia Floats.SpecFloat.
From Flocq Require Import Core BinarySingleNaN.
From Verif Require Import Base Arith FloatBridge ServoModel ServoSpec ServoProofs ServoFloat.
From Verif Require Import RobotModel RobotSpec RobotProofs ConfigModel PropRobot PropFloat.
Open Scope Z_scope.

(** a finite binary32 number, at most B in absolute value *)
Definition fin (B : R) (x : spec_float) : Prop := exists r, v32 x r /\ (Rabs r <= B)%R.
Lemma fin_number B x : fin B x -> number x.
Proof.
  intros (r & (b & <- & F & _) & _). split; [apply valid_binary_B2SF|]. destruct b; discriminate.
Qed.
Lemma fin_le B B' x : (B <= B')%R -> fin B x -> fin B' x.
Proof. intros H (r & V & K). exists r. split; [exact V|lra]. Qed.
Lemma fin_sub B B' C x y : fin B x -> fin B' y -> (B + B' <= 1000000000)%R -> ((B + B') * (1 + 1 / 16777216) + tiny <= C)%R -> fin C (SFsub 24 128 x y).
Proof.
  intros (a & Va & Ba) (b & Vb & Bb) H K. exists (r32 (a - b)). apply Rabs_bounds in Ba, Bb. split; [apply v_sub; auto; apply Rabs_le; lra|].
  destruct (r32_near (a - b) (B + B')) as [K1 K2]; [apply Rabs_le; lra|]. apply Rabs_le. lra.
Qed.
Lemma fin_add B B' C x y : fin B x -> fin B' y -> (B + B' <= 1000000000)%R -> ((B + B') * (1 + 1 / 16777216) + tiny <= C)%R -> fin C (SFadd 24 128 x y).
Proof.
  intros (a & Va & Ba) (b & Vb & Bb) H K. exists (r32 (a + b)). apply Rabs_bounds in Ba, Bb. split; [apply v_add; auto; apply Rabs_le; lra|].
  destruct (r32_near (a + b) (B + B')) as [K1 K2]; [apply Rabs_le; lra|]. apply Rabs_le. lra.
Qed.
(** finite, not negative *)
Definition pos (B : R) (x : spec_float) : Prop := exists r, v32 x r /\ (0 <= r <= B)%R.
Lemma pos_abs B x : fin B x -> pos B (SFabs x).
Proof. intros (r & V & K). exists (Rabs r). split; [now apply fv_abs|]. split; [apply Rabs_pos|exact K]. Qed.
Lemma pos_le B B' x : (B <= B')%R -> pos B x -> pos B' x.
Proof. intros H (r & V & K). exists r. split; [exact V|lra]. Qed.
Lemma fold_pos B l : Forall (pos B) l -> forall m, pos B m -> pos B (fold_left (fun m x => if SFltb m x then x else m) l m).
Proof. induction 1 as [|x l H F IH]; intros m P; cbn [fold_left]; [exact P|]. apply IH. destruct (SFltb m x); assumption. Qed.
Lemma div_number x y a b : v32 x a -> v32 y b -> b <> 0%R -> number (SFdiv 24 128 x y).
Proof.
  intros (p & <- & Fp & <-) (q & <- & Fq & <-) N. rewrite (div_eq 24 128 p q). split; [apply valid_binary_B2SF|].
  pose proof (Bdiv_correct 24 128 _ _ mode_NE p q N) as C. intros E.
  destruct (Rlt_bool _ _).
  - destruct C as (_ & C & _). rewrite Fp in C. destruct (Bdiv mode_NE p q); try discriminate.
  - rewrite E in C. unfold binary_overflow in C. cbn [overflow_to_inf] in C. discriminate.
Qed.
Lemma div_pos B b x y : pos B x -> v32 y b -> (1 / 1000 <= b)%R -> (B <= 100000000)%R -> pos (B * 1001 + 1) (SFdiv 24 128 x y).
Proof.
  intros (a & Va & Ba) Vb Hb HB. pose proof tiny_small as T1. pose proof tiny_pos as T0.
  assert (I : (0 < / b <= 1000)%R). { split; [apply Rinv_0_lt_compat; lra|]. replace 1000%R with (/ (1 / 1000))%R by field. apply Rinv_le_contravar; lra. }
  assert (Q : (0 <= a / b <= B * 1000)%R). { unfold Rdiv. split; [apply Rmult_le_pos; lra|]. apply Rmult_le_compat; lra. }
  exists (r32 (a / b)). split; [apply v_div; auto; [lra|rewrite Rabs_pos_eq; lra]|]. split; [apply r32_pos; lra|].
  destruct (r32_near (a / b) (B * 1000)) as [_ K]; [rewrite Rabs_pos_eq; lra|]. lra.
Qed.

Section Moves.
Context (L : libm).
Notation A := (IEEE L).
Context (fwd : V6 (F A) -> V6 (F A)) (inv : V6 (F A) -> option (V6 (F A))) (l2p p2l : V6 (F A) -> V6 (F A)) (limits : V6 (F A * F A)).
Context (mn mx M : Z -> R).
Definition six (P : spec_float -> Prop) (a : V6 spec_float) : Prop := P (v0 a) /\ P (v1 a) /\ P (v2 a) /\ P (v3 a) /\ P (v4 a) /\ P (v5 a).
(** the joint coupling gives finite numbers for finite numbers (at most 10^6) *)
Context (L2P : forall a, six (fin 1000000) a -> six (fin 10000000) (l2p a)).
Context (P2L : forall a, six (fin 1100) a -> six (fin 1000000) (p2l a)).

(** the calls of a joint move; speeds from 0.001 to 100000 degrees per second *)
Definition joint_op (o : RobotModel.rop A) : Prop :=
  match o with
  | OSetAngle i x => 0 <= i < 6 /\ fin 1000000 x
  | OSetAngles a => six (fin 1000000) a
  | OStart | OEnd | OStop | OProcess | OTick _ => True
  | OVel v => exists r, v32 v r /\ (1 / 1000 <= r <= 100000)%R
  | OMethod m => m = P2P
  | OSetPose _ _ | OSetPose6 _ => False
  end.

Definition ready (r : robot A) : Prop :=
  arm_inside L mn mx M r /\ axes (fun i => exists w, v32 (s_maxvel (at6 (r_servos r) i)) w /\ (1 / 1000 <= w)%R) /\
  six (fin 1000000) (r_targetA r) /\ six (fin 1000000) (r_startA r) /\ (exists v, v32 (r_maxvel r) v /\ (1 / 1000 <= v <= 100000)%R) /\
  r_method r = P2P /\ r_pchg r = false.

Lemma cur_fin (s : servo A) a b m : inside32 L s a b m -> fin 1100 (s_cur s).
Proof.
  intros (C & _ & _ & _ & (c & V & B) & _). pose proof (M_bounds L s a b m C) as HM. pose proof (slack_bounds m HM). destruct C as (_ & _ & _ & H1 & H2 & _).
  exists c. split; [exact V|]. apply Rabs_le. lra.
Qed.
Lemma angles_fin r : arm_inside L mn mx M r -> six (fin 1100) (servo_angles A r).
Proof.
  intros (H0 & H1 & H2 & H3 & H4 & H5). cbn [at6] in *. unfold six, servo_angles, map6. cbn [v0 v1 v2 v3 v4 v5].
  splits; eapply cur_fin; eassumption.
Qed.
Lemma logical_fin r : arm_inside L mn mx M r -> six (fin 1000000) (current_logical A p2l r).
Proof. intros H. apply P2L, angles_fin, H. Qed.

Lemma six_zip (P Q S : spec_float -> Prop) f a b : (forall x y, P x -> Q y -> S (f x y)) -> six P a -> six Q b -> six S (zip6 f a b).
Proof. unfold six. cbn [zip6 v0 v1 v2 v3 v4 v5]. intros H (A0 & A1 & A2 & A3 & A4 & A5) (B0 & B1 & B2 & B3 & B4 & B5). splits; auto. Qed.
Lemma six_map (P S : spec_float -> Prop) f a : (forall x, P x -> S (f x)) -> six P a -> six S (map6 f a).
Proof. unfold six. cbn [map6 v0 v1 v2 v3 v4 v5]. intros H (A0 & A1 & A2 & A3 & A4 & A5). splits; auto. Qed.
Lemma six_list P a : six P a -> Forall P (list6 a).
Proof. unfold six, list6. intros (A0 & A1 & A2 & A3 & A4 & A5). repeat (apply Forall_cons; [assumption|]). apply Forall_nil. Qed.
Lemma six_impl (P Q : spec_float -> Prop) a : (forall x, P x -> Q x) -> six P a -> six Q a.
Proof. unfold six. intros H (A0 & A1 & A2 & A3 & A4 & A5). splits; auto. Qed.

Lemma max_change_pos a b : six (fin 1000000) a -> six (fin 1000000) b -> pos 2000001 (max_change A a b).
Proof.
  intros Ha Hb. unfold max_change. cbn [flt IEEE]. apply fold_pos; [|exists 0%R; split; [apply (v_int 0); lia|lra]].
  apply six_list. apply (six_map (fin 2000001)); [intros x; apply pos_abs|].
  apply (six_zip (fin 1000000) (fin 1000000)); auto. intros x y Hx Hy. pose proof tiny_small. apply (fin_sub 1000000 1000000); auto; lra.
Qed.

Lemma rad_to_deg64 : exists r, v64 (RAD_TO_DEG A) r /\ (57 <= r <= 58)%R.
Proof.
  exists (SF2R radix2 (RAD_TO_DEG A)). split.
  - let y := eval vm_compute in (RAD_TO_DEG A) in change (RAD_TO_DEG A) with y. apply fv_valid; reflexivity.
  - lits. lra.
Qed.

(** the time of a point-to-point move is a finite number *)
Lemma p2p_time_pos ch mv v : pos 2000001 ch -> v32 mv v -> (1 / 1000 <= v <= 100000)%R ->
  pos 1000000000000 (d2f A (dmul A (f2d A (fdiv A ch mv)) (RAD_TO_DEG A))).
Proof.
  intros H V B. pose proof tiny_small as T1. pose proof tiny_pos as T0. destruct H as (c & Vc & Bc).
  assert (I : (0 < / v <= 1000)%R). { split; [apply Rinv_0_lt_compat; lra|]. replace 1000%R with (/ (1 / 1000))%R by field. apply Rinv_le_contravar; lra. }
  assert (Q : (0 <= c / v <= 2000001000)%R). { unfold Rdiv. split; [apply Rmult_le_pos; lra|]. replace 2000001000%R with (2000001 * 1000)%R by ring. apply Rmult_le_compat; lra. }
  pose proof (r32_pos (c / v) ltac:(lra)) as P1. destruct (r32_near (c / v) 2000001000) as [_ K1]; [rewrite Rabs_pos_eq; lra|].
  set (x1 := r32 (c / v)) in *. pose proof (r64_pos x1 P1) as P2. destruct (r64_near x1 2000002000) as [_ K2]; [rewrite Rabs_pos_eq; lra|].
  set (x2 := r64 x1) in *. destruct rad_to_deg64 as (k & Vk & Bk).
  assert (Q3 : (0 <= x2 * k <= 2000003000 * 58)%R) by (split; [apply Rmult_le_pos; lra|apply Rmult_le_compat; lra]).
  pose proof (r64_pos (x2 * k) ltac:(lra)) as P3. destruct (r64_near (x2 * k) (2000003000 * 58)) as [_ K3]; [rewrite Rabs_pos_eq; lra|].
  set (x3 := r64 (x2 * k)) in *. pose proof (r32_pos x3 P3) as P4. destruct (r32_near x3 (2000010000 * 58)) as [_ K4]; [rewrite Rabs_pos_eq; lra|].
  exists (r32 x3). split; [|lra]. cbn [d2f dmul f2d fdiv IEEE].
  apply (fv_conv 53 1024 24 128); [|apply r32_bound; rewrite Rabs_pos_eq; lra].
  apply (fv_mul 53 1024); [|exact Vk|apply r64_bound; rewrite Rabs_pos_eq; lra].
  apply (fv_conv 24 128 53 1024); [|apply r64_bound; rewrite Rabs_pos_eq; lra].
  apply v_div; auto; [lra|rewrite Rabs_pos_eq; lra].
Qed.

Lemma travel_pos r t : arm_inside L mn mx M r -> six (fin 10000000) t -> six (pos 20000000) (travel A r t).
Proof.
  intros H T. unfold travel. apply (six_map (fin 20000000)); [intros x; apply pos_abs|].
  apply (six_zip (fin 10000000) (fin 1100)); auto; [|apply angles_fin, H]. intros x y Hx Hy. pose proof tiny_small. cbn [fsub IEEE]. apply (fin_sub 10000000 1100); auto; lra.
Qed.

Lemma min_time_pos r t time : arm_inside L mn mx M r -> axes (fun i => exists w, v32 (s_maxvel (at6 (r_servos r) i)) w /\ (1 / 1000 <= w)%R) ->
  six (fin 10000000) t -> pos 1000000000000 time -> pos 1000000000000 (min_time A r t time).
Proof.
  intros H W T P. unfold min_time. cbn [flt IEEE]. apply fold_pos; [|exact P]. apply six_list.
  destruct (travel_pos r t H T) as (T0 & T1 & T2 & T3 & T4 & T5). destruct W as ((w0 & V0 & B0) & (w1 & V1 & B1) & (w2 & V2 & B2) & (w3 & V3 & B3) & (w4 & V4 & B4) & (w5 & V5 & B5)).
  cbn [at6] in *. unfold six. cbn [zip6 map6 v0 v1 v2 v3 v4 v5 fdiv IEEE].
  split; [|split; [|split; [|split; [|split]]]]; (apply (pos_le (20000000 * 1001 + 1)); [lra|]); eapply div_pos; eauto; lra.
Qed.

(** the commanded speeds and angles are numbers *)
Lemma command_numbers r t time : arm_inside L mn mx M r -> six (fin 10000000) t -> pos 1000000000000 time ->
  feq A time (fofz A 0) = false -> numbers (servo_cmds (snd (command_servos A r t time))).
Proof.
  intros H T (x & Vx & Bx) NZ.
  assert (N0 : x <> 0%R).
  { intros ->. cbn [feq fofz IEEE] in NZ. rewrite (fv_eq 24 128 _ _ _ _ Vx (v_int 0 ltac:(lia))) in NZ. unfold reqb in NZ. destruct (Req_EM_T 0 0); [discriminate|contradiction]. }
  destruct (travel_pos r t H T) as (T0 & T1 & T2 & T3 & T4 & T5). destruct T as (U0 & U1 & U2 & U3 & U4 & U5).
  unfold command_servos. cbn [snd servo_cmds]. cbn [map6 v0 v1 v2 v3 v4 v5 fdiv IEEE].
  assert (K : forall y, pos 20000000 y -> number (SFdiv 24 128 y time)) by (intros y (a & Va & _); exact (div_number _ _ _ _ Va Vx N0)).
  unfold numbers.
  repeat (apply Forall_cons; [split; [apply K; assumption|eapply fin_number; eassumption]|]). apply Forall_nil.
Qed.

Lemma six_set (P : spec_float -> Prop) a i x : six P a -> P x -> six P (set6 a i x).
Proof.
  unfold six, set6. intros (A0 & A1 & A2 & A3 & A4 & A5) X.
  repeat match goal with |- context [match ?k with _ => _ end] => destruct k end; cbn [v0 v1 v2 v3 v4 v5]; splits; auto.
Qed.

Definition fast (s : servo A) : Prop := exists w, v32 (s_maxvel s) w /\ (1 / 1000 <= w)%R.
Lemma ready_servos (r r' : robot A) : ready r -> arm_inside L mn mx M r' -> axes (fun i => s_maxvel (at6 (r_servos r') i) = s_maxvel (at6 (r_servos r) i)) ->
  six (fin 1000000) (r_targetA r') -> six (fin 1000000) (r_startA r') -> (exists v, v32 (r_maxvel r') v /\ (1 / 1000 <= v <= 100000)%R) ->
  r_method r' = P2P -> r_pchg r' = false -> ready r'.
Proof.
  intros (_ & W & _) H E T S V MP PC. unfold ready. split; [exact H|]. split; [|auto].
  unfold axes in *. destruct E as (E0 & E1 & E2 & E3 & E4 & E5). rewrite E0, E1, E2, E3, E4, E5. exact W.
Qed.
Ltac frame R := apply (ready_servos _ _ R); [exact (proj1 R)|unfold axes; auto 10| | | | |]; destruct R as (_ & _ & ? & ? & ? & ? & ?); cbn; auto.

Lemma start_ready (r : robot A) : ready r -> exists r' e, r_start_move A fwd inv l2p p2l limits r = Ok (r', e) /\ ready r' /\ numbers (servo_cmds e).
Proof.
  intros RD. pose proof RD as (H & W & T & S & (v & Vv & Bv) & MP & PC).
  pose proof (max_change_pos _ _ S T) as CH. pose proof (p2p_time_pos _ _ _ CH Vv Bv) as TP.
  set (time := d2f A (dmul A (f2d A (fdiv A (max_change A (r_startA r) (r_targetA r)) (r_maxvel r))) (RAD_TO_DEG A))) in *.
  set (r1 := with_steps A r (u32 (r_cur r + 1)) (r_total r)).
  assert (P : r_plan A inv r1 = Ok (PMove (r_targetA r) time, [EvPrint time])) by (unfold r_plan, r1; cbn [r_method with_steps]; rewrite MP; reflexivity).
  assert (RJ : ready (r_reject A fwd p2l r1)).
  { apply (ready_servos r); cbn; auto; [unfold axes; auto 10|apply (logical_fin r1); exact H|eauto]. }
  assert (NEW : forall r' e, r_start_move A fwd inv l2p p2l limits r = Ok (r', e) -> numbers (servo_cmds e) -> arm_inside L mn mx M r') by (intros r' e; apply arm_start; exact H).
  revert NEW. unfold r_start_move. cbv zeta. fold r1. rewrite P. cbn [bind]. intros NEW.
  destruct (outside A (r_targetA r) (map6 fst limits) (map6 snd limits)); [do 2 eexists; split; [reflexivity|]; split; [exact RJ|apply Forall_nil]|].
  destruct (outside A (l2p (r_targetA r)) (map6 s_min (r_servos r1)) (map6 s_max (r_servos r1))) eqn:O; [do 2 eexists; split; [reflexivity|]; split; [exact RJ|apply Forall_nil]|].
  pose proof (L2P _ T) as T2. pose proof (min_time_pos r1 _ _ H W T2 TP) as MT.
  destruct (feq A (min_time A r1 (l2p (r_targetA r)) time) (fofz A 0)) eqn:Q; cbn [negb] in *.
  - do 2 eexists. split; [reflexivity|]. split; [|apply Forall_nil].
    apply (ready_servos r); cbn; auto; [unfold axes; auto 10|eauto].
  - pose proof (command_numbers r1 _ _ H T2 MT Q) as NN.
    destruct (command_servos A r1 (l2p (r_targetA r)) (min_time A r1 (l2p (r_targetA r)) time)) as [r2 cmds] eqn:C. cbn [snd] in NN.
    specialize (NEW _ _ eq_refl NN). do 2 eexists. split; [reflexivity|]. split; [|exact NN].
    unfold command_servos in C. injection C as <- <-.
    apply (ready_servos r); [exact RD|exact NEW| |exact T|exact S|exists v; split; [exact Vv|exact Bv]|exact MP|exact PC].
    assert (K : forall (s : servo A) x y, s_maxvel (servo_set_target A (servo_set_vel A s x) y) = s_maxvel s).
    { intros s x y. unfold servo_set_target, set_target_1, set_target_2, set_target_3, servo_set_vel. destruct (flt A _ _); [|destruct (fle A _ _)]; reflexivity. }
    unfold axes. cbn [at6 zip6 map6 v0 v1 v2 v3 v4 v5 fst snd r_servos with_state with_servos].
    split; [apply K|]. split; [apply K|]. split; [apply K|]. split; [apply K|]. split; [apply K|apply K].
Qed.

Lemma tick_maxvel (s s' : servo A) d p : servo_process A s d = Ok (s', p) -> s_maxvel s' = s_maxvel s.
Proof.
  unfold servo_process. destruct (servo_move A (servo_advance A s d)); cbn [bind]; [|discriminate]. intros E. injection E as <- _.
  unfold servo_advance. destruct (flt A _ _); [|destruct (flt A _ _)]; reflexivity.
Qed.

Lemma prepare_ready (r : robot A) : ready r -> exists r' e, r_prepare A fwd inv l2p p2l limits r = Ok (r', e) /\ ready r' /\ numbers (servo_cmds e).
Proof.
  intros RD.
  unfold r_prepare. destruct (r_trans r); [do 2 eexists; split; [reflexivity|]; split; [exact RD|apply Forall_nil]|]. cbv zeta.
      pose proof RD as (H & W & T & S & V & MP & PC). rewrite PC. cbn [andb].
      match goal with |- context [with_starts A ?r2 _ _] => set (q := r2) end.
      assert (RQ : ready q) by (unfold q; destruct (r_achg r); frame RD).
      assert (R3 : ready (with_starts A q (current_logical A p2l q) (current_pose A fwd p2l q))).
      { pose proof (logical_fin q (proj1 RQ)) as LF. frame RQ. }
      destruct (angles_equal A _ _); [do 2 eexists; split; [reflexivity|]; split; [|apply Forall_nil]; frame R3|].
      replace (r_method (with_starts A q (current_logical A p2l q) (current_pose A fwd p2l q))) with P2P by (destruct R3 as (_ & _ & _ & _ & _ & X & _); congruence).
      cbn [bind]. apply start_ready. frame R3.
Qed.
Lemma tick_ready (r : robot A) dt : ready r -> exists r', r_tick A r dt = Ok r' /\ ready r'.
Proof.
  intros RD. pose proof RD as ((H0 & H1 & H2 & H3 & H4 & H5) & _). cbn [at6] in *.
  destruct (tick_inside L _ _ _ _ dt H0) as (s0 & p0 & E0 & K0 & _). destruct (tick_inside L _ _ _ _ dt H1) as (s1 & p1 & E1 & K1 & _).
  destruct (tick_inside L _ _ _ _ dt H2) as (s2 & p2 & E2 & K2 & _). destruct (tick_inside L _ _ _ _ dt H3) as (s3 & p3 & E3 & K3 & _).
  destruct (tick_inside L _ _ _ _ dt H4) as (s4 & p4 & E4 & K4 & _). destruct (tick_inside L _ _ _ _ dt H5) as (s5 & p5 & E5 & K5 & _).
  exists (with_servos A r (mk6 s0 s1 s2 s3 s4 s5)). split; [unfold r_tick; rewrite E0, E1, E2, E3, E4, E5; reflexivity|].
  apply tick_maxvel in E0, E1, E2, E3, E4, E5.
  apply (ready_servos r); [exact RD| | | | | | |]; [|unfold axes; cbn [at6 r_servos with_servos v0 v1 v2 v3 v4 v5]; repeat (split; [assumption|]); assumption|apply RD..].
  unfold arm_inside, axes. cbn [r_servos with_servos at6 v0 v1 v2 v3 v4 v5]. repeat (split; [assumption|]). assumption.
Qed.
Lemma step_ready (r : robot A) o : ready r -> joint_op o -> exists r' e, r_step A fwd inv l2p p2l limits r o = Ok (r', e) /\ ready r' /\ numbers (servo_cmds e).
Proof.
  intros RD J. destruct o as [i x|p|i x|a| | | |v|m| |dt]; cbn [joint_op r_step] in *; try contradiction.
  - destruct J as [I X]. unfold set_angle. replace ((0 <=? i) && (i <? 6)) with true by (symmetry; apply andb_true_iff; split; [apply Z.leb_le|apply Z.ltb_lt]; lia).
    cbn [bind]. do 2 eexists. split; [reflexivity|]. split; [|apply Forall_nil]. frame RD. now apply six_set.
  - do 2 eexists. split; [reflexivity|]. split; [|apply Forall_nil]. frame RD.
  - do 2 eexists. split; [reflexivity|]. split; [|apply Forall_nil]. frame RD.
  - do 2 eexists. split; [reflexivity|]. split; [|apply Forall_nil]. frame RD.
  - do 2 eexists. split; [reflexivity|]. split; [|apply Forall_nil]. frame RD.
  - do 2 eexists. split; [reflexivity|]. split; [|apply Forall_nil]. frame RD.
  - subst m. do 2 eexists. split; [reflexivity|]. split; [|apply Forall_nil]. frame RD.
  - unfold r_process. destruct (r_state r).
    + do 2 eexists. split; [reflexivity|]. split; [exact RD|apply Forall_nil].
    + destruct (all_at_target A r); [|do 2 eexists; split; [reflexivity|]; split; [exact RD|apply Forall_nil]].
      destruct (r_cur r =? r_total r); [do 2 eexists; split; [reflexivity|]; split; [|apply Forall_nil]; frame RD|]. apply start_ready. frame RD.
    + apply start_ready. exact RD.
    + apply prepare_ready. exact RD.
  - destruct (tick_ready r dt RD) as (r' & E & R'). rewrite E. cbn [bind]. do 2 eexists. split; [reflexivity|]. split; [exact R'|apply Forall_nil].
Qed.

Lemma run_ready os : forall (r r' : robot A) e, ready r -> Forall joint_op os -> r_run A fwd inv l2p p2l limits r os = Ok (r', e) -> ready r'.
Proof.
  induction os as [|o os IH]; intros r r' e RD J; cbn [r_run]; [intros E; injection E as <- <-; exact RD|].
  apply Forall_cons_iff in J as [Jo J]. destruct (step_ready r o RD Jo) as (r1 & e1 & E1 & R1 & _). rewrite E1. cbn [bind]. intros E.
  destruct (r_run A fwd inv l2p p2l limits r1 os) as [[r2 e2]|] eqn:E2; [|discriminate]. cbn [bind] in E. injection E as <- <-. exact (IH _ _ _ R1 J E2).
Qed.
Lemma new_ready (servos : V6 (servo A)) :
  axes (fun i => inside32 L (at6 servos i) (mn i) (mx i) (M i) /\ exists w, v32 (s_maxvel (at6 servos i)) w /\ (1 / 1000 <= w)%R) ->
  ready (robot_new A fwd p2l servos).
Proof.
  intros HS. assert (H0 : arm_inside L mn mx M (robot_new A fwd p2l servos)) by (unfold arm_inside, axes in *; cbn [r_servos robot_new with_targets]; tauto).
  unfold ready. split; [exact H0|]. split; [unfold axes in *; cbn [r_servos robot_new with_targets]; tauto|].
  split; [exact (logical_fin _ H0)|]. split; [|split; [|split; reflexivity]].
  - assert (Z0 : fin 1000000 (fofz A 0)) by (exists 0%R; split; [apply (v_int 0); lia|rewrite Rabs_R0; lra]). cbn. unfold six. cbn. auto 10.
  - exists 70%R. split; [apply (v_int 70); lia|lra].
Qed.

(** Joint moves only: whatever the calls, the finite targets, the speeds and the schedule, nothing faults, all commanded
    speeds and angles are numbers, and every servo stays within M/4000000 of its limits. *)
Theorem C32_joint_moves_ieee (servos : V6 (servo A)) (os : list (RobotModel.rop A)) :
  axes (fun i => inside32 L (at6 servos i) (mn i) (mx i) (M i) /\ exists w, v32 (s_maxvel (at6 servos i)) w /\ (1 / 1000 <= w)%R) ->
  Forall joint_op os ->
  exists r e, r_run A fwd inv l2p p2l limits (robot_new A fwd p2l servos) os = Ok (r, e) /\
    Forall (fun '(i, v, a) => number v /\ number a) (servo_cmds e) /\
    axes (fun i => exists c, v32 (s_cur (at6 (r_servos r) i)) c /\ (mn i - M i / 4000000 <= c <= mx i + M i / 4000000)%R).
Proof.
  intros HS J. pose proof (new_ready servos HS) as R0.
  assert (K : forall r, ready r -> exists r' e, r_run A fwd inv l2p p2l limits r os = Ok (r', e) /\ ready r' /\ numbers (servo_cmds e)).
  { induction J as [|o os Jo J IH]; intros r RD; [exists r, []; cbn; split; [reflexivity|]; split; [exact RD|apply Forall_nil]|].
    destruct (step_ready r o RD Jo) as (r1 & e1 & E1 & R1 & N1). destruct (IH r1 R1) as (r2 & e2 & E2 & R2 & N2).
    exists r2, (e1 ++ e2). cbn [r_run]. rewrite E1. cbn [bind]. rewrite E2. cbn [bind]. split; [reflexivity|]. split; [exact R2|].
    unfold numbers in *. rewrite servo_cmds_app. apply Forall_app. auto. }
  destruct (K _ R0) as (r & e & E & RD & N). exists r, e. split; [exact E|]. split; [exact N|].
  destruct RD as ((I0 & I1 & I2 & I3 & I4 & I5) & _). unfold axes.
  assert (Q : forall (x : servo A) i, inside32 L x (mn i) (mx i) (M i) -> exists c, v32 (s_cur x) c /\ (mn i - M i / 4000000 <= c <= mx i + M i / 4000000)%R).
  { intros x i (_ & _ & _ & _ & (c & V & B) & _). exists c. auto. }
  split; [|split; [|split; [|split; [|split]]]]; apply Q; assumption.
Qed.
End Moves.

(** ** the kit *)
Section Kit.
Context (L : libm).
Notation A := (IEEE L).
Lemma kit_l2p_fin a : six (fin 1000000) a -> six (fin 10000000) (kit_l2p A a).
Proof.
  intros (H0 & H1 & H2 & H3 & H4 & H5). unfold six, kit_l2p. cbn [v0 v1 v2 v3 v4 v5 fadd IEEE]. pose proof tiny_small.
  splits; try (apply (fin_le 1000000); [lra|assumption]). apply (fin_add 1000000 1000000); auto; lra.
Qed.
Lemma kit_p2l_fin a : six (fin 1100) a -> six (fin 1000000) (kit_p2l A a).
Proof.
  intros (H0 & H1 & H2 & H3 & H4 & H5). unfold six, kit_p2l. cbn [v0 v1 v2 v3 v4 v5 fsub IEEE]. pose proof tiny_small.
  splits; try (apply (fin_le 1100); [lra|assumption]). apply (fin_sub 1100 1100); auto; lra.
Qed.
Lemma kit_servos_ready : axes (fun i => inside32 L (at6 (kit_servos A) i) (kit_mn L i) (kit_mx L i) 3 /\ exists w, v32 (s_maxvel (at6 (kit_servos A) i)) w /\ (1 / 1000 <= w)%R).
Proof.
  destruct (C30_kit_calibrated_ieee L) as [(I0 & I1 & I2 & I3 & I4 & I5) _]. unfold axes.
  assert (W : forall s, s = deg A 300 -> exists w, v32 s w /\ (1 / 1000 <= w)%R).
  { intros s ->. exists (SF2R radix2 (deg A 300)). split; [lit|]. lits. lra. }
  split; [|split; [|split; [|split; [|split]]]]; (split; [assumption|apply W; reflexivity]).
Qed.
Lemma kit_ready fwd : ready L (kit_mn L) (kit_mx L) (fun _ => 3%R) (robot_new A fwd (kit_p2l A) (kit_servos A)).
Proof. apply (new_ready L fwd (kit_p2l A) (kit_mn L) (kit_mx L) (fun _ => 3%R) kit_p2l_fin). exact kit_servos_ready. Qed.
Theorem C32_kit_joint_moves_ieee fwd inv limits (os : list (RobotModel.rop A)) :
  Forall (joint_op L) os ->
  exists r e, r_run A fwd inv (kit_l2p A) (kit_p2l A) limits (robot_new A fwd (kit_p2l A) (kit_servos A)) os = Ok (r, e) /\
    Forall (fun '(i, v, a) => number v /\ number a) (servo_cmds e) /\
    axes (fun i => exists c, v32 (s_cur (at6 (r_servos r) i)) c /\ (kit_mn L i - 1 / 1000000 <= c <= kit_mx L i + 1 / 1000000)%R).
Proof.
  intros J. destruct (C32_joint_moves_ieee L fwd inv (kit_l2p A) (kit_p2l A) limits (kit_mn L) (kit_mx L) (fun _ => 3%R) kit_l2p_fin kit_p2l_fin (kit_servos A) os) as (r & e & E & N & B); auto.
  - exact kit_servos_ready.
  - exists r, e. split; [exact E|]. split; [exact N|]. unfold axes in *.
    destruct B as ((c0 & V0 & B0) & (c1 & V1 & B1) & (c2 & V2 & B2) & (c3 & V3 & B3) & (c4 & V4 & B4) & (c5 & V5 & B5)).
    split; [exists c0|split; [exists c1|split; [exists c2|split; [exists c3|split; [exists c4|exists c5]]]]]; (split; [assumption|lra]).
Qed.
End Kit.

(** six joints commanded, one of them asked for more than its limit: the second move is refused *)
Example C32_kit_joint_reachable :
  let a x y z := mk6 (deg IF x) (deg IF y) (deg IF z) (fi 0) (fi 0) (fi 0) in
  let ops := [OVel (fi 30); OSetAngles (a 20 (-10) 15); OProcess; OTick 20; OTick 300; OSetAngle 0 (deg IF 91); OProcess] in
  match r_run IF (fun x => x) demo_inv (kit_l2p IF) (kit_p2l IF) (kit_limits IF) (robot_new IF (fun x => x) (kit_p2l IF) (kit_servos IF)) ops with
  | Ok (r, e) => map (fun c => snd c) (servo_cmds e) = [deg IF 20; deg IF (-10); S754_finite false 11712708 (-27); fi 0; fi 0; fi 0] /\ r_state r = IDLE
  | Ub _ => False
  end.
Proof. vm_compute. splits; reflexivity. Qed.
Print Assumptions C32_kit_joint_moves_ieee.
