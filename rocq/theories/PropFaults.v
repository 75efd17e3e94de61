(** * Properties C60-C62: immediate instructions and the running one; zero speed; keeping the orientation *)
From Coq Require Import Reals Lra Floats.SpecFloat.
From Verif Require Import Base Arith ServoModel ServoSpec ServoProofs RobotModel RobotSpec RobotProofs RobotExact PropRobot IoModel IoSpec WaitModel MrilModel MrilSpec MrilProofs DeviceModel DeviceSpec DeviceProofs PropDevice SystemModel SystemSpec PropProgress.
Open Scope Z_scope.

(** ** C60: instructions executed at once (E frames) and the acknowledgement of the running instruction *)

(** Instructions of read commands leave the machine, including the running instruction, exactly as it was:
    the acknowledgement comes as without them. *)
Theorem C60_reads_keep_acknowledgement_partial : forall (A : arith) fwd inv l2p p2l limits pinMap print now (d : device A) cs n bs d2 e2 t lv,
  zlen (d_axes d) = 2 -> r_trans (d_robot d) = false -> pending (d_mril d) = n -> 0 < n -> cs <> [] -> Forall read_ok cs ->
  exists d1 e1, dev_parse A fwd p2l pinMap print now d (text_of cs) = Ok (d1, e1) /\
    (between_run A fwd inv l2p p2l limits print d1 bs = Ok (d2, e2) -> never_finished A fwd inv l2p p2l limits print d1 bs -> all_finished d2 t lv ->
     exists d3 e3, between_step A fwd inv l2p p2l limits print d2 (BPoll t lv) = Ok (d3, e3) /\ sent e3 = [finished_msg n]).
Proof.
  intros A fwd inv l2p p2l limits pinMap print now d cs n bs d2 e2 t lv W T P N NE RO.
  do 2 eexists. split; [apply (C24_reads_change_nothing A fwd p2l pinMap print now d cs W T NE RO)|].
  intros R NF AF. destruct (run_silent A fwd inv l2p p2l limits print bs d d2 e2 R) as [I _]. destruct (I NF) as [_ P2].
  destruct (dev_poll_cases A d2 t lv) as [[_ E2]|[NAF _]]; [|exfalso; exact (NAF AF)].
  cbn [between_step]. rewrite E2, P2, P. destruct (Z.ltb_spec 0 n); [|lia]. do 2 eexists. split; reflexivity.
Qed.
Print Assumptions C60_reads_keep_acknowledgement_partial.

(** An instruction of write commands without a number, executed while instruction n runs: N1<n> is never sent. *)
Theorem C60_acknowledgement_lost_refuted : forall (A : arith) fwd inv l2p p2l limits pinMap print now (d : device A) cs n d1 e1,
  pending (d_mril d) = n -> 0 < n -> cs <> [] -> Forall command_ok cs -> last_kind cs = WRITE -> numbers cs = [] ->
  dev_parse A fwd p2l pinMap print now d (text_of cs) = Ok (d1, e1) ->
  sent e1 = [] /\ forall bs d2 e2, between_run A fwd inv l2p p2l limits print d1 bs = Ok (d2, e2) -> sent e2 = [].
Proof.
  intros A fwd inv l2p p2l limits pinMap print now d cs n d1 e1 _ _ NE OK K NN E.
  destruct (write_parse A fwd p2l pinMap print now d cs d1 e1 NE OK K E) as [S M]. split; [rewrite S, NN; reflexivity|].
  assert (NB : number_of cs = -1).
  { clear - NN. unfold number_of. assert (G : forall l k, numbers l = [] -> fold_left (fun n c => match c with Number s d => int_val s d | _ => n end) l k = k).
    { induction l as [|c l IH]; intros k H; [reflexivity|]. cbn [fold_left]. unfold numbers in *. cbn [flat_map] in H. apply app_eq_nil in H as [H1 H2].
      rewrite IH by exact H2. destruct c; try reflexivity. discriminate. }
    now apply G. }
  intros bs d2 e2 R. destruct (run_silent A fwd inv l2p p2l limits print bs d1 d2 e2 R) as [_ I]. apply I. rewrite M, NB. cbn. lia.
Qed.
Print Assumptions C60_acknowledgement_lost_refuted.

(** With a number m of its own: the only message that can still come is N1<m>. *)
Theorem C60_acknowledgement_replaced_refuted : forall (A : arith) fwd inv l2p p2l limits pinMap print now (d : device A) cs n m d1 e1,
  pending (d_mril d) = n -> 0 < n -> cs <> [] -> Forall command_ok cs -> last_kind cs = WRITE -> number_of cs = m ->
  dev_parse A fwd p2l pinMap print now d (text_of cs) = Ok (d1, e1) ->
  forall bs d2 e2 t, between_run A fwd inv l2p p2l limits print d1 bs = Ok (d2, e2) -> In t (sent e2) -> t = finished_msg m.
Proof.
  intros A fwd inv l2p p2l limits pinMap print now d cs n m d1 e1 _ _ NE OK K NM E.
  destruct (write_parse A fwd p2l pinMap print now d cs d1 e1 NE OK K E) as [_ M]. rewrite NM in M.
  assert (G : forall bs d1 d2 e2 t, pending (d_mril d1) = m -> between_run A fwd inv l2p p2l limits print d1 bs = Ok (d2, e2) -> In t (sent e2) -> t = finished_msg m).
  { clear. induction bs as [|b bs IH]; intros d1 d2 e2 t P R I; cbn [between_run] in R; [injection R as <- <-; contradiction|].
    destruct (between_step A fwd inv l2p p2l limits print d1 b) as [[d3 e3]|] eqn:S; cbn [bind] in R; [|discriminate].
    destruct (between_run A fwd inv l2p p2l limits print d3 bs) as [[d4 e4]|] eqn:R2; cbn [bind] in R; [|discriminate]. injection R as <- <-.
    rewrite sent_app in I. destruct b as [| |now lv]; cbn [between_step] in S.
    - apply dev_robot_silent in S as [S0 S1]. rewrite S0 in I. apply (IH d3 d4 e4); auto. rewrite S1. exact P.
    - destruct (dev_tick A d1) as [d5|] eqn:T; cbn [bind] in S; [|discriminate]. injection S as <- <-.
      apply (IH d5 d4 e4); auto. rewrite (dev_tick_mril A _ _ T). exact P.
    - injection S as S. destruct (dev_poll_cases A d1 now lv) as [[_ EP]|[_ (io & _ & EP)]]; rewrite EP in S; injection S as <- <-.
      + rewrite P in *. apply in_app_iff in I as [I|I].
        * destruct (0 <? m); [|contradiction]. destruct I as [I|[]]; auto.
        * destruct (Z.ltb_spec 0 m).
          -- destruct (run_silent A fwd inv l2p p2l limits print bs _ d4 e4 R2) as [_ J]. destruct J as [J _]; [cbn; lia|]. rewrite J in I. contradiction.
          -- apply (IH _ d4 e4 t) in R2; auto.
      + cbn [app] in I. apply (IH _ d4 e4 t) in R2; auto. }
  intros bs d2 e2 t R I. apply (G bs d1 d2 e2 t); auto. rewrite M. reflexivity.
Qed.
Print Assumptions C60_acknowledgement_replaced_refuted.
(** "N5D100" runs; "V7" at once: nothing is ever sent *)
Example C60_reachable : forall (A : arith) fwd inv l2p p2l limits pinMap print servos axs,
  exists d e d1 e1, dev_parse A fwd p2l pinMap print 1000 (dev_boot A fwd p2l servos axs) [78; 53; 68; 49; 48; 48] = Ok (d, e) /\
    pending (d_mril d) = 5 /\ dev_parse A fwd p2l pinMap print 1001 d (text_of [SetVelocity (mkNum false [7] None)]) = Ok (d1, e1) /\
    exists d2 e2, between_run A fwd inv l2p p2l limits print d1 [BPoll 1050 (fun _ _ => false); BPoll 1101 (fun _ _ => false)] = Ok (d2, e2) /\
      sent e2 = [].
Proof. intros. do 4 eexists. split; [vm_compute; reflexivity|]. split; [reflexivity|]. split; [vm_compute; reflexivity|]. do 2 eexists. split; vm_compute; reflexivity. Qed.

(** ** C61: zero speed *)
Section Zero.
Context (L : libm).
Notation A := (IEEE L).
Context (fwd : V6 (F A) -> V6 (F A)) (inv : V6 (F A) -> option (V6 (F A))).
Context (l2p p2l : V6 (F A) -> V6 (F A)) (limits : V6 (F A * F A)).

Lemma nan_min (r : robot A) t : min_time A r t S754_nan = S754_nan.
Proof. reflexivity. Qed.
Lemma div_nan_r p e x : SFdiv p e x S754_nan = S754_nan.
Proof. destruct x; reflexivity. Qed.
Lemma add_nan_r p e x : SFadd p e x S754_nan = S754_nan.
Proof. destruct x; reflexivity. Qed.
Lemma sub_nan_r p e x : SFsub p e x S754_nan = S754_nan.
Proof. destruct x; reflexivity. Qed.
Lemma zero_div (s : bool) y : exists z, SFdiv 24 128 (S754_zero s) y = z /\ (z = S754_nan \/ exists s', z = S754_zero s').
Proof. destruct y; eexists; (split; [reflexivity|]); cbn; eauto. Qed.
Lemma zero_speed (s s' : bool) y : SFdiv 24 128 (SFdiv 24 128 (S754_zero s) y) (S754_zero s') = S754_nan.
Proof. destruct (zero_div s y) as (z & -> & [->|[s2 ->]]); reflexivity. Qed.
(** the servo got the speed NaN: the next tick converts NaN to an integer *)
Lemma nan_speed_tick (s : servo A) dt : s_vel s = S754_nan -> servo_process A s dt = Ub BadConv.
Proof.
  intros V. unfold servo_process.
  assert (C : s_cur (servo_advance A s dt) = S754_nan).
  { unfold servo_advance, servo_delta. cbn [s_vel with_elapsed s_elapsed]. rewrite V. cbn [fmul f2d d2f ddiv A IEEE].
    assert (M : forall z, SFmul 24 128 S754_nan z = S754_nan) by (intros []; reflexivity). rewrite M.
    assert (Q : forall z, SFdiv 53 1024 (sf_conv 53 1024 S754_nan) z = S754_nan) by (intros []; reflexivity). rewrite Q.
    change (sf_conv 24 128 S754_nan) with S754_nan. cbn [fabsf flt A IEEE].
    assert (LT : forall z, SFltb z (SFabs S754_nan) = false) by (intros []; reflexivity). rewrite LT.
    cbn [fadd fsub A IEEE]. destruct (SFltb _ _); cbn [s_cur with_cur]; [apply add_nan_r|apply sub_nan_r]. }
  set (s' := servo_advance A s dt) in *. cbv zeta. unfold servo_move, to_int, map_float. rewrite C.
  assert (S1 : forall z, SFsub 24 128 S754_nan z = S754_nan) by (intros []; reflexivity).
  assert (M1 : forall z, SFmul 24 128 S754_nan z = S754_nan) by (intros []; reflexivity).
  assert (D1 : forall z, SFdiv 24 128 S754_nan z = S754_nan) by (intros []; reflexivity).
  assert (A1 : forall z, SFadd 24 128 S754_nan z = S754_nan) by (intros []; reflexivity).
  cbn [fsub fmul fdiv fadd ftoz A IEEE]. rewrite S1, M1, D1, A1. reflexivity.
Qed.
End Zero.

(** Full claim: whatever speed the host sets (V), moves are executed without undefined behaviour.  False: after "V0",
    for every robot and every LINEAR move that changes only the orientation and is not rejected, all six
    servos get the speed NaN, and the next timer tick converts NaN to an integer. *)
Theorem C61_zero_speed_refuted : forall (L : libm) fwd inv l2p p2l limits (r r' : robot (IEEE L)) evs (z : bool),
  r_method r = LINEAR -> r_maxvel r = S754_zero z ->
  dist3 (IEEE L) (fsub (IEEE L) (v0 (r_targetP r)) (v0 (r_startP r))) (fsub (IEEE L) (v1 (r_targetP r)) (v1 (r_startP r)))
                 (fsub (IEEE L) (v2 (r_targetP r)) (v2 (r_startP r))) = S754_zero false ->
  r_start_move (IEEE L) fwd inv l2p p2l limits r = Ok (r', evs) -> r_state r' = MOVING ->
  Forall (fun c => snd (fst c) = S754_nan) (servo_cmds evs) /\ length (servo_cmds evs) = 6%nat /\
  forall dt, r_tick (IEEE L) r' dt = Ub BadConv.
Proof.
  intros L fwd inv l2p p2l limits r r' evs z ML MV DZ E ST.
  apply start_move_cases in E as (p & es & P & [[-> ->]|(tl & time & -> & _ & _ & C)]); [discriminate|].
  assert (TN : time = S754_nan).
  { unfold r_plan in P. cbn [r_method with_steps] in P. rewrite ML in P. cbv zeta in P.
    cbn [r_startP r_targetP with_steps] in P. rewrite DZ in P. destruct (inv _); [|discriminate]. injection P as <- <- <-.
    change (r_maxvel (with_steps (IEEE L) r (u32 (r_cur r + 1)) (r_total r))) with (r_maxvel r). rewrite MV. exact (zero_speed false z _). }
  assert (PE : servo_cmds es = []).
  { unfold r_plan in P. cbn [r_method with_steps] in P. rewrite ML in P. destruct (inv _); injection P; intros; subst; reflexivity. }
  rewrite TN in C. rewrite !nan_min in C. destruct C as [(X & _)|(_ & -> & ->)]; [discriminate|].
  rewrite servo_cmds_app, PE. cbn [app]. unfold command_servos. cbn [snd fst servo_cmds map6 zip6 v0 v1 v2 v3 v4 v5].
  assert (NV : forall x : F (IEEE L), fdiv (IEEE L) x S754_nan = S754_nan) by (intros x; apply div_nan_r).
  split; [|split; [reflexivity|]].
  - repeat (apply Forall_cons; [cbn [fst snd]; apply NV|]). apply Forall_nil.
  - intros dt. unfold r_tick. cbn [r_servos with_state with_servos zip6 v0]. rewrite nan_speed_tick; [reflexivity|].
    cbn [s_vel servo_set_target set_target_3 set_target_2 set_target_1 with_target with_elapsed with_start fst map6 v0].
    rewrite NV. unfold servo_set_vel. cbn [flt fle IEEE].
    assert (L1 : forall x, SFltb x S754_nan = false) by (intros []; reflexivity). rewrite L1.
    change (SFleb S754_nan (fofz (IEEE L) 0)) with false. reflexivity.
Qed.
Print Assumptions C61_zero_speed_refuted.

(** reachable: ":V0C10" CR to the robot of PropProgress: the speed 0, then the pose's last angle to 10 degrees
    (LINEAR is the method at power-up).  The next timer tick is undefined *)
Definition demo_v0 : list Z := [58; 86; 48; 67; 49; 48; 13].
Example C61_reachable :
  match demo_system (map SArrive demo_v0 ++ repeat (SRun 10 (fun _ _ => false)) 15) with
  | Ok (s, tr) => commanded tr <> [] /\ r_state (d_robot (y_dev s)) = MOVING /\
                  map (fun c => snd (fst c)) (commanded tr) = repeat S754_nan 6
  | Ub _ => False
  end /\
  match demo_system (map SArrive demo_v0 ++ repeat (SRun 10 (fun _ _ => false)) 15 ++ [STick]) with Ok _ => False | Ub f => f = BadConv end.
Proof. vm_compute. splits; try reflexivity; discriminate. Qed.

(** ** C62: a straight move that keeps the orientation *)

(** In exact arithmetic the rotation angle of such a move is 0, so that it has the steps of its distance *)
Theorem C62_keep_orientation_partial : forall start target : V6 (F RA),
  v4 start = v4 target -> v5 start = v5 target ->
  rotation_angle RA start target = 0%R /\
  ((distance start target <= 1000000000)%R -> linear_steps RA start target = Ok (segments start target)).
Proof.
  intros s t E4 E5. split; [|intros B; apply linear_steps_RA; exact B]. unfold rotation_angle, orient. rewrite E4, E5. cbn [fcos fsin fmul fopp RA].
  unfold norm3. cbn [fmul fadd fsqrt f2d d2f ddiv RA facos].
  set (b := (v4 t : R)). set (c := (v5 t : R)).
  assert (L : (sqrt (cos b * cos c * (cos b * cos c) + cos b * sin c * (cos b * sin c) + - sin b * - sin b) = 1)%R).
  { rewrite <- sqrt_1. f_equal. pose proof (sin2_cos2 b) as B. pose proof (sin2_cos2 c) as C. unfold Rsqr in *.
    replace (cos b * cos c * (cos b * cos c) + cos b * sin c * (cos b * sin c) + - sin b * - sin b)%R
      with (cos b * cos b * (sin c * sin c + cos c * cos c) + sin b * sin b)%R by ring. rewrite C. lra. }
  rewrite L. match goal with |- acos ?x = _ => replace x with 1%R; [apply acos_1|] end.
  pose proof (sin2_cos2 b) as B. pose proof (sin2_cos2 c) as C. unfold Rsqr in *.
  replace (cos b * cos c / 1 * (cos b * cos c / 1) + cos b * sin c / 1 * (cos b * sin c / 1) + - sin b / 1 * (- sin b / 1))%R
    with (cos b * cos b * (sin c * sin c + cos c * cos c) + sin b * sin b)%R by field. rewrite C. lra.
Qed.
Print Assumptions C62_keep_orientation_partial.

(** the float nearest to 45 degrees, and its cosine and sine (both 0.70710677) *)
Definition b45 : spec_float := S754_finite false 13176795 (-24).
Definition r45 : spec_float := S754_finite false 11863283 (-24).
(** what the C library gives: correctly rounded values at 45 degrees and at 0, NaN for acos of more than 1 *)
Definition good_libm (L : libm) : Prop :=
  m_fcos L b45 = r45 /\ m_fsin L b45 = r45 /\
  m_fcos L (S754_zero false) = binary_normalize 24 128 1 0 false /\ m_fsin L (S754_zero false) = S754_zero false /\
  forall x, SFltb (binary_normalize 24 128 1 0 false) x = true -> m_facos L x = S754_nan.

Lemma rotation_nan L (s t : V6 (F (IEEE L))) : good_libm L ->
  v4 s = b45 -> v4 t = b45 -> v5 s = S754_zero false -> v5 t = S754_zero false ->
  rotation_angle (IEEE L) s t = S754_nan.
Proof.
  intros (C & S & C0 & S0 & AC) E1 E2 E3 E4. unfold rotation_angle, orient. cbn [fcos fsin IEEE].
  rewrite E1, E2, E3, E4, C, S, C0, S0.
  match goal with |- context [norm3 (IEEE L) ?u] => let v := eval vm_compute in (norm3 (IEEE flat_libm) u) in change (norm3 (IEEE L) u) with v end.
  cbn [facos IEEE]. apply AC. vm_compute. reflexivity.
Qed.
Lemma linear_steps_nan L (s t : V6 (F (IEEE L))) : rotation_angle (IEEE L) s t = S754_nan ->
  linear_steps (IEEE L) s t = Ub BadConv.
Proof.
  intros N. unfold linear_steps. rewrite N. cbv zeta.
  match goal with |- context [to_int _ ?x] => destruct (to_int (IEEE L) x) as [k|f] eqn:E end.
  - cbn [bind]. reflexivity.
  - cbn [bind]. unfold to_int in E. destruct (ftoz _ _); [destruct (_ && _)|]; congruence.
Qed.

(** Full claim: a straight move that changes only the position is planned like any other.  False in float
    arithmetic: with the tool turned down by 45 degrees, for every robot, kinematics, position and correct math library,
    the product of the orientation vector with itself is 1.0000001, its acos NaN, and NaN is converted to an integer. *)
Theorem C62_keep_orientation_refuted : forall (L : libm) fwd inv l2p p2l limits (r : robot (IEEE L)) a,
  good_libm L ->
  r_state r = PREPARE_MOVE -> r_method r = LINEAR -> r_trans r = false -> r_achg r = false -> r_pchg r = true ->
  inv (r_targetP r) = Some a ->
  angles_equal (IEEE L) (p2l (map6 s_cur (r_servos r))) a = false ->
  v4 (fwd (p2l (map6 s_cur (r_servos r)))) = b45 -> v5 (fwd (p2l (map6 s_cur (r_servos r)))) = S754_zero false ->
  v4 (r_targetP r) = b45 -> v5 (r_targetP r) = S754_zero false ->
  r_process (IEEE L) fwd inv l2p p2l limits r = Ub BadConv.
Proof.
  intros L fwd inv l2p p2l limits r a G ST M T AC PC IV NE E1 E2 E3 E4.
  unfold r_process. rewrite ST. unfold r_prepare. rewrite T, AC, PC, IV. cbn [andb]. cbv zeta.
  cbn [r_startA r_targetA r_startP r_targetP with_starts with_targets with_flags r_method]. 
  assert (CL : current_logical (IEEE L) p2l (with_flags (IEEE L) (with_targets (IEEE L) r a (r_targetP r)) false false) = p2l (map6 s_cur (r_servos r))) by reflexivity.
  assert (CP : current_pose (IEEE L) fwd p2l (with_flags (IEEE L) (with_targets (IEEE L) r a (r_targetP r)) false false) = fwd (p2l (map6 s_cur (r_servos r)))) by reflexivity.
  rewrite CL, CP, NE, M, linear_steps_nan; [reflexivity|]. now apply rotation_nan.
Qed.
Print Assumptions C62_keep_orientation_refuted.

(** such a library, and the robot of PropRobot turned down by 45 degrees, asked to move 1 in x *)
Definition libm45 : libm :=
  let one := binary_normalize 24 128 1 0 false in
  let z := fun _ : spec_float => S754_zero false in let z2 := fun _ _ : spec_float => S754_zero false in
  mkLibm (fun x => if SFeqb x b45 then r45 else S754_zero false) (fun x => if SFeqb x b45 then r45 else one)
         (fun x => if SFltb one x then S754_nan else S754_zero false) z z2 z (fun _ => one) z z2 z2.
Definition servo45 (x : spec_float) : servo (IEEE libm45) :=
  mkServo (IEEE libm45) 3 false (S754_zero false) 700 2380 0 x x x (fofz (IEEE libm45) (-3)) (fofz (IEEE libm45) 3) (fofz (IEEE libm45) 5) (fofz (IEEE libm45) 5).
Example C62_reachable : good_libm libm45 /\
  let z := servo45 (S754_zero false) in
  let r0 := robot_new (IEEE libm45) (fun a => a) (fun a => a) (mk6 z z z z (servo45 b45) z) in
  let ops : list (RobotModel.rop (IEEE libm45)) := [OMethod LINEAR; OSetPose 0 (fofz (IEEE libm45) 1); OProcess] in
  let lim := (fofz (IEEE libm45) (-3), fofz (IEEE libm45) 3) in
  match r_run (IEEE libm45) (fun a => a) (fun p => Some p) (fun a => a) (fun a => a) (mk6 lim lim lim lim lim lim) r0 ops with Ok _ => False | Ub f => f = BadConv end.
Proof.
  split.
  - split; [vm_compute; reflexivity|]. split; [vm_compute; reflexivity|]. split; [vm_compute; reflexivity|]. split; [vm_compute; reflexivity|].
    intros x H. cbn [m_facos libm45]. rewrite H. reflexivity.
  - vm_compute. reflexivity.
Qed.
