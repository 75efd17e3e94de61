(** * C67, C68: a case in exact arithmetic that meets their hypotheses: one joint of a small robot goes from 0 to 1 rad *)
From Coq Require Import Reals Lra.
From Verif Require Import Base Arith ServoModel ServoSpec ServoProofs RobotModel RobotSpec RobotProofs RobotExact FineModel FineProofs PropRobot PropFine PropFineRead.
Open Scope Z_scope.
Set Default Goal Selector "!".

Definition go : list (RobotModel.rop RA) := [OSetAngles (A:=RA) ex_t; OProcess].
Lemma deg_small : (RAD_TO_DEG RA <= 60)%R.
Proof.
  unfold RAD_TO_DEG. cbn [ddec RA]. unfold rdec.
  change (powerRZ 10 (-30)) with (/ pow 10 (Pos.to_nat 30))%R. change (Pos.to_nat 30) with 30%nat.
  replace (10 ^ 30)%R with 1000000000000000000000000000000%R by (cbn [pow]; lra). lra.
Qed.

Lemma ex_go : exists r1 evs T,
  ex_run ex_robot go = Ok (r1, evs) /\ r_state r1 = MOVING /\ r_cur r1 = r_total r1 /\ axes (fun i => s_elapsed (at6 (r_servos r1) i) = 0) /\ RR r1 /\
  (0 < T <= 1)%R /\
  forall dts r2 e2, Forall (fun d => 0 <= d) dts -> total dts < 4294967296 -> ex_run r1 (map OTick dts) = Ok (r2, e2) ->
    axes (fun i => s_cur (at6 (r_servos r2) i) = (0 + (at6 ex_t i - 0) * progress T (IZR (total dts)))%R /\ s_target (at6 (r_servos r2) i) = at6 ex_t i).
Proof.
  destruct C35_reachable as (H & V & r1 & evs & vels & E & CM & MV). pose proof E as E0. unfold ex_run in E.
  assert (N : servo_cmds evs <> []) by (rewrite CM; discriminate).
  assert (H1 : RR r1) by (eapply RR_run; [exact H|exact E]).
  cbn [r_run r_step bind] in E.
  destruct (r_process _ _ _ _ _ _ (set_angles6 RA ex_robot ex_t)) as [[rx ex]|] eqn:Ep; [|discriminate].
  cbn [bind] in E. rewrite app_nil_r in E. injection E as -> ->.
  unfold r_process, set_angles6 in Ep. cbn [r_state with_state] in Ep.
  apply prepare_cases in Ep as [(_ & _ & ->) | [(_ & _ & X & _) | (_ & _ & [(_ & _ & ->) | (_ & n & Hn & K)])]];
    try (now destruct N); try discriminate.
  assert (n = 1) as -> by (cbn in Hn; congruence).
  match type of K with r_start_move _ _ _ _ _ _ ?x = _ => set (rs := x) in * end.
  assert (Ss : r_servos rs = ex_servos) by reflexivity.
  assert (Hs : RR rs) by (unfold RR; rewrite Ss; exact H).
  destruct (start_move_timing ex_id ex_inv ex_id ex_id ex_limits rs r1 evs Hs K N)
    as (p & es & tl & time & T & P & -> & TP & TL & SP & CM' & SV & LST). cbv zeta in P.
  assert (ME : r_method rs = P2P) by reflexivity.
  pose proof (plan_p2p _ _ _ _ _ _ P ME) as E1. pose proof (plan_p2p_time _ _ _ _ _ _ P ME) as E2.
  assert (tl = ex_t) as -> by exact E1. clear E1 P.
  apply start_move_frame in K as (_ & _ & _ & T1 & C1 & _ & _ & _ & _ & S1).
  exists r1, evs, T. split; [exact E0|]. split.
  { destruct S1 as [(S1 & _)|(S1 & _)]; [exact S1|]. unfold is_moving in MV. rewrite S1 in MV. discriminate. }
  split. { rewrite T1, C1. reflexivity. }
  split. { unfold axes in *. cbn [at6] in *. destruct SV as (-> & -> & -> & -> & -> & ->). cbn. splits; reflexivity. }
  split; [exact H1|]. split.
  - split; [exact TP|]. rewrite Ss in LST. apply LST.
    + assert (E3 : time = (max_change RA (current_logical RA ex_id ex_robot) ex_t / 70 * RAD_TO_DEG RA)%R) by exact E2. rewrite E3.
      assert (B : (max_change RA (current_logical RA ex_id ex_robot) ex_t <= 1)%R).
      { apply fold_least; [cbn; lra|]. unfold list6. cbn. repeat (apply Forall_cons; [unfold Rabs; destruct Rcase_abs; lra|]). apply Forall_nil. }
      pose proof deg_small. assert (0 < RAD_TO_DEG RA)%R by (apply rdec_pos; lia).
      set (mc := max_change RA _ _) in *. clearbody mc. set (d := RAD_TO_DEG RA) in *. clearbody d. nra.
    + unfold axes. cbn. unfold Rabs. destruct (Rcase_abs (1 - 0)), (Rcase_abs (0 - 0)); splits; lra.
  - intros dts r2 e2 F B E. pose proof (step_progress ex_id ex_inv ex_id ex_id ex_limits rs r1 ex_t T dts r2 e2 Hs TP SV F B E) as X. exact X.
Qed.

(** the hypotheses of [C67_finished_partial], for this robot *)
Example C67_exact_reachable : exists r0 evs0 l0 r e1 l1 r' e2 l2 r'' e3 l3,
  axes (fun i => in_order (at6 ex_servos i)) /\
  fine_run RA ex_id ex_inv ex_id ex_id ex_limits (robot_new RA ex_id ex_id ex_servos) (map (fun o => (o, [])) go) = Ok (r0, evs0, l0) /\
  fine_step RA ex_id ex_inv ex_id ex_id ex_limits r0 (OTick 1000, []) = Ok (r, e1, l1) /\
  fine_step RA ex_id ex_inv ex_id ex_id ex_limits r (OProcess, []) = Ok (r', e2, l2) /\
  fine_run RA ex_id ex_inv ex_id ex_id ex_limits r' (map (fun d => (OTick d, [])) [20]) = Ok (r'', e3, l3) /\
  r_state r = MOVING /\ r_state r' = IDLE /\
  axes (fun i => 0 <= s_elapsed (at6 (r_servos r0) i) /\ s_elapsed (at6 (r_servos r0) i) + 1000 + total (concat []) + total [20] < 4294967296) /\
  s_cur (v0 (r_servos r)) = 1%R.
Proof.
  destruct ex_go as (r1 & evs & T & E & S & C & L & H1 & TP & X).
  pose proof (C66_without_interrupts RA ex_id ex_inv ex_id ex_id ex_limits go ex_robot) as Q. fold ex_run in Q. rewrite E in Q.
  destruct (fine_run RA ex_id ex_inv ex_id ex_id ex_limits ex_robot (map (fun o => (o, [])) go)) as [[[r0 evs0] l0]|] eqn:E0; [cbn in Q; injection Q as -> ->|discriminate].
  destruct (RR_tick r1 1000 H1) as (rt & Et & Ht).
  assert (Et' : exists l1, fine_step RA ex_id ex_inv ex_id ex_id ex_limits r1 (OTick 1000, []) = Ok (rt, [], l1)).
  { unfold fine_step. cbn [fst]. rewrite r_tick_irqs. rewrite <- update6_tick in Et. destruct (update6 RA (r_servos r1) 1000) as [[s ps]|]; [|discriminate].
    cbn [bind f_r f_log] in *. injection Et as ->. eauto. }
  destruct Et' as [l1 Et'].
  assert (A1 : axes (fun i => s_cur (at6 (r_servos rt) i) = at6 ex_t i /\ s_target (at6 (r_servos rt) i) = at6 ex_t i)).
  { specialize (X [1000] rt []). unfold ex_run in X. cbn [map r_run r_step] in X. rewrite Et in X. cbn [bind app] in X.
    assert (PR : progress T (IZR (total [1000])) = 1%R).
    { unfold progress. apply Rmin_left. change (total [1000]) with 1000. apply (Rmult_le_reg_r (1000 * T)); [lra|]. unfold Rdiv. rewrite Rmult_assoc, Rinv_l by lra. lra. }
    rewrite PR in X. specialize (X ltac:(repeat constructor; lia) ltac:(cbn; lia) eq_refl). unfold axes in *. cbn [at6] in *.
    destruct X as ((X0 & Y0) & (X1 & Y1) & (X2 & Y2) & (X3 & Y3) & (X4 & Y4) & (X5 & Y5)).
    rewrite X0, X1, X2, X3, X4, X5, Y0, Y1, Y2, Y3, Y4, Y5. cbn. splits; lra. }
  assert (AT : all_at_target RA rt = true).
  { assert (one : forall s : servo RA, s_cur s = s_target s -> servo_at_target RA s = true).
    { intros s Es. unfold servo_at_target. rewrite Es. cbn. unfold rltb. replace (s_target s - s_target s)%R with 0%R by ring. rewrite Rabs_R0.
      destruct Rlt_dec as [|K]; [reflexivity|]. exfalso. apply K. apply rdec_pos. lia. }
    unfold all_at_target, list6. cbn [forallb]. unfold axes in A1. cbn [at6] in A1. destruct A1 as ((a0 & b0) & (a1 & b1) & (a2 & b2) & (a3 & b3) & (a4 & b4) & (a5 & b5)).
    rewrite !one by congruence. reflexivity. }
  assert (FR : exists s, rt = with_servos RA r1 s).
  { unfold r_tick in Et. cbv zeta in Et. repeat match type of Et with bind ?m _ = _ => destruct m; [cbn [bind] in Et|discriminate] end. injection Et as <-. eauto. }
  destruct FR as [sv FR].
  assert (Sp : r_process RA ex_id ex_inv ex_id ex_id ex_limits rt = Ok (with_state RA rt IDLE, [])).
  { unfold r_process. rewrite AT. rewrite FR. cbn [r_state r_cur r_total with_servos]. rewrite S, C, Z.eqb_refl. reflexivity. }
  destruct (RR_tick (with_state RA rt IDLE) 20 Ht) as (rf & Ef & Hf).
  assert (Ef' : exists l3, fine_run RA ex_id ex_inv ex_id ex_id ex_limits (with_state RA rt IDLE) (map (fun d => (OTick d, [])) [20]) = Ok (rf, [], l3)).
  { cbn [map fine_run]. unfold fine_step. cbn [fst]. rewrite r_tick_irqs. rewrite <- update6_tick in Ef. destruct (update6 RA (r_servos (with_state RA rt IDLE)) 20) as [[s ps]|]; [|discriminate].
    cbn [bind f_r f_log] in *. injection Ef as ->. eauto. }
  destruct Ef' as [l3 Ef'].
  assert (Sp' : exists l2, fine_step RA ex_id ex_inv ex_id ex_id ex_limits rt (OProcess, []) = Ok (with_state RA rt IDLE, [], l2)).
  { unfold fine_step. cbn [fst snd]. rewrite quiet_process, Sp. cbn. eauto. }
  destruct Sp' as [l2 Sp'].
  exists r1, evs, l0, rt, [], l1, (with_state RA rt IDLE), [], l2, rf, [], l3.
  split; [exact C66_in_order|]. split; [exact E0|]. split; [exact Et'|]. split; [exact Sp'|]. split; [exact Ef'|].
  split; [rewrite FR; exact S|]. split; [reflexivity|]. split.
  - unfold axes in *. cbn [at6] in *. destruct L as (-> & -> & -> & -> & -> & ->). cbn. splits; lia.
  - apply A1.
Qed.

(** the hypotheses of [C68_between_partial]: under way, an interrupt between the first and the second read *)
Example C68_exact_reachable : exists r0 evs0 l0 r e1 l1 pose st,
  fine_run RA ex_id ex_inv ex_id ex_id ex_limits (robot_new RA ex_id ex_id ex_servos) (map (fun o => (o, [])) go) = Ok (r0, evs0, l0) /\
  fine_step RA ex_id ex_inv ex_id ex_id ex_limits r0 (OTick 100, []) = Ok (r, e1, l1) /\
  axes (fun i => 0 <= s_elapsed (at6 (r_servos r0) i) /\ s_elapsed (at6 (r_servos r0) i) + 100 + total (concat [[]; [20]]) < 4294967296) /\
  fine_pose RA ex_id ex_id (mkF RA r [[]; [20]] []) = Ok (pose, st) /\
  (0 < s_cur (v0 (r_servos r)))%R /\ s_target (v0 (r_servos r)) = 1%R.
Proof.
  destruct ex_go as (r1 & evs & T & E & S & C & L & H1 & TP & X).
  pose proof (C66_without_interrupts RA ex_id ex_inv ex_id ex_id ex_limits go ex_robot) as Q. fold ex_run in Q. rewrite E in Q.
  destruct (fine_run RA ex_id ex_inv ex_id ex_id ex_limits ex_robot (map (fun o => (o, [])) go)) as [[[r0 evs0] l0]|] eqn:E0; [cbn in Q; injection Q as -> ->|discriminate].
  destruct (RR_tick r1 100 H1) as (rt & Et & Ht).
  assert (Et' : exists l1, fine_step RA ex_id ex_inv ex_id ex_id ex_limits r1 (OTick 100, []) = Ok (rt, [], l1)).
  { unfold fine_step. cbn [fst]. rewrite r_tick_irqs. pose proof Et as Eu. rewrite <- update6_tick in Eu. destruct (update6 RA (r_servos r1) 100) as [[s ps]|]; [|discriminate].
    cbn [bind f_r f_log] in *. injection Eu as ->. eauto. }
  destruct Et' as [l1 Et'].
  destruct (RR_tick rt 20 Ht) as (rf & Ef & Hf). rewrite <- update6_tick in Ef. destruct (update6 RA (r_servos rt) 20) as [[s ps]|] eqn:Eu; [|discriminate].
  eexists r1, evs, l0, rt, [], l1, _, _.
  split; [exact E0|]. split; [exact Et'|]. split.
  { unfold axes in *. cbn [at6] in *. destruct L as (-> & -> & -> & -> & -> & ->). cbn. splits; lia. }
  split.
  { unfold fine_pose, andthen, read_all, andthen, read_cur, andthen, pause. cbn [f_irq f_r f_log irqs]. cbn [look]. unfold look. cbn [f_irq f_r f_log irqs bind]. rewrite Eu. cbn [bind f_irq f_r f_log]. reflexivity. }
  specialize (X [100] rt []). unfold ex_run in X. cbn [map r_run r_step] in X. rewrite Et in X. cbn [bind app] in X.
  specialize (X ltac:(repeat constructor; lia) ltac:(cbn; lia) eq_refl). destruct X as ((X0 & Y0) & _). cbn [at6] in X0, Y0.
  split; [|exact Y0]. rewrite X0. change (v0 ex_t) with 1%R. change (total [100]) with 100. replace (0 + (1 - 0) * progress T 100)%R with (progress T 100) by ring.
  unfold progress. apply Rmin_glb_lt; [lra|]. unfold Rdiv. apply Rmult_lt_0_compat; [lra|]. apply Rinv_0_lt_compat. lra.
Qed.

Print Assumptions C67_exact_reachable.
Print Assumptions C68_exact_reachable.
