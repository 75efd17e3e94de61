(** * Crank: joints 1 and 2 of the arm move in step (exact arithmetic).

    Where two servos are commanded to arrive together, the difference of their angles stays, at
    every tick and over every history, between its extreme values at the commands.  Used by
    C81: the crank of the linkage of mp-robot-d stays in the interval on which the linkage can be
    computed backwards. *)
From Coq Require Import Reals Lra Psatz.
From Verif Require Import Base Arith ServoModel ServoSpec ServoProofs RobotModel RobotSpec RobotProofs RobotExact.
Set Default Goal Selector "!".
Open Scope Z_scope.

Section Pair.
Variables lo hi : R.
Definition inside (x : R) : Prop := (lo <= x <= hi)%R.

(** servo [s] is [T] seconds of its speed from start to target, or stands *)
Definition timed (T : R) (s : servo RA) : Prop :=
  (Rabs (s_target s - s_start s) = s_vel s * T)%R \/ @eq R (s_start s) (s_target s).
(** two servos moving in step *)
Definition in_step (s1 s2 : servo RA) : Prop :=
  s_elapsed s1 = s_elapsed s2 /\
  inside (s_start s2 - s_start s1) /\ inside (s_target s2 - s_target s1) /\ inside (s_cur s2 - s_cur s1) /\
  exists T : R, (0 < T)%R /\ timed T s1 /\ timed T s2.

Lemma inside_between a b f : inside a -> inside b -> (0 <= f <= 1)%R -> inside (a + (b - a) * f)%R.
Proof. unfold inside. intros. nra. Qed.

(** one tick of one servo, in step *)
Lemma advance_timed (s : servo RA) dt T : (0 < T)%R -> (0 < s_vel s)%R -> timed T s ->
  let t := (IZR (u32 (s_elapsed s + dt)) / 1000)%R in
  let s' := servo_advance RA s dt in
  s_elapsed s' = u32 (s_elapsed s + dt) /\ @eq R (s_target s') (s_target s) /\ @eq R (s_vel s') (s_vel s) /\
  ((T < t)%R -> @eq R (s_start s') (s_target s) /\ @eq R (s_cur s') (s_target s)) /\
  (~ (T < t)%R -> @eq R (s_start s') (s_start s) /\ @eq R (s_cur s') (s_start s + (s_target s - s_start s) * (t / T))%R).
Proof.
  intros TP VP H. cbv zeta. rewrite advance_eq. cbv zeta. set (e := u32 (s_elapsed s + dt)).
  set (t := (IZR e / 1000)%R).
  assert (E0 : (0 <= t)%R). { unfold t. assert (0 <= e) by (apply u32_range). apply IZR_le in H0. lra. }
  replace (s_vel s * IZR e / 1000)%R with (s_vel s * t)%R by (unfold t; field).
  rewrite (Rabs_right (s_vel s * t)) by nra.
  destruct (Rlt_dec (Rabs (s_target s - s_start s)) (s_vel s * t)) as [L|L].
  - cbn [s_elapsed s_target s_vel s_start s_cur with_start with_cur with_elapsed].
    split; [reflexivity|]. split; [reflexivity|]. split; [reflexivity|]. split; [auto|].
    intros N. destruct H as [H|H].
    + exfalso. rewrite H in L. apply N. nra.
    + split; [now symmetry|]. rewrite H. nra.
  - assert (G : (0 <= t / T)%R) by (apply Rmult_le_pos; [exact E0|left; now apply Rinv_0_lt_compat]).
    destruct (Rlt_dec (s_start s) (s_target s)) as [D|D]; cbn [s_elapsed s_target s_vel s_start s_cur with_start with_cur with_elapsed];
      (split; [reflexivity|]; split; [reflexivity|]; split; [reflexivity|]; split).
    + intros K. exfalso. destruct H as [H|H]; [rewrite H in L; nra|lra].
    + intros _. split; [reflexivity|]. destruct H as [H|H]; [|lra]. rewrite Rabs_right in H by lra. rewrite H. field. lra.
    + intros K. destruct H as [H|H].
      * exfalso. rewrite H in L. nra.
      * split; [exact H|]. rewrite H, Rminus_diag_eq, Rabs_R0 in L by reflexivity.
        assert (Z0 : (s_vel s * t = 0)%R) by nra. rewrite Z0, H. nra.
    + intros _. split; [reflexivity|]. destruct H as [H|H].
      * rewrite Rabs_left1 in H by lra. replace (s_target s - s_start s)%R with (- (s_vel s * T))%R by lra. field. lra.
      * rewrite H, Rminus_diag_eq, Rabs_R0 in L by reflexivity.
        assert (Z0 : (s_vel s * t = 0)%R) by nra. rewrite Z0, H. nra.
Qed.
Lemma step_advance (s1 s2 : servo RA) dt : (0 < s_vel s1)%R -> (0 < s_vel s2)%R -> in_step s1 s2 ->
  in_step (servo_advance RA s1 dt) (servo_advance RA s2 dt).
Proof.
  intros V1 V2 (E & IS & IT & IC & T & TP & T1 & T2).
  destruct (advance_timed s1 dt T TP V1 T1) as (E1 & G1 & W1 & F1 & N1).
  destruct (advance_timed s2 dt T TP V2 T2) as (E2 & G2 & W2 & F2 & N2).
  rewrite <- E in E2, F2, N2. set (t := (IZR (u32 (s_elapsed s1 + dt)) / 1000)%R) in *.
  assert (E0 : (0 <= t)%R). { unfold t. assert (0 <= u32 (s_elapsed s1 + dt)) by (apply u32_range). apply IZR_le in H. lra. }
  unfold in_step, timed. rewrite E1, E2, G1, G2, W1, W2.
  destruct (Rlt_dec T t) as [L|L].
  - destruct (F1 L) as [-> ->]. destruct (F2 L) as [-> ->].
    split; [reflexivity|]. split; [exact IT|]. split; [exact IT|]. split; [exact IT|]. exists T. split; [exact TP|]. split; right; reflexivity.
  - destruct (N1 L) as [-> ->]. destruct (N2 L) as [-> ->].
    split; [reflexivity|]. split; [exact IS|]. split; [exact IT|]. split.
    + match goal with |- inside ?x => replace x with ((s_start s2 - s_start s1) + ((s_target s2 - s_target s1) - (s_start s2 - s_start s1)) * (t / T))%R by ring end.
      apply inside_between; [exact IS|exact IT|].
      assert (t / T <= 1)%R. { apply (Rmult_le_reg_r T); [exact TP|]. unfold Rdiv. rewrite Rmult_assoc, Rinv_l by lra. lra. }
      split; [|assumption]. apply Rmult_le_pos; [exact E0|left; now apply Rinv_0_lt_compat].
    + exists T. split; [exact TP|]. split; assumption.
Qed.

Context (fwd : V6 R -> V6 R) (inv : V6 R -> option (V6 R)) (l2p p2l : V6 R -> V6 R) (limits : V6 (R * R)).
(** every target inside the limits has its difference inside *)
Hypothesis LIM : forall tl : V6 R, axes (fun i => not_outside RA (at6 tl i) (fst (at6 limits i)) (snd (at6 limits i))) ->
  inside (v2 (l2p tl) - v1 (l2p tl)).
Notation run := (r_run RA fwd inv l2p p2l limits).
Definition Step12 (r : robot RA) : Prop := in_step (v1 (r_servos r)) (v2 (r_servos r)).

Lemma used_timed (s : servo RA) (T a : R) : (0 < T)%R ->
  timed T (servo_set_target RA (with_vel RA s (used (Rabs (a - s_cur s)) T)) a).
Proof.
  intros TP. unfold timed, servo_set_target, set_target_1, set_target_2, set_target_3, with_target, with_elapsed, with_start, with_vel.
  cbn [s_target s_start s_vel s_cur]. unfold used. destruct (Rle_dec (Rabs (a - s_cur s) / T) 0) as [L|L].
  - right. assert (Rabs (a - s_cur s) <= 0)%R.
    { apply (Rmult_le_compat_r T) in L; [|lra]. unfold Rdiv in L. rewrite Rmult_assoc, Rinv_l in L by lra. lra. }
    pose proof (Rabs_pos (a - s_cur s)). assert (Z0 : Rabs (a - s_cur s) = 0%R) by lra.
    destruct (Req_dec (a - s_cur s) 0) as [|N]; [|apply Rabs_no_R0 in N; contradiction]. change (s_cur s = a). lra.
  - left. unfold Rdiv. rewrite Rmult_assoc, Rinv_l by lra. ring.
Qed.

Lemma start_in_step r r' evs : RR r -> Step12 r -> r_start_move RA fwd inv l2p p2l limits r = Ok (r', evs) -> Step12 r'.
Proof.
  intros H S E. pose proof E as E0. apply start_move_commands in E0 as [[_ Q]|(tl & vels & LI & _ & C & Q)].
  - unfold Step12. rewrite Q. exact S.
  - assert (N : servo_cmds evs <> []) by (rewrite C; discriminate).
    destruct (start_move_timing fwd inv l2p p2l limits r r' evs H E N) as (p & es & tl2 & time & T & P & -> & TP & TL & SP & CM & SV & LST).
    cbv zeta in SV. unfold axes in SV. cbn [at6] in SV. destruct SV as (_ & S1 & S2 & _).
    destruct S as (_ & _ & _ & IC & _).
    assert (G1 : @eq R (s_target (v1 (r_servos r'))) (v1 (l2p tl))) by (rewrite Q; reflexivity).
    assert (G2 : @eq R (s_target (v2 (r_servos r'))) (v2 (l2p tl))) by (rewrite Q; reflexivity).
    unfold Step12, in_step. rewrite G1, G2, S1, S2. split; [reflexivity|].
    split; [exact IC|]. split; [apply LIM; exact LI|]. split; [exact IC|].
    exists T. split; [exact TP|]. split; apply used_timed; exact TP.
Qed.

Lemma tick_in_step r r' dt : RR r -> Step12 r -> r_tick RA r dt = Ok r' -> Step12 r'.
Proof.
  intros (_ & H1 & H2 & _) S E. cbn [at6] in H1, H2. unfold r_tick in E.
  repeat match type of E with
  | bind (bind ?x _) _ = _ => let K := fresh "K" in destruct x as [[? ?]|] eqn:K; cbn [bind] in E; [|discriminate]
  end.
  injection E as <-. unfold Step12. cbn [r_servos with_servos v1 v2].
  assert (ADV : forall (s s' : servo RA) p, servo_process RA s dt = Ok (s', p) -> s' = servo_advance RA s dt).
  { intros x x' p. unfold servo_process. cbv zeta. destruct (servo_move RA _); [|discriminate]. cbn [bind]. intros X; injection X as <- _. reflexivity. }
  repeat match goal with K : servo_process RA _ dt = Ok _ |- _ => apply ADV in K end. subst.
  apply step_advance; [destruct H1 as (_ & _ & _ & _ & _ & X & _); exact X|destruct H2 as (_ & _ & _ & _ & _ & X & _); exact X|exact S].
Qed.

Lemma step_in_step r r' o e : RR r -> Step12 r -> r_step RA fwd inv l2p p2l limits r o = Ok (r', e) -> Step12 r'.
Proof.
  intros C S H. destruct o.
  1-2,4-5,6-9: cbn in H; inversion H; subst; exact S.
  - cbn in H. unfold set_angle in H. destruct ((0 <=? i) && (i <? 6)); [|discriminate].
    cbn in H; inversion H; subst; exact S.
  - cbn [r_step] in H. apply process_cases in H as [[_ Q]|(rs & H & Q & _)].
    + unfold Step12. rewrite Q. exact S.
    + apply (start_in_step rs r' e); [unfold RR; rewrite Q; exact C|unfold Step12; rewrite Q; exact S|exact H].
  - apply step_tick in H as [H ->]. eapply tick_in_step; eauto.
Qed.
Lemma run_in_step os : forall r r' e, RR r -> Step12 r -> run r os = Ok (r', e) -> Step12 r'.
Proof.
  induction os as [|o os IH]; intros r r' e C S H; cbn [r_run] in H.
  - injection H as <- _. exact S.
  - destruct (r_step RA fwd inv l2p p2l limits r o) as [[r1 e1]|] eqn:E1; [|discriminate]. cbn [bind] in H.
    destruct (run r1 os) as [[r2 e2]|] eqn:E2; [|discriminate]. cbn [bind] in H. injection H as <- _.
    apply (IH r1 r2 e2); [eapply RR_step; eauto|eapply step_in_step; eauto|exact E2].
Qed.
(** the difference stays inside over every history *)
Theorem difference_inside os r r' e : RR r -> Step12 r -> run r os = Ok (r', e) ->
  inside (s_cur (v2 (r_servos r')) - s_cur (v1 (r_servos r'))).
Proof. intros C S H. exact (proj1 (proj2 (proj2 (proj2 (run_in_step os r r' e C S H))))). Qed.
End Pair.
