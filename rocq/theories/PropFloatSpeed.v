(** * C31 in the arithmetic of the device: no update moves a joint faster than its servo's maximum speed *)
From Coq Require Import Reals Lra ZArith Lia Floats.SpecFloat.
From Flocq Require Import Core BinarySingleNaN.
From Verif Require Import Base Arith FloatBridge ServoModel ServoSpec ServoProofs ServoFloat.
From Verif Require Import RobotModel RobotSpec RobotProofs ConfigModel PropRobot PropFloat PropFloatMoves PropFloatSync KinModel KinBounded.
From Verif Require Import IoModel IoSpec WaitModel RingModel EepromModel EepromSpec MrilModel MrilSpec MrilProofs McpModel McpSpec McpProofs.
From Verif Require Import DeviceModel DeviceSpec DeviceProofs SystemModel SystemSpec SystemProofs SystemSafe SystemQueue SystemOrigin SystemMore SystemDefined.
From Verif Require Import PropProgress PropFloatHost SystemArrive PropFloatArrive.
Open Scope Z_scope.

Lemma ok_both {T U : Type} (a c : T) (b d : U) : Ok (a, b) = Ok (c, d) -> c = a /\ d = b.
Proof. intros E. injection E as -> ->. split; reflexivity. Qed.

(** ** two moments of one move *)
Lemma move_between a t v M T d : (1 / 2000 <= M <= 1000)%R -> r32 a = a -> r32 t = t -> (- M <= t <= M)%R ->
  (- (M + slack M) <= a <= M + slack M)%R -> (0 <= v <= 10000)%R -> 0 <= T -> 0 <= d -> T + d < 4294967296 ->
  (Rabs (rstep a t (rdelta v (T + d)) - rstep a t (rdelta v T)) <= v * IZR d / 1000 + M / 400000)%R.
Proof.
  intros HM Ea Et Bt Ba Bv HT Hd HE.
  destruct (rdelta_chain v T Bv ltac:(lia)) as (_ & _ & _ & _ & _ & P1 & C1).
  destruct (rdelta_chain v (T + d) Bv ltac:(lia)) as (_ & _ & _ & _ & _ & P2 & C2).
  pose proof (rdelta_mono v T (T + d) ltac:(lra) ltac:(lia)) as MO.
  set (d1 := rdelta v T) in *. set (d2 := rdelta v (T + d)) in *. clearbody d1 d2.
  assert (X1 : (0 <= v * IZR T / 1000)%R). { apply Rmult_le_pos; [|lra]. apply Rmult_le_pos; [lra|]. apply IZR_le; lia. }
  assert (Y1 : (0 <= v * IZR d / 1000)%R). { apply Rmult_le_pos; [|lra]. apply Rmult_le_pos; [lra|]. apply IZR_le; lia. }
  rewrite plus_IZR in C2. replace (v * (IZR T + IZR d) / 1000)%R with (v * IZR T / 1000 + v * IZR d / 1000)%R in C2 by field.
  set (x := (v * IZR T / 1000)%R) in *. set (y := (v * IZR d / 1000)%R) in *. clearbody x y.
  pose proof tiny_small as T1. pose proof tiny_pos as T0. assert (S0 : (0 <= slack M <= M / 4000000)%R) by (unfold slack; lra).
  assert (S1 : slack M = (M / 4000000)%R) by reflexivity. rewrite S1 in Ba. apply Rabs_le.
  destruct (Rle_dec a t) as [O|O].
  - destruct (rstep_up a t d1 M P1 HM Ea Et Bt ltac:(unfold slack; lra) O) as [B1 _].
    destruct (rstep_up a t d2 M P2 HM Ea Et Bt ltac:(unfold slack; lra) O) as [B2 _].
    destruct (r32_near (t - a) (2 * M + M / 4000000)) as [K1 K2]; [apply Rabs_le; lra|].
    unfold rstep in *. rewrite (Rabs_pos_eq d1 P1), (Rabs_pos_eq d2 P2) in *. rewrite (Rabs_pos_eq (r32 (t - a))) in * by (apply r32_pos; lra). unfold rltb in *.
    destruct (Rlt_dec (r32 (t - a)) d2) as [Q2|Q2]; (destruct (Rlt_dec (r32 (t - a)) d1) as [Q1|Q1]; [lra|]);
      (destruct (Rlt_dec a t) as [X|X]; [|assert (a = t) by lra; subst t; lra]).
    + destruct (r32_near (a + d1) (2 * M)) as [R1 R2]; [apply Rabs_le; lra|]. split; [lra|].
      destruct (Rle_dec (2 * M + M / 1000000) y) as [Y|Y]; lra.
    + destruct (r32_near (a + d1) (M + M / 1000)) as [R1 R2]; [apply Rabs_le; lra|].
      destruct (r32_near (a + d2) (M + M / 1000)) as [R3 R4]; [apply Rabs_le; lra|].
      split; lra.
  - destruct (rstep_down a t d1 M P1 HM Ea Et Bt ltac:(unfold slack; lra) ltac:(lra)) as [B1 _].
    destruct (rstep_down a t d2 M P2 HM Ea Et Bt ltac:(unfold slack; lra) ltac:(lra)) as [B2 _].
    destruct (r32_near (t - a) (2 * M + M / 4000000)) as [K1 K2]; [apply Rabs_le; lra|].
    assert (RN : (r32 (t - a) <= 0)%R).
    { replace (t - a)%R with (- (a - t))%R by ring. rewrite r32_opp. pose proof (r32_pos (a - t) ltac:(lra)). lra. }
    unfold rstep in *. rewrite (Rabs_pos_eq d1 P1), (Rabs_pos_eq d2 P2) in *. rewrite (Rabs_left1 (r32 (t - a))) in * by exact RN. unfold rltb in *.
    destruct (Rlt_dec (- r32 (t - a)) d2) as [Q2|Q2]; (destruct (Rlt_dec (- r32 (t - a)) d1) as [Q1|Q1]; [lra|]);
      (destruct (Rlt_dec a t) as [X|X]; [lra|]).
    + destruct (r32_near (a - d1) (2 * M)) as [R1 R2]; [apply Rabs_le; lra|]. split; [|lra].
      destruct (Rle_dec (2 * M + M / 1000000) y) as [Y|Y]; lra.
    + destruct (r32_near (a - d1) (M + M / 1000)) as [R1 R2]; [apply Rabs_le; lra|].
      destruct (r32_near (a - d2) (M + M / 1000)) as [R3 R4]; [apply Rabs_le; lra|].
      split; lra.
Qed.

Section One.
Context (L : libm).
Notation A := (IEEE L).
Notation inside32 := (inside32 L).
Notation moving32 := (moving32 L).
(** at most K ms into a move whose speed is at most w *)
Definition S31 (mn mx M w : R) (K : Z) (x : servo A) : Prop :=
  inside32 x mn mx M /\ v32 (s_maxvel x) w /\ 0 <= s_elapsed x <= K /\ s_elapsed x < 4294967296 /\
  exists a t v, moving32 x mn mx M a t v /\ (v <= w)%R.

Lemma tick_moving (x x' : servo A) p mn mx M a t v K d : inside32 x mn mx M -> 0 <= d -> 0 <= s_elapsed x <= K -> K + d < 4294967296 ->
  moving32 x mn mx M a t v -> servo_process A x d = Ok (x', p) ->
  inside32 x' mn mx M /\ s_elapsed x' = s_elapsed x + d /\ moving32 x' mn mx M a t v.
Proof.
  intros I D E H (Vt & Vv & Ea & Ba & Vc & St) P. pose proof I as (_ & _ & _ & _ & _ & (t' & Vt' & Bt)). pose proof (fv_inj 24 128 _ _ _ Vt Vt') as ET. subst t'.
  destruct (run_ticks L a t v mn mx M (s_target x) [d] Vt Bt Ba Ea ltac:(repeat constructor; lia) (s_elapsed x) x) as (s' & R & I' & Vv' & Et & Eg & Vc' & St'); auto; try lia.
  { unfold total. cbn. lia. }
  unfold ticks in R. cbn [map sop_run sop_step] in R. rewrite P in R. cbn [bind sop_run] in R. injection R as <-.
  assert (TD : total [d] = d) by (unfold total; cbn; lia). rewrite TD in *.
  split; [exact I'|]. split; [exact Et|]. unfold PropFloatArrive.moving32. rewrite Eg, Et. auto 10.
Qed.
Lemma process_maxvel (x x' : servo A) d p : servo_process A x d = Ok (x', p) -> s_maxvel x' = s_maxvel x.
Proof.
  unfold servo_process. destruct (servo_move A (servo_advance A x d)); [|discriminate]. cbn [bind]. intros E. apply ok_both in E as [-> _].
  unfold servo_advance. destruct (flt A _ _); [|destruct (flt A _ _)]; reflexivity.
Qed.
Lemma S31_tick mn mx M w K (x x' : servo A) d p : S31 mn mx M w K x -> 0 <= d -> K + d < 4294967296 -> servo_process A x d = Ok (x', p) ->
  S31 mn mx M w (K + d) x' /\
  exists c c', v32 (s_cur x) c /\ v32 (s_cur x') c' /\ (Rabs (c' - c) <= w * IZR d / 1000 + M / 400000)%R.
Proof.
  intros (I & W & E & _ & a & t & v & G & VW) D H P. destruct (tick_moving x x' p mn mx M a t v K d I D E H G P) as (I' & E' & G'). split.
  - split; [exact I'|]. split; [rewrite (process_maxvel _ _ _ _ P); exact W|]. split; [lia|]. split; [lia|]. eauto.
  - destruct G as (Vt & Vv & Ea & Ba & Vc & _). destruct G' as (_ & _ & _ & _ & Vc' & _). eexists. eexists. split; [exact Vc|]. split; [exact Vc'|].
    pose proof I as (C & (v' & Vv' & Bv) & _ & _ & _ & (t' & Vt' & Bt)). pose proof (fv_inj 24 128 _ _ _ Vt Vt') as ET. subst t'.
    pose proof (fv_inj 24 128 _ _ _ Vv Vv') as EV. subst v'.
    pose proof (M_bounds _ _ _ _ _ C) as HM. pose proof (slack_bounds M HM) as HS.
    assert (HX : (- M <= mn /\ mx <= M)%R) by (destruct C as (_ & _ & _ & X & Y & _); split; assumption). destruct HX as [HX HY].
    rewrite E'. eapply Rle_trans; [apply (move_between a t v M (s_elapsed x) d)|]; try lia; auto; try lra.
    + exact (v32_r _ _ Vt).
    + assert (v * IZR d / 1000 <= w * IZR d / 1000)%R; [|lra]. apply Rmult_le_compat_r; [lra|]. apply Rmult_le_compat_r; [apply IZR_le; lia|exact VW].
Qed.
Lemma tenth_le : exists r, v32 (d2f A (ddec A false 1 (-1))) r /\ (r <= 11 / 100)%R.
Proof.
  exists (SF2R radix2 (S754_finite false 13421773 (-27))). split.
  - replace (d2f A (ddec A false 1 (-1))) with (S754_finite false 13421773 (-27)) by (vm_compute; reflexivity). apply fv_valid; reflexivity.
  - lits. lra.
Qed.
(** setCurrentAngleVelocity keeps the speed at or below the maximum, whatever number it is given *)
Lemma set_vel_le (x : servo A) v w : number32 v -> v32 (s_maxvel x) w -> (11 / 100 <= w)%R ->
  exists u, v32 (s_vel (servo_set_vel A x v)) u /\ (u <= w)%R.
Proof.
  intros N Vw Bw. unfold servo_set_vel. cbn [flt fle IEEE].
  destruct (SFltb (s_maxvel x) v) eqn:E1; [exists w; split; [exact Vw|lra]|].
  destruct (SFleb v (fofz A 0)) eqn:E2.
  - destruct tenth_le as (u & Vu & Bu). exists u. split; [exact Vu|lra].
  - destruct N as [[b ->]|[r Vr]].
    + exfalso. destruct b; [discriminate E2|]. destruct Vw as (z & Ex & Fx & _). rewrite <- Ex in E1. destruct z; discriminate.
    + exists r. split; [exact Vr|]. rewrite (fv_lt 24 128 _ _ _ _ Vw Vr) in E1. unfold rltb in E1. destruct (Rlt_dec w r); [discriminate|lra].
Qed.
Lemma S31_cmd mn mx M w K (x : servo A) v a : (11 / 100 <= w)%R -> 0 <= K -> S31 mn mx M w K x -> number v /\ number a -> not_outside A a (s_min x) (s_max x) ->
  S31 mn mx M w K (servo_set_target A (servo_set_vel A x v) a).
Proof.
  intros HW H (I & W & _) [Nv Na] O. pose proof (command_inside L x mn mx M v a I Nv Na O) as I'. split; [exact I'|].
  destruct (set_vel_le x v w (number_32 _ Nv) W HW) as (u & Vu & Bu).
  set (y := servo_set_target A (servo_set_vel A x v) a) in *.
  assert (E : s_elapsed y = 0 /\ s_start y = s_cur y /\ s_vel y = s_vel (servo_set_vel A x v) /\ s_maxvel y = s_maxvel x).
  { unfold y, servo_set_target, set_target_1, set_target_2, set_target_3. splits; try reflexivity.
    unfold servo_set_vel. destruct (flt A _ _); [|destruct (fle A _ _)]; reflexivity. }
  destruct E as (E1 & E2 & E3 & E4). split; [rewrite E4; exact W|]. split; [lia|]. split; [lia|]. destruct I' as (_ & _ & _ & _ & (c & Vc & Bc) & (t & Vt & _)).
  pose proof (v32_r _ _ Vc) as Ec. exists c, t, u. split; [|exact Bu]. unfold PropFloatArrive.moving32. rewrite E1, E2, E3, rdelta_0, rstep_0 by exact Ec. auto 10.
Qed.
Lemma fresh_S31 (x : servo A) mn mx M w : fresh32 L x mn mx M -> s_vel x = s_maxvel x -> v32 (s_maxvel x) w -> S31 mn mx M w 0 x.
Proof.
  intros (I & E1 & E2 & E3) EV W. pose proof I as (C & _ & _ & _ & (c & Vc & Bc) & (t & Vt & Bt)).
  rewrite E2 in Vc. pose proof (fv_inj 24 128 _ _ _ Vt Vc) as ET. subst c. pose proof (v32_r _ _ Vt) as Et.
  split; [exact I|]. split; [exact W|]. split; [lia|]. split; [lia|]. exists t, t, w. split; [|lra].
  unfold PropFloatArrive.moving32. rewrite E1, E2, E3, EV, rdelta_0, rstep_0 by exact Et. auto 10.
Qed.
End One.

(** ** one servo: any history of timer ticks and complete moves *)
(** as [sev] of ServoSpec with floats: a tick of d ms, a move (speed v, then target a, without interruption) *)
Inductive mev : Type := MTick (d : Z) | MMove (v a : spec_float).
Definition mev_ok (mn mx : R) (e : mev) : Prop :=
  match e with MTick d => 0 <= d | MMove v a => number v /\ number a /\ exists r, v32 a r /\ (mn <= r <= mx)%R end.
Definition mev_ms (e : mev) : Z := match e with MTick d => d | MMove _ _ => 0 end.
Definition mev_ops (L : libm) (e : mev) : list (sop (IEEE L)) :=
  match e with MTick d => [@ServoModel.STick (IEEE L) d] | MMove v a => [@SVel (IEEE L) v; @SStmt1 (IEEE L); @SStmt2 (IEEE L); @SStmt3 (IEEE L) a] end.

Lemma event_S31 (L : libm) mn mx M w K (x x' : servo (IEEE L)) e : (11 / 100 <= w)%R -> 0 <= K -> S31 L mn mx M w K x -> mev_ok mn mx e -> K + mev_ms e < 4294967296 ->
  sop_run (IEEE L) x (mev_ops L e) = Ok x' -> S31 L mn mx M w (K + mev_ms e) x'.
Proof.
  intros HW HK H OK HT R. destruct e as [d|v a]; cbn [mev_ops mev_ms mev_ok sop_run sop_step bind] in *.
  - destruct (servo_process (IEEE L) x d) as [[y p]|] eqn:E; cbn [bind] in R; [|discriminate]. injection R as <-. exact (proj1 (S31_tick L _ _ _ _ _ _ _ _ _ H OK HT E)).
  - injection R as <-. rewrite Z.add_0_r. destruct OK as (Nv & Na & r & Va & Br).
    apply (S31_cmd L mn mx M w K x v a HW HK H (conj Nv Na)). pose proof H as (((Vl & Vh & _) & _) & _).
    split; cbn [flt IEEE]; [rewrite (fv_lt 24 128 _ _ _ _ Va Vl)|rewrite (fv_lt 24 128 _ _ _ _ Vh Va)]; unfold rltb; (destruct (Rlt_dec _ _); [lra|reflexivity]).
Qed.
(** Full claim: no update moves the servo by more than speed * tick length, on every schedule.  Proved here, with the floats of
    the device, for every history of ticks and moves whose calls are not interrupted: the next tick of d ms moves the servo by
    at most its maximum speed times d, plus M/400000 rad of rounding (M bounds its angle limits). *)
Theorem C31_tick_speed_limit_ieee_partial (L : libm) (s0 s1 s2 : servo (IEEE L)) (mn mx M w : R) (evs : list mev) (d : Z) (p : Z) :
  fresh32 L s0 mn mx M -> s_vel s0 = s_maxvel s0 -> v32 (s_maxvel s0) w -> (11 / 100 <= w)%R ->
  Forall (mev_ok mn mx) evs -> 0 <= d -> total (map mev_ms evs) + d < 4294967296 ->
  sop_run (IEEE L) s0 (flat_map (mev_ops L) evs) = Ok s1 -> servo_process (IEEE L) s1 d = Ok (s2, p) ->
  exists c c', v32 (s_cur s1) c /\ v32 (s_cur s2) c' /\ (Rabs (c' - c) <= w * IZR d / 1000 + M / 400000)%R.
Proof.
  intros FR EV W HW OK D T R P.
  assert (G : forall evs K (x x' : servo (IEEE L)), 0 <= K -> S31 L mn mx M w K x -> Forall (mev_ok mn mx) evs -> K + total (map mev_ms evs) < 4294967296 ->
    sop_run (IEEE L) x (flat_map (mev_ops L) evs) = Ok x' -> S31 L mn mx M w (K + total (map mev_ms evs)) x').
  { clear - HW. induction evs as [|e evs IH]; intros K x x' HK H OK T R; cbn [flat_map map] in *.
    - cbn in R. injection R as <-. change (total []) with 0. rewrite Z.add_0_r. exact H.
    - change (total (mev_ms e :: map mev_ms evs)) with (mev_ms e + total (map mev_ms evs)) in *. inversion OK as [|? ? O1 O2]; subst.
      assert (TP : 0 <= total (map mev_ms evs)).
      { apply total_nonneg. clear - O2. induction O2 as [|y l Y O2 IH]; cbn [map]; constructor; auto. destruct y; cbn in *; lia. }
      assert (EP : 0 <= mev_ms e) by (destruct e; cbn in *; lia).
      rewrite sop_run_app in R. destruct (sop_run (IEEE L) x (mev_ops L e)) as [y|] eqn:RY; cbn [bind] in R; [|discriminate].
      rewrite Z.add_assoc. apply (IH (K + mev_ms e) y x'); [lia| |exact O2|lia|exact R].
      apply (event_S31 L mn mx M w K x y e HW HK H O1); [lia|exact RY]. }
  assert (TP : 0 <= total (map mev_ms evs)).
  { apply total_nonneg. clear - OK. induction OK as [|y l Y O2 IH]; cbn [map]; constructor; auto. destruct y; cbn in *; lia. }
  pose proof (G evs 0 s0 s1 ltac:(lia) (fresh_S31 L s0 mn mx M w FR EV W) OK ltac:(lia) R) as S1. rewrite Z.add_0_l in S1.
  exact (proj2 (S31_tick L _ _ _ _ _ _ _ _ _ S1 D T P)).
Qed.

Section Sys.
Context (L : libm).
Notation A := (IEEE L).
Context (fwd : V6 (F A) -> V6 (F A)) (inv : V6 (F A) -> option (V6 (F A))) (l2p p2l : V6 (F A) -> V6 (F A)) (limits : V6 (F A * F A)).
Context (mn mx M w : Z -> R) (pinMap : list Z) (print : D A -> list Z) (sgn : bool).
Notation step := (sys_step A fwd inv l2p p2l limits pinMap print sgn).
Notation run := (sys_run A fwd inv l2p p2l limits pinMap print sgn).
Notation joint s i := (at6 (r_servos (d_robot (y_dev s))) i).
Definition limited (K : Z) (r : robot A) : Prop := 0 <= K /\ axes (fun i => (11 / 100 <= w i)%R /\ S31 L (mn i) (mx i) (M i) (w i) K (at6 (r_servos r) i)).

Lemma limited_tick K (r r' : robot A) : limited K r -> K + 20 < 4294967296 -> r_tick A r 20 = Ok r' ->
  limited (K + 20) r' /\ axes (fun i => exists c c', v32 (s_cur (at6 (r_servos r) i)) c /\ v32 (s_cur (at6 (r_servos r') i)) c' /\
    (Rabs (c' - c) <= w i * 20 / 1000 + M i / 400000)%R).
Proof.
  intros (H0 & H) HK E. unfold axes in H. cbn [at6] in H. destruct H as ((W0 & B0) & (W1 & B1) & (W2 & B2) & (W3 & B3) & (W4 & B4) & (W5 & B5)). unfold r_tick in E.
  destruct (servo_process A (v0 (r_servos r)) 20) as [[s0 p0]|] eqn:E0; cbn [bind] in E; [|discriminate].
  destruct (servo_process A (v1 (r_servos r)) 20) as [[s1 p1]|] eqn:E1; cbn [bind] in E; [|discriminate].
  destruct (servo_process A (v2 (r_servos r)) 20) as [[s2 p2]|] eqn:E2; cbn [bind] in E; [|discriminate].
  destruct (servo_process A (v3 (r_servos r)) 20) as [[s3 p3]|] eqn:E3; cbn [bind] in E; [|discriminate].
  destruct (servo_process A (v4 (r_servos r)) 20) as [[s4 p4]|] eqn:E4; cbn [bind] in E; [|discriminate].
  destruct (servo_process A (v5 (r_servos r)) 20) as [[s5 p5]|] eqn:E5; cbn [bind] in E; [|discriminate].
  injection E as <-. unfold limited, axes. cbn [r_servos with_servos at6 v0 v1 v2 v3 v4 v5].
  destruct (S31_tick L _ _ _ _ _ _ _ 20 _ B0 ltac:(lia) HK E0) as [X0 Y0]. destruct (S31_tick L _ _ _ _ _ _ _ 20 _ B1 ltac:(lia) HK E1) as [X1 Y1].
  destruct (S31_tick L _ _ _ _ _ _ _ 20 _ B2 ltac:(lia) HK E2) as [X2 Y2]. destruct (S31_tick L _ _ _ _ _ _ _ 20 _ B3 ltac:(lia) HK E3) as [X3 Y3].
  destruct (S31_tick L _ _ _ _ _ _ _ 20 _ B4 ltac:(lia) HK E4) as [X4 Y4]. destruct (S31_tick L _ _ _ _ _ _ _ 20 _ B5 ltac:(lia) HK E5) as [X5 Y5].
  split; [split; [lia|]|]; split; auto; split; auto; split; auto; split; auto; split; auto.
Qed.
Lemma set_cur (x : servo A) v a : s_cur (servo_set_target A (servo_set_vel A x v) a) = s_cur x.
Proof. unfold servo_set_vel. destruct (flt A _ _); [|destruct (fle A _ _)]; reflexivity. Qed.
Lemma limited_process K (r r' : robot A) e : limited K r -> r_process A fwd inv l2p p2l limits r = Ok (r', e) -> PropFloat.numbers (servo_cmds e) ->
  limited K r' /\ axes (fun i => s_cur (at6 (r_servos r') i) = s_cur (at6 (r_servos r) i)).
Proof.
  intros (H0 & H) E NN. apply process_cases in E as [[_ X]|(rs & E & X & _)].
  { unfold limited. rewrite X. split; [split; assumption|]. unfold axes. splits; reflexivity. }
  apply start_move_commands in E as [[_ Y]|(tl & vels & _ & W & EC & Y)].
  { unfold limited. rewrite Y, X. split; [split; assumption|]. unfold axes. splits; reflexivity. }
  rewrite EC in NN. unfold PropFloat.numbers in NN. rewrite !Forall_cons_iff in NN. destruct NN as (O0 & O1 & O2 & O3 & O4 & O5 & _).
  unfold limited. rewrite Y. rewrite X in *. unfold axes in *. cbn [at6 zip6 v0 v1 v2 v3 v4 v5 fst snd] in *.
  destruct H as ((V0 & B0) & (V1 & B1) & (V2 & B2) & (V3 & B3) & (V4 & B4) & (V5 & B5)). destruct W as (W0 & W1 & W2 & W3 & W4 & W5).
  split.
  - split; [exact H0|]. split; [|split; [|split; [|split; [|split]]]]; (split; [assumption|]); apply S31_cmd; assumption.
  - split; [|split; [|split; [|split; [|split]]]]; apply set_cur.
Qed.
Lemma limited_step K s x s' e : limited K (d_robot (y_dev s)) -> K + ticks_ms [x] < 4294967296 -> step s x = Ok (s', e) -> PropFloat.numbers (commanded e) ->
  limited (K + ticks_ms [x]) (d_robot (y_dev s')) /\
  axes (fun i => exists c c', v32 (s_cur (joint s i)) c /\ v32 (s_cur (joint s' i)) c' /\ (Rabs (c' - c) <= w i * 20 / 1000 + M i / 400000)%R) /\
  (x <> SystemModel.STick -> axes (fun i => s_cur (joint s' i) = s_cur (joint s i))).
Proof.
  intros H HK E NN.
  assert (SAME : ticks_ms [x] = 0 -> limited K (d_robot (y_dev s')) -> axes (fun i => s_cur (joint s' i) = s_cur (joint s i)) ->
    limited (K + ticks_ms [x]) (d_robot (y_dev s')) /\
    axes (fun i => exists c c', v32 (s_cur (joint s i)) c /\ v32 (s_cur (joint s' i)) c' /\ (Rabs (c' - c) <= w i * 20 / 1000 + M i / 400000)%R) /\
    (x <> SystemModel.STick -> axes (fun i => s_cur (joint s' i) = s_cur (joint s i)))).
  { intros T G EQ. rewrite T, Z.add_0_r. split; [exact G|]. split; [|intros _; exact EQ]. destruct H as [_ H].
    assert (ONE : forall (y y' : servo A) i, (11 / 100 <= w i)%R /\ S31 L (mn i) (mx i) (M i) (w i) K y -> s_cur y' = s_cur y ->
      exists c c', v32 (s_cur y) c /\ v32 (s_cur y') c' /\ (Rabs (c' - c) <= w i * 20 / 1000 + M i / 400000)%R).
    { intros y y' i [WI ((C & _ & _ & _ & (c & Vc & _) & _) & _)] ->. exists c, c. split; [exact Vc|]. split; [exact Vc|].
      pose proof (M_bounds _ _ _ _ _ C). rewrite Rminus_diag_eq, Rabs_R0 by reflexivity. lra. }
    unfold axes in *. destruct H as (B0 & B1 & B2 & B3 & B4 & B5). destruct EQ as (Q0 & Q1 & Q2 & Q3 & Q4 & Q5).
    split; [|split; [|split; [|split; [|split]]]]; eapply ONE; eassumption. }
  assert (FRAME : ticks_ms [x] = 0 -> r_servos (d_robot (y_dev s')) = r_servos (d_robot (y_dev s)) -> limited (K + ticks_ms [x]) (d_robot (y_dev s')) /\
    axes (fun i => exists c c', v32 (s_cur (joint s i)) c /\ v32 (s_cur (joint s' i)) c' /\ (Rabs (c' - c) <= w i * 20 / 1000 + M i / 400000)%R) /\
    (x <> SystemModel.STick -> axes (fun i => s_cur (joint s' i) = s_cur (joint s i)))).
  { intros T X. apply SAME; [exact T| |].
    - unfold limited. rewrite X. exact H.
    - unfold axes. rewrite X. splits; reflexivity. }
  destruct x as [c| |now lv]; cbn [sys_step] in E.
  - injection E as <- <-. apply FRAME; reflexivity.
  - destruct (dev_tick A (y_dev s)) as [d|] eqn:T; cbn [bind] in E; [|discriminate]. injection E as <- <-.
    unfold dev_tick in T. destruct (r_tick A (d_robot (y_dev s)) 20) as [r|] eqn:RT; cbn [bind] in T; [|discriminate].
    destruct (tick_axes A (d_axes (y_dev s)) 20); cbn [bind] in T; [|discriminate]. injection T as <-. cbn [y_dev d_robot with_axes with_robot].
    change (ticks_ms [SystemModel.STick]) with 20 in *. destruct (limited_tick K _ _ H HK RT) as [G1 G2]. split; [exact G1|]. split; [exact G2|]. intros X. now destruct X.
  - assert (W : forall ev rx p, sys_mcp A fwd p2l pinMap print sgn now s ev rx p = Ok (s', e) -> r_servos (d_robot (y_dev s')) = r_servos (d_robot (y_dev s))).
    { intros ev rx p X. unfold sys_mcp in X. destruct (c_step sgn (y_mcp s) ev) as [[m acts]|]; cbn [bind] in X; [|discriminate].
      destruct (sys_acts A fwd p2l pinMap print now (y_dev s) acts) as [[d evs]|] eqn:AR; cbn [bind] in X; [|discriminate]. injection X as <- <-.
      exact (acts_servos A fwd p2l pinMap print _ _ _ _ _ AR). }
    unfold sys_main in E. destruct (y_phase s) as [| |k| |].
    1,2: destruct (dev_robot A fwd inv l2p p2l limits print (y_dev s)) as [[d e1]|] eqn:R; cbn [bind] in E; [|discriminate]; injection E as <- <-;
      unfold dev_robot in R; destruct (r_process A fwd inv l2p p2l limits (d_robot (y_dev s))) as [[r evs]|] eqn:RP; cbn [bind] in R; [|discriminate]; injection R as <- <-;
      (destruct (limited_process K _ _ evs H RP) as [G1 G2]; [rewrite <- (robot_evs A print evs); exact NN|]); apply SAME; [reflexivity|exact G1|exact G2].
    + destruct (y_rx s) as [|c rx]; [injection E as <- <-; apply FRAME; reflexivity|].
      destruct (k <? READ_BYTES); [|injection E as <- <-; apply FRAME; reflexivity]. apply FRAME; [reflexivity|]. eapply W; eauto.
    + destruct (dev_poll_cases A (y_dev s) now lv) as [[_ EP]|[_ (io & _ & EP)]]; rewrite EP in E; injection E as <- <-; apply FRAME; reflexivity.
    + apply FRAME; [reflexivity|]. eapply W; eauto.
Qed.
Lemma limited_run l : forall K s s' tr, limited K (d_robot (y_dev s)) -> K + ticks_ms l < 4294967296 -> run s l = Ok (s', tr) -> PropFloat.numbers (commanded tr) ->
  limited (K + ticks_ms l) (d_robot (y_dev s')).
Proof.
  induction l as [|x l IH]; intros K s s' tr H HK E NN; cbn [sys_run] in E.
  - injection E as <- <-. change (ticks_ms []) with 0. rewrite Z.add_0_r. exact H.
  - destruct (step s x) as [[s1 e1]|] eqn:SX; cbn [bind] in E; [|discriminate].
    destruct (run s1 l) as [[s2 e2]|] eqn:R; cbn [bind] in E; [|discriminate]. injection E as <- <-.
    unfold PropFloat.numbers in NN. rewrite commanded_app in NN. apply Forall_app in NN as [O1 O2].
    change (x :: l) with ([x] ++ l) in *. rewrite ticks_ms_app in *. pose proof (ticks_ms_nonneg l).
    destruct (limited_step K s x s1 e1 H ltac:(lia) SX O1) as [H1 _]. rewrite Z.add_assoc. eapply IH; eauto. lia.
Qed.

(** The whole controller, whatever arrives on the serial port, on every schedule of less than 49.7 days in which the main loop's
    calls are not interrupted: as long as no NaN is commanded, nothing but the timer interrupt changes the angle a joint is
    driven to, and every interrupt changes it by at most the servo's maximum speed times 20 ms, plus M/400000 rad. *)
Theorem C31_system_speed_limit_ieee_partial (servos : V6 (servo A)) axs junk mem s0 stims s tr x s' e :
  axes (fun i => let j := at6 servos i in fresh32 L j (mn i) (mx i) (M i) /\ s_vel j = s_maxvel j /\ v32 (s_maxvel j) (w i) /\ (11 / 100 <= w i)%R) ->
  sys_boot A fwd p2l servos axs junk mem = Ok s0 ->
  20 * zlen (filter (fun x => match x with SystemModel.STick => true | _ => false end) (stims ++ [x])) < 4294967296 ->
  run s0 stims = Ok (s, tr) -> step s x = Ok (s', e) ->
  Forall (fun '(i, v, a) => number v /\ number a) (commanded (tr ++ e)) ->
  axes (fun i => exists c c', v32 (s_cur (joint s i)) c /\ v32 (s_cur (joint s' i)) c' /\ (Rabs (c' - c) <= w i * 20 / 1000 + M i / 400000)%R) /\
  (x <> SystemModel.STick -> axes (fun i => s_cur (joint s' i) = s_cur (joint s i))).
Proof.
  intros FR B TT R ST NN. change (ticks_ms (stims ++ [x]) < 4294967296) in TT. rewrite ticks_ms_app in TT. pose proof (ticks_ms_nonneg [x]).
  rewrite commanded_app in NN. apply Forall_app in NN as [N1 N2].
  assert (K : limited 0 (d_robot (y_dev s0))).
  { unfold sys_boot in B. destruct (c_boot junk mem); cbn [bind] in B; [|discriminate]. injection B as <-.
    cbn [y_dev dev_boot d_robot]. unfold limited. split; [lia|]. change (r_servos _) with servos. unfold axes in *. cbv zeta in FR.
    destruct FR as ((F0 & U0 & W0 & L0) & (F1 & U1 & W1 & L1) & (F2 & U2 & W2 & L2) & (F3 & U3 & W3 & L3) & (F4 & U4 & W4 & L4) & (F5 & U5 & W5 & L5)).
    split; [|split; [|split; [|split; [|split]]]]; (split; [assumption|]); apply fresh_S31; assumption. }
  pose proof (limited_run stims 0 s0 s tr K ltac:(lia) R N1) as G. rewrite Z.add_0_l in G.
  exact (proj2 (limited_step _ s x s' e G TT ST N2)).
Qed.
End Sys.
Print Assumptions C31_tick_speed_limit_ieee_partial.
Print Assumptions C31_system_speed_limit_ieee_partial.

(** ** the kit: at most 0.10473 rad (6 degrees and 0.0006) per interrupt *)
Lemma kit_maxvel (L : libm) : axes (fun i => let j := at6 (kit_servos (IEEE L)) i in s_vel j = s_maxvel j /\
  v32 (s_maxvel j) (SF2R radix2 (deg (IEEE L) 300)) /\ (11 / 100 <= SF2R radix2 (deg (IEEE L) 300) <= 5236 / 1000)%R).
Proof.
  assert (W : v32 (deg (IEEE L) 300) (SF2R radix2 (deg (IEEE L) 300)) /\ (11 / 100 <= SF2R radix2 (deg (IEEE L) 300) <= 5236 / 1000)%R).
  { split; [lit|]. lits. lra. }
  unfold axes. cbv zeta. split; [|split; [|split; [|split; [|split]]]]; (split; [reflexivity|exact W]).
Qed.
Theorem C31_kit_ieee_partial (L : libm) (fwd : V6 spec_float -> V6 spec_float) (inv : V6 spec_float -> option (V6 spec_float)) (l2p p2l : V6 spec_float -> V6 spec_float)
  (limits : V6 (spec_float * spec_float)) pinMap (print : spec_float -> list Z) sgn axs junk mem s0 stims s tr x s' e :
  let A := IEEE L in
  sys_boot A fwd p2l (kit_servos A) axs junk mem = Ok s0 ->
  20 * zlen (filter (fun x => match x with SystemModel.STick => true | _ => false end) (stims ++ [x])) < 4294967296 ->
  sys_run A fwd inv l2p p2l limits pinMap print sgn s0 stims = Ok (s, tr) -> sys_step A fwd inv l2p p2l limits pinMap print sgn s x = Ok (s', e) ->
  Forall (fun '(i, v, a) => number v /\ number a) (commanded (tr ++ e)) ->
  axes (fun i => exists c c', v32 (s_cur (at6 (r_servos (d_robot (y_dev s))) i)) c /\ v32 (s_cur (at6 (r_servos (d_robot (y_dev s'))) i)) c' /\
    (Rabs (c' - c) <= 10473 / 100000)%R).
Proof.
  intros A B TT R ST NN.
  destruct (C31_system_speed_limit_ieee_partial L fwd inv l2p p2l limits (kit_mn L) (kit_mx L) (fun _ => 3%R) (fun _ => SF2R radix2 (deg (IEEE L) 300)) pinMap print sgn
    (kit_servos A) axs junk mem s0 stims s tr x s' e) as [H _]; auto.
  - pose proof (kit_servos_ready L) as KR. pose proof (kit_maxvel L) as KV. unfold axes, fresh32 in *. cbv zeta in *. cbn [at6 kit_servos v0 v1 v2 v3 v4 v5] in *. fold A in KR, KV.
    destruct KR as ((I0 & _) & (I1 & _) & (I2 & _) & (I3 & _) & (I4 & _) & (I5 & _)). destruct KV as ((U0 & W0 & L0) & (U1 & W1 & L1) & (U2 & W2 & L2) & (U3 & W3 & L3) & (U4 & W4 & L4) & (U5 & W5 & L5)).
    split; [|split; [|split; [|split; [|split]]]]; (split; [split; [assumption|split; [reflexivity|split; reflexivity]]|split; [assumption|split; [assumption|exact (proj1 L0)]]]).
  - assert (Q : forall P Q : Z -> Prop, (forall i, P i -> Q i) -> axes P -> axes Q) by (intros P Q' I X; unfold axes in *; intuition).
    eapply Q; [|exact H]. intros i (c & c' & V1 & V2 & B1). exists c, c'. split; [exact V1|]. split; [exact V2|].
    pose proof (kit_maxvel L) as KV. unfold axes in KV. cbv zeta in KV. destruct KV as ((_ & _ & W) & _). cbv beta in B1. fold A in W, B1. lra.
Qed.
Print Assumptions C31_kit_ieee_partial.
(** ":M0V200R190": joint 1 to 90 degrees at 200 degrees/s: the eleventh interrupt of the move turns it by 4 degrees *)
Definition demo_fast : list stim :=
  map SArrive [58; 77; 48; 86; 50; 48; 48; 82; 49; 57; 48; 13] ++ repeat (SRun 10 (fun _ _ => false)) 40 ++ repeat SystemModel.STick 10.
Example C31_ieee_reachable :
  match kit_system demo_fast, kit_system (demo_fast ++ [SystemModel.STick]) with
  | Ok (s, tr), Ok (s', _) =>
      length (commanded tr) = 6%nat /\
      forallb (fun '(i, v, a) => valid_binary 24 128 v && negb (is_nan_SF v) && valid_binary 24 128 a && negb (is_nan_SF a)) (commanded tr) = true /\
      SFltb (sf_dec 24 128 false 69 (-3)) (SFabs (SFsub 24 128 (s_cur (v1 (r_servos (d_robot (y_dev s'))))) (s_cur (v1 (r_servos (d_robot (y_dev s))))))) = true
  | _, _ => False
  end.
Proof. vm_compute. splits; reflexivity. Qed.
