(** * C65, C72 in the arithmetic of the device: the display drawn with [float]s. *)
From Coq Require Import Reals Lra ZArith Lia Floats.SpecFloat.
From Flocq Require Import Core BinarySingleNaN.
From Verif Require Import Base Arith FloatBridge ServoFloat RingModel RingSpec RingProofs EepromModel EepromSpec EepromProofs ServoModel ServoSpec ServoProofs
  RobotModel RobotSpec RobotProofs PropRobot KinModel KinSpec KinProofs PropKin KinFloat PropKinFloat IoModel MrilModel McpModel McpSpec McpProofs
  DeviceModel SystemModel SystemSpec SystemProofs SystemSafe SystemQueue SystemMore SystemMotion PropProgress PropMotion ConfigModel PropKit PropFloat PropFloatMoves DisplayModel PropDisplay
  GfxFont GfxModel GfxProofs PropScreen PropPicture.
Set Default Goal Selector "!".
Open Scope Z_scope.

(** ** Specification *)
(** the same drawing operation, the border of the shape off by at most one pixel to each side *)
Definition close (d d' : draw) : Prop :=
  match d, d' with
  | DrawText x y t, DrawText x' y' t' => x = x' /\ y = y' /\ t = t'
  | DrawLine a b c e, DrawLine a' b' c' e' => Z.abs (a - a') <= 1 /\ Z.abs (b - b') <= 1 /\ Z.abs (c - c') <= 1 /\ Z.abs (e - e') <= 1
  | FillRect x y w h, FillRect x' y' w' h' => Z.abs (x - x') <= 1 /\ Z.abs (x + w - (x' + w')) <= 1 /\ y = y' /\ h = h'
  | DrawRect x y w h, DrawRect x' y' w' h' => x = x' /\ y = y' /\ w = w' /\ h = h'
  | _, _ => False
  end.
(** the bar of a servo with limits mn, mx: as [bar_of] of C65 *)
Definition column_at (mn mx a : R) : Z := Int_part (64 * (a - mn) / (mx - mn))%R.
Definition bar_at (row : Z) (mn mx home target current : R) : list draw :=
  let h := column_at mn mx home in
  let line a r := FillRect (64 + Z.min h (column_at mn mx a)) r (Z.abs (column_at mn mx a - h)) 1 in
  [FillRect (64 + h) row 1 3; line target (row + 1); line current (row + 2)].

(** ** Proofs *)
Lemma close_refl d : close d d.
Proof. destruct d; cbn; repeat split; lia. Qed.
Lemma rtrunc_close a b : (Rabs (a - b) <= 1)%R -> Z.abs (rtrunc a - rtrunc b) <= 1.
Proof.
  intros H. assert (K : (-1 <= a - b <= 1)%R) by (split_Rabs; lra).
  assert (G : forall x y, (0 <= x - y <= 1)%R -> 0 <= rtrunc x - rtrunc y <= 1).
  { clear. intros x y D. pose proof (rtrunc_mono y x ltac:(lra)). split; [lia|].
    destruct (Rle_lt_dec 0 y) as [P|P].
    - destruct (rtrunc_pos y P) as [A _]. destruct (rtrunc_pos x ltac:(lra)) as [B _].
      assert (K : (IZR (rtrunc x - rtrunc y) < IZR 2)%R) by (rewrite minus_IZR; lra). apply lt_IZR in K. lia.
    - destruct (rtrunc_neg y ltac:(lra)) as [A A0]. destruct (Rle_lt_dec x 0) as [Q|Q].
      + destruct (rtrunc_neg x Q) as [B _]. assert (K : (IZR (rtrunc x - rtrunc y) < IZR 2)%R) by (rewrite minus_IZR; lra). apply lt_IZR in K. lia.
      + destruct (rtrunc_pos x ltac:(lra)) as [B _]. assert (K : (IZR (rtrunc x) < IZR 1)%R) by lra. apply lt_IZR in K.
        assert (K2 : (IZR (-1) - 1 < IZR (rtrunc y) - 0)%R) by lra. rewrite Rminus_0_r, <- minus_IZR in K2. apply lt_IZR in K2. lia. }
  destruct (Rle_lt_dec 0 (a - b)) as [P|P]; [pose proof (G a b ltac:(lra))|pose proof (G b a ltac:(lra))]; lia.
Qed.
Lemma floor_close a b : (Rabs (a - b) <= 1 / 100)%R -> (- 1 / 4 <= b)%R -> Z.abs (rtrunc a - Int_part b) <= 1.
Proof.
  intros H B. destruct (base_Int_part b) as [I1 I2]. assert (K : (- 1 / 100 <= a - b <= 1 / 100)%R) by (split_Rabs; lra).
  destruct (Rle_lt_dec 0 a) as [P|P].
  - destruct (rtrunc_pos a P) as [A _].
    assert (K1 : (IZR (rtrunc a - Int_part b) < IZR 2)%R) by (rewrite minus_IZR; lra). apply lt_IZR in K1.
    assert (K2 : (IZR (-2) < IZR (rtrunc a - Int_part b))%R) by (rewrite minus_IZR; lra). apply lt_IZR in K2. lia.
  - destruct (rtrunc_neg a ltac:(lra)) as [A A0]. apply IZR_le in A0.
    assert (K1 : (IZR (rtrunc a - Int_part b) < IZR 2)%R) by (rewrite minus_IZR; lra). apply lt_IZR in K1.
    assert (K2 : (IZR (-2) < IZR (rtrunc a - Int_part b))%R) by (rewrite minus_IZR; lra). apply lt_IZR in K2. lia.
Qed.

Section Ieee.
Context (L : libm).
Notation A := (IEEE L).

Lemma to_i16_v (f : F A) (a : R) : v32 f a -> (Rabs a <= 32767)%R -> to_i16 A f = Ok (rtrunc a).
Proof.
  intros V H. unfold to_i16. change (ftoz A f) with (sf_trunc f). rewrite (fv_trunc _ _ _ _ V). pose proof (rtrunc_bound a 32767 H).
  replace ((-32768 <=? rtrunc a) && (rtrunc a <=? 32767)) with true; [reflexivity|]. symmetry. apply andb_true_iff. split; apply Z.leb_le; lia.
Qed.
Lemma half_v : v32 (half A) (1 / 2).
Proof. replace (1 / 2)%R with (SF2R radix2 (half A)); [unfold half; lit|]. unfold half. lits. lra. Qed.
Lemma px_v (f : F A) a x : v32 f a -> (Rabs a <= 31000)%R -> 0 <= x <= 127 ->
  exists b, v32 (fadd A (fofz A x) (fmul A (fmul A f (half A)) (fofz A 2))) b /\ (Rabs (b - (IZR x + a)) <= 1 / 100)%R.
Proof.
  intros V B X. pose proof tiny_small as T1. pose proof tiny_pos as T0. assert (IX : (0 <= IZR x <= 127)%R) by (split; apply IZR_le; lia).
  apply Rabs_bounds in B. destruct (r32_near (a * (1 / 2)) 15500) as [E1 E2]; [apply Rabs_le_of; lra|].
  assert (V1 := v_mul _ _ _ _ V half_v ltac:(apply Rabs_le_of; lra)). assert (V2 : v32 (fofz A 2) 2) by (apply (v_int 2); lia).
  set (h := r32 (a * (1 / 2))) in *. destruct (r32_near (h * 2) 31001) as [E3 E4]; [apply Rabs_le_of; lra|].
  assert (V3 := v_mul _ _ _ _ V1 V2 ltac:(apply Rabs_le_of; lra)). assert (V4 : v32 (fofz A x) (IZR x)) by (apply (v_int x); lia).
  set (k := r32 (h * 2)) in *. destruct (r32_near (IZR x + k) 32000) as [E5 E6]; [apply Rabs_le_of; lra|].
  exists (r32 (IZR x + k)). split; [exact (v_add _ _ _ _ V4 V3 ltac:(apply Rabs_le_of; lra))|]. apply Rabs_le_of. lra.
Qed.
Lemma py_v (f : F A) a y : v32 f a -> (Rabs a <= 31000)%R -> 0 <= y <= 127 ->
  exists b, v32 (fadd A (fofz A y) (fmul A (fopp A f) (half A))) b /\ (Rabs (b - (IZR y - a / 2)) <= 1 / 100)%R.
Proof.
  intros V B X. pose proof tiny_small as T1. pose proof tiny_pos as T0. assert (IX : (0 <= IZR y <= 127)%R) by (split; apply IZR_le; lia).
  apply Rabs_bounds in B. assert (V0 : v32 (fopp A f) (- a)) by (apply (fv_opp 24 128); exact V).
  destruct (r32_near (- a * (1 / 2)) 15500) as [E1 E2]; [apply Rabs_le_of; lra|].
  assert (V1 := v_mul _ _ _ _ V0 half_v ltac:(apply Rabs_le_of; lra)).
  set (h := r32 (- a * (1 / 2))) in *. assert (V4 : v32 (fofz A y) (IZR y)) by (apply (v_int y); lia).
  destruct (r32_near (IZR y + h) 16000) as [E5 E6]; [apply Rabs_le_of; lra|].
  exists (r32 (IZR y + h)). split; [exact (v_add _ _ _ _ V4 V1 ltac:(apply Rabs_le_of; lra))|]. apply Rabs_le_of. lra.
Qed.
(** one line *)
Lemma line_v (u v : V3 (F A) -> F A) (u' v' : V3 R -> R) x y p q P Q S e : 0 <= x <= 127 -> 0 <= y <= 127 ->
  within e (u p) (u' P) -> within e (v p) (v' P) -> within e (u q) (u' Q) -> within e (v q) (v' Q) -> (e <= 1 / 2)%R ->
  (Rabs (u' P) <= S)%R -> (Rabs (v' P) <= S)%R -> (Rabs (u' Q) <= S)%R -> (Rabs (v' Q) <= S)%R -> (S <= 30000)%R ->
  exists d, joint_line A u v x y (half A) p q = Ok d /\
    close d (DrawLine (rtrunc (IZR x + u' P)) (rtrunc (IZR y - v' P / 2)) (rtrunc (IZR x + u' Q)) (rtrunc (IZR y - v' Q / 2))).
Proof.
  intros X Y (a & Va & Ea) (b & Vb & Eb) (c & Vc & Ec) (d & Vd & Ed) He HA HB HC HD HS.
  assert (IX : (0 <= IZR x <= 127)%R) by (split; apply IZR_le; lia). assert (IY : (0 <= IZR y <= 127)%R) by (split; apply IZR_le; lia).
  apply Rabs_bounds in Ea, Eb, Ec, Ed, HA, HB, HC, HD.
  destruct (px_v _ a x Va ltac:(apply Rabs_le_of; lra) X) as (a' & Va' & Ea'). destruct (py_v _ b y Vb ltac:(apply Rabs_le_of; lra) Y) as (b' & Vb' & Eb').
  destruct (px_v _ c x Vc ltac:(apply Rabs_le_of; lra) X) as (c' & Vc' & Ec'). destruct (py_v _ d y Vd ltac:(apply Rabs_le_of; lra) Y) as (d' & Vd' & Ed').
  apply Rabs_bounds in Ea', Eb', Ec', Ed'.
  unfold joint_line. cbv zeta. rewrite (to_i16_v _ _ Va') by (apply Rabs_le_of; lra). cbn [bind]. rewrite (to_i16_v _ _ Vb') by (apply Rabs_le_of; lra). cbn [bind].
  rewrite (to_i16_v _ _ Vc') by (apply Rabs_le_of; lra). cbn [bind]. rewrite (to_i16_v _ _ Vd') by (apply Rabs_le_of; lra). cbn [bind].
  eexists. split; [reflexivity|]. cbn [close]. repeat split; apply rtrunc_close, Rabs_le_of; lra.
Qed.
Lemma robot_v (p2l : V6 (F A) -> V6 (F A)) (M : R) (g : geom (F A)) (n : geom R) (r : robot A) (a : V6 R) x y top :
  accurate L -> okM M -> (M <= 5000)%R -> table M g n -> (span n <= 30000)%R -> reads (current_logical A p2l r) a -> 0 <= x <= 127 -> 0 <= y <= 127 ->
  exists ds, display_robot A p2l (kin_new A g) r x y (half A) top = Ok ds /\
    Forall2 close ds (arm_lines vx (if top then vy else vz) (IZR x) (IZR y) n a).
Proof.
  intros HL HM M5 T SP RD X Y. unfold display_robot, arm_lines. cbv zeta. set (j := current_logical A p2l r) in *.
  pose proof (C41_ieee_joints L M g n j a HL HM T RD) as (J0 & J1 & J2 & J3 & J4 & J5).
  pose proof (arm_bound n a vx (proj1 vx_ok) (proj1 (proj2 vx_ok)) (proj2 (proj2 vx_ok))) as BX. cbv zeta in BX.
  assert (BV := arm_bound n a (if top then vy else vz)). cbv zeta in BV.
  destruct BV as (V0 & V1 & V2 & V3 & V4 & V5); [destruct top; [apply vy_ok|apply vz_ok]|destruct top; [apply vy_ok|apply vz_ok]|destruct top; reflexivity|].
  destruct BX as (U0 & U1 & U2 & U3 & U4 & U5).
  set (C := calculate_coordinates A (kin_new A g) j) in *. set (E := calculate_coordinates RA (kin_new RA n) a) in *.
  assert (SX : forall p P, within3 (M / 10000) p P -> within (M / 10000) (vx p) (vx P)) by (intros p P (W & _); exact W).
  assert (SV : forall p P, within3 (M / 10000) p P -> within (M / 10000) ((if top then vy (T := F A) else vz (T := F A)) p) ((if top then vy else vz) P)) by (intros p P (_ & W1 & W2); destruct top; assumption).
  assert (e5 : (M / 10000 <= 1 / 2)%R) by lra.
  destruct (line_v (vx (T := F A)) (if top then vy (T := F A) else vz (T := F A)) vx (if top then vy else vz) x y _ _ _ _ (span n) (M / 10000) X Y (SX _ _ J0) (SV _ _ J0) (SX _ _ J1) (SV _ _ J1) e5 U0 V0 U1 V1 SP) as (d0 & -> & C0). cbn [bind].
  destruct (line_v (vx (T := F A)) (if top then vy (T := F A) else vz (T := F A)) vx (if top then vy else vz) x y _ _ _ _ (span n) (M / 10000) X Y (SX _ _ J1) (SV _ _ J1) (SX _ _ J2) (SV _ _ J2) e5 U1 V1 U2 V2 SP) as (d1 & -> & C1). cbn [bind].
  destruct (line_v (vx (T := F A)) (if top then vy (T := F A) else vz (T := F A)) vx (if top then vy else vz) x y _ _ _ _ (span n) (M / 10000) X Y (SX _ _ J2) (SV _ _ J2) (SX _ _ J3) (SV _ _ J3) e5 U2 V2 U3 V3 SP) as (d2 & -> & C2). cbn [bind].
  destruct (line_v (vx (T := F A)) (if top then vy (T := F A) else vz (T := F A)) vx (if top then vy else vz) x y _ _ _ _ (span n) (M / 10000) X Y (SX _ _ J3) (SV _ _ J3) (SX _ _ J4) (SV _ _ J4) e5 U3 V3 U4 V4 SP) as (d3 & -> & C3). cbn [bind].
  destruct (line_v (vx (T := F A)) (if top then vy (T := F A) else vz (T := F A)) vx (if top then vy else vz) x y _ _ _ _ (span n) (M / 10000) X Y (SX _ _ J4) (SV _ _ J4) (SX _ _ J5) (SV _ _ J5) e5 U4 V4 U5 V5 SP) as (d4 & -> & C4). cbn [bind].
  eexists. split; [reflexivity|]. repeat (constructor; [assumption|]). constructor.
Qed.
(** ** bars *)
Definition wide (mn mx M : R) : Prop := (64 * M <= 1000000 * (mx - mn))%R.
Lemma column_acc mn mx M x : (1 / 1000 <= mx - mn)%R -> (0 < M <= 1000)%R -> wide mn mx M -> (mn - slack M <= x <= mx + slack M)%R ->
  (Rabs (pulse_real mn mx 0 64 x - 64 * (x - mn) / (mx - mn)) <= 1 / 100)%R.
Proof.
  unfold wide, slack, pulse_real. intros HD HM W X. change (64 - 0) with 64. pose proof tiny_small as T1. pose proof tiny_pos as T0.
  set (D := (mx - mn)%R) in *. set (t := (x - mn)%R) in *. assert (Bt : (- (D / 256) <= t <= D + D / 256)%R) by (unfold D, t in *; lra). clearbody D t. clear X.
  set (e := (64 * t / D)%R). assert (Ee : (e * D = 64 * t)%R) by (unfold e; field; lra).
  assert (Be : (-1 <= e <= 65)%R) by (split; apply Rmult_le_reg_r with D; lra). clearbody e.
  destruct (r32_near t (D * 2)) as [A1 A2]; [apply Rabs_le_of; lra|]. set (t1 := r32 t) in *. clearbody t1.
  destruct (r32_near (t1 * 64) (D * 130)) as [A3 A4]; [apply Rabs_le_of; lra|]. set (t2 := r32 (t1 * 64)) in *. clearbody t2.
  destruct (r32_near D D) as [A5 A6]; [apply Rabs_le_of; lra|]. set (D1 := r32 D) in *. clearbody D1.
  assert (HD1 : (D * (99 / 100) <= D1)%R) by lra. set (q := (t2 / D1)%R). assert (Eq : (q * D1 = t2)%R) by (unfold q; field; lra). clearbody q.
  assert (P : (Rabs (e * (D - D1)) <= 65 * (D / 1000000))%R).
  { rewrite Rabs_mult. apply Rmult_le_compat; try apply Rabs_pos; apply Rabs_le_of; lra. }
  apply Rabs_bounds in P. assert (EE : ((q - e) * D1 = (t2 - 64 * t) + e * (D - D1))%R) by (replace ((q - e) * D1)%R with (q * D1 - e * D1)%R by ring; rewrite Eq, <- Ee; ring).
  set (z := (e * (D - D1))%R) in *. clearbody z.
  assert (Q : (-1 / 1000 <= q - e <= 1 / 1000)%R) by (split; apply Rmult_le_reg_r with D1; lra).
  destruct (r32_near q 70) as [A7 A8]; [apply Rabs_le_of; lra|]. set (q1 := r32 q) in *. clearbody q1.
  destruct (r32_near (q1 + 0) 71) as [A9 A10]; [apply Rabs_le_of; lra|]. apply Rabs_le_of. lra.
Qed.
Lemma column_v (s : servo A) (f : F A) mn mx M x : v32 (s_min s) mn -> v32 (s_max s) mx -> v32 f x ->
  (1 / 1000 <= mx - mn)%R -> (- M <= mn)%R -> (mx <= M)%R -> (M <= 1000)%R -> wide mn mx M -> (mn - slack M <= x <= mx + slack M)%R ->
  exists c, bar_pixel A s f 64 = Ok c /\ 0 <= c <= 64 /\ Z.abs (c - column_at mn mx x) <= 1.
Proof.
  intros Vn Vx V HD H1 H2 HM W X. assert (CAL : (M * Rabs (IZR (64 - 0)) <= 1000000 * (mx - mn))%R).
  { unfold wide in W. change (64 - 0) with 64. rewrite Rabs_pos_eq by lra. lra. }
  pose proof (map_float_v32 L mn mx M 0 64 _ _ _ x Vn Vx V HD H1 H2 HM ltac:(lia) ltac:(lia) CAL X) as VP.
  destruct (pulse_range mn mx M 0 64 x HD H1 H2 HM ltac:(lia) ltac:(lia) CAL X) as ([B1 B2] & _). rewrite Z.min_l in B1 by lia. rewrite Z.max_r in B2 by lia.
  pose proof (column_acc mn mx M x HD ltac:(lra) W X) as AC. set (v := pulse_real mn mx 0 64 x) in *.
  assert (TB : 0 <= rtrunc v <= 64).
  { split.
    - destruct (Rle_lt_dec 0 v) as [P|P]; [apply (rtrunc_pos v P)|]. destruct (rtrunc_neg v ltac:(lra)) as [[_ K] _].
      assert (K2 : (IZR (-1) < IZR (rtrunc v))%R) by lra. apply lt_IZR in K2. lia.
    - destruct (Rle_lt_dec 0 v) as [P|P]; [destruct (rtrunc_pos v P) as [[K _] _]; assert (K2 : (IZR (rtrunc v) < IZR 65)%R) by lra; apply lt_IZR in K2; lia|].
      destruct (rtrunc_neg v ltac:(lra)) as [_ K]. lia. }
  exists (rtrunc v). split; [|split; [exact TB|]].
  - unfold bar_pixel, to_int. change (ftoz A) with sf_trunc. rewrite (fv_trunc _ _ _ _ VP).
    replace ((-2147483648 <=? rtrunc v) && (rtrunc v <=? 2147483647)) with true; [reflexivity|]. symmetry. apply andb_true_iff. split; apply Z.leb_le; lia.
  - apply floor_close; [exact AC|]. unfold wide, slack in *. apply Rmult_le_reg_r with (mx - mn)%R; [lra|]. unfold Rdiv at 2. rewrite Rmult_assoc, Rinv_l, Rmult_1_r by lra. lra.
Qed.
Lemma bar_v row (st sc : servo A) mn mx M (home t c : R) : 0 <= row <= 90 ->
  v32 (s_min st) mn -> v32 (s_max st) mx -> v32 (s_min sc) mn -> v32 (s_max sc) mx -> v32 (s_home st) home -> v32 (s_target st) t -> v32 (s_cur sc) c ->
  (1 / 1000 <= mx - mn)%R -> (- M <= mn)%R -> (mx <= M)%R -> (M <= 1000)%R -> wide mn mx M ->
  (mn <= home <= mx)%R -> (mn <= t <= mx)%R -> (mn - slack M <= c <= mx + slack M)%R ->
  exists ds, display_bar A 64 row 64 st sc = Ok ds /\ Forall2 close ds (bar_at row mn mx home t c) /\ Forall op_fits ds.
Proof.
  intros HR V1 V2 V3 V4 Vh Vt Vc HD H1 H2 HM W Bh Bt Bc. assert (S0 : (0 <= slack M)%R) by (unfold slack; lra).
  destruct (column_v st _ mn mx M home V1 V2 Vh HD H1 H2 HM W ltac:(lra)) as (n & En & Rn & Cn).
  destruct (column_v st _ mn mx M t V1 V2 Vt HD H1 H2 HM W ltac:(lra)) as (k & Ek & Rk & Ck).
  destruct (column_v sc _ mn mx M c V3 V4 Vc HD H1 H2 HM W ltac:(lra)) as (m & Em & Rm & Cm).
  unfold display_bar. rewrite En. cbn [bind]. rewrite Ek. cbn [bind]. rewrite Em. cbn [bind]. rewrite !bar_line_ok by lia. cbn [bind]. rewrite !i16_id by lia.
  eexists. split; [reflexivity|]. split.
  - unfold bar_at. cbv zeta. constructor; [cbn [close]; lia|]. constructor; [cbn [close]; lia|]. constructor; [cbn [close]; lia|]. constructor.
  - constructor; [apply fill_fits; lia|]. constructor; [apply fill_fits; lia|]. constructor; [apply fill_fits; lia|]. constructor.
Qed.
End Ieee.

(** the servos of a reached state *)
Section Reached.
Context (L : libm).
Notation A := (IEEE L).
Context (fwd : V6 (F A) -> V6 (F A)) (inv : V6 (F A) -> option (V6 (F A))) (l2p p2l : V6 (F A) -> V6 (F A)) (limits : V6 (F A * F A)).
Context (mn mx Ms home : Z -> R).

(** a servo table: limits, the range wide enough for a bar, the home position inside the limits *)
Definition servo_table (servos : V6 (servo A)) : Prop :=
  axes (fun i => inside32 L (at6 servos i) (mn i) (mx i) (Ms i) /\ wide (mn i) (mx i) (Ms i) /\ v32 (s_home (at6 servos i)) (home i) /\ (mn i <= home i <= mx i)%R).
Definition shown (s : sys A) (i : Z) : Prop := let x := at6 (r_servos (d_robot (y_dev s))) i in
  v32 (s_min x) (mn i) /\ v32 (s_max x) (mx i) /\ v32 (s_home x) (home i) /\
  (exists t, v32 (s_target x) t /\ (mn i <= t <= mx i)%R) /\ (exists c, v32 (s_cur x) c /\ (mn i - slack (Ms i) <= c <= mx i + slack (Ms i))%R).
Lemma reached_v pinMap print sgn (servos : V6 (servo A)) axs junk mem s0 past s tr : servo_table servos ->
  sys_boot A fwd p2l servos axs junk mem = Ok s0 -> sys_run A fwd inv l2p p2l limits pinMap print sgn s0 past = Ok (s, tr) -> numbers (commanded tr) -> axes (shown s).
Proof.
  intros H B R N. unfold servo_table in H.
  assert (HI : axes (fun i => inside32 L (at6 servos i) (mn i) (mx i) (Ms i))) by (unfold axes in *; tauto).
  destruct (C32_system_servos_inside_ieee L fwd inv l2p p2l limits mn mx Ms pinMap print sgn servos axs junk mem s0 past s tr HI B R N) as [K _].
  destruct (robot_projection A fwd inv l2p p2l limits pinMap print sgn _ _ _ _ R) as (os & evs & RR & _ & _).
  unfold sys_boot in B. destruct (c_boot junk mem); cbn [bind] in B; [|discriminate]. injection B as <-.
  cbn [y_dev dev_boot d_robot] in RR. pose proof (run_limits _ _ _ _ _ _ _ _ _ _ RR) as LM. apply run_home in RR.
  cbn [r_servos with_maxvel with_method robot_new with_targets] in LM, RR.
  unfold same_limits, same_home, axes, shown in *. cbv zeta in *.
  assert (G : forall i, (inside32 L (at6 servos i) (mn i) (mx i) (Ms i) /\ wide (mn i) (mx i) (Ms i) /\ v32 (s_home (at6 servos i)) (home i) /\ (mn i <= home i <= mx i)%R) ->
    s_min (at6 (r_servos (d_robot (y_dev s))) i) = s_min (at6 servos i) /\ s_max (at6 (r_servos (d_robot (y_dev s))) i) = s_max (at6 servos i) ->
    s_home (at6 (r_servos (d_robot (y_dev s))) i) = s_home (at6 servos i) ->
    (exists c t, v32 (s_cur (at6 (r_servos (d_robot (y_dev s))) i)) c /\ v32 (s_target (at6 (r_servos (d_robot (y_dev s))) i)) t /\ (mn i - Ms i / 4000000 <= c <= mx i + Ms i / 4000000)%R /\ (mn i <= t <= mx i)%R) -> shown s i).
  { intros i (((Vn & Vx & _) & _) & _ & Vh & _) [E1 E2] E3 (c & t & Vc & Vt & Bc & Bt). unfold shown. cbv zeta. rewrite E1, E2, E3. unfold slack. splits; eauto. }
  unfold shown in G. cbv zeta in G.
  destruct H as (H0 & H1 & H2 & H3 & H4 & H5). destruct K as (K0 & K1 & K2 & K3 & K4 & K5). destruct LM as (A0 & A1 & A2 & A3 & A4 & A5). destruct RR as (R0 & R1 & R2 & R3 & R4 & R5).
  split; [apply (G 0); assumption|]. split; [apply (G 1); assumption|]. split; [apply (G 2); assumption|]. split; [apply (G 3); assumption|]. split; [apply (G 4); assumption|apply (G 5); assumption].
Qed.
Lemma reads_of B a : six (fin B) a -> exists r, reads a r.
Proof.
  intros ((r0 & V0 & _) & (r1 & V1 & _) & (r2 & V2 & _) & (r3 & V3 & _) & (r4 & V4 & _) & (r5 & V5 & _)). exists (mk6 r0 r1 r2 r3 r4 r5). unfold reads. cbn [v0 v1 v2 v3 v4 v5]. auto 10.
Qed.
Lemma logical_reads (servos : V6 (servo A)) (s : sys A) : (forall a, six (fin 1100) a -> six (fin 1000000) (p2l a)) -> servo_table servos -> axes (shown s) ->
  exists a, reads (current_logical A p2l (d_robot (y_dev s))) a.
Proof.
  intros P2L H K. apply (reads_of 1000000). apply P2L. unfold servo_table, shown, axes in *. cbv zeta in K.
  assert (G : forall i, (inside32 L (at6 servos i) (mn i) (mx i) (Ms i) /\ wide (mn i) (mx i) (Ms i) /\ v32 (s_home (at6 servos i)) (home i) /\ (mn i <= home i <= mx i)%R) ->
    (exists c, v32 (s_cur (at6 (r_servos (d_robot (y_dev s))) i)) c /\ (mn i - slack (Ms i) <= c <= mx i + slack (Ms i))%R) -> fin 1100 (s_cur (at6 (r_servos (d_robot (y_dev s))) i))).
  { intros i ((C & _) & _) (c & V & Bc). pose proof (M_bounds _ _ _ _ _ C) as HM. destruct C as (_ & _ & _ & C1 & C2 & C3 & _). exists c. split; [exact V|]. unfold slack in Bc. apply Rabs_le_of. lra. }
  destruct H as (H0 & H1 & H2 & H3 & H4 & H5). destruct K as (K0 & K1 & K2 & K3 & K4 & K5). unfold six, servo_angles, map6. cbn [v0 v1 v2 v3 v4 v5].
  split; [apply (G 0); tauto|]. split; [apply (G 1); tauto|]. split; [apply (G 2); tauto|]. split; [apply (G 3); tauto|]. split; [apply (G 4); tauto|apply (G 5); tauto].
Qed.
Lemma bar_shown (servos : V6 (servo A)) i v row (st sc : sys A) : 0 <= row <= 90 -> (forall s : V6 (servo A), v s = at6 s i) ->
  (inside32 L (at6 servos i) (mn i) (mx i) (Ms i) /\ wide (mn i) (mx i) (Ms i) /\ v32 (s_home (at6 servos i)) (home i) /\ (mn i <= home i <= mx i)%R) -> shown st i -> shown sc i ->
  exists ds t c, display_bar A 64 row 64 (v (r_servos (d_robot (y_dev st)))) (v (r_servos (d_robot (y_dev sc)))) = Ok ds /\
    v32 (s_target (v (r_servos (d_robot (y_dev st))))) t /\ v32 (s_cur (v (r_servos (d_robot (y_dev sc))))) c /\
    Forall2 close ds (bar_at row (mn i) (mx i) (home i) t c) /\ Forall op_fits ds.
Proof.
  intros HR HV ((C & _) & W & _ & Bh) St Sc. unfold shown in St, Sc. cbv zeta in St, Sc. rewrite <- HV in St, Sc.
  destruct St as (V1 & V2 & V3 & (t & Vt & Bt) & _). destruct Sc as (U1 & U2 & _ & _ & (c & Vc & Bc)). destruct C as (_ & _ & C0 & C1 & C2 & C3 & _).
  destruct (bar_v L row _ _ (mn i) (mx i) (Ms i) (home i) t c HR V1 V2 U1 U2 V3 Vt Vc C0 C1 C2 C3 W Bh Bt Bc) as (ds & E & Cl & Fi). exists ds, t, c. auto.
Qed.
End Reached.

(** the state of the protocol at a moment of the run *)
Definition header_at {A : arith} (print1 : F A -> list Z) (s : sys A) : draw :=
  DrawText 0 0 ((match r_method (d_robot (y_dev s)) with P2P => [77; 48; 48] | LINEAR => [77; 48; 49] | CIRCULAR => [77; 48; 50] end)
                ++ [32; 86; 32] ++ print1 (r_maxvel (d_robot (y_dev s)))).
Definition boxes_at {A : arith} (pinMap : list Z) (w : nat -> sys A) : list draw :=
  flat_map (fun k => box_of pinMap (d_io (y_dev (w (16 + k)%nat))) (Z.of_nat k)) (seq 0 10).
Definition bars_at (mn mx home : Z -> R) (t c : Z -> R) : list draw :=
  flat_map (fun i => bar_at (8 + 3 * i) (mn i) (mx i) (home i) (t i) (c i)) [0; 1; 2; 3; 4; 5].
Lemma boxes_any (A : arith) pinMap (w : nat -> sys A) : zlen pinMap = 10 -> io_boxes A pinMap w 10 0 = Ok (boxes_at pinMap w).
Proof.
  intros P. unfold boxes_at. cbn [io_boxes]. rewrite !box_ok by (rewrite P; lia). cbn [bind]. cbn [flat_map seq app]. rewrite ?app_nil_r. reflexivity.
Qed.
Lemma mode_any (A : arith) fwd inv l2p p2l limits pinMap print sgn servos axs junk mem l s0 stims past fut (w : sys A) tr :
  zlen junk = 300 -> holds sgn mem l -> Forall (fun m => zlen m <= 80) l -> sys_boot A fwd p2l servos axs junk mem = Ok s0 ->
  host_ok (spec_boot l) (map CChar (arrivals stims)) -> stims = past ++ fut -> sys_run A fwd inv l2p p2l limits pinMap print sgn s0 past = Ok (w, tr) ->
  let t := snd (spec_run (spec_boot l) (mcp_events tr)) in mode_text (cm (y_mcp w)) = Ok (mode_of t) /\
  ((smode t = EEPROM -> snext t <= 999 /\ zlen (slog t) <= 999) -> Forall op_fits (mode_of t)).
Proof.
  intros J HO L80 B HOK E R t. destruct (boot_run A fwd p2l sgn junk mem l axs servos s0 J HO L80 B) as (CI & RX & _ & _).
  destruct (run_spec A fwd inv l2p p2l limits pinMap print sgn s0 (spec_boot l) past w tr CI RX R) as (_ & CI' & _).
  { apply host_ok_polls with (rest := arrivals fut).
    replace (chars (map CChar (arrivals past))) with (arrivals past); [rewrite <- arrivals_app, <- E; exact HOK|].
    clear. induction (arrivals past); cbn; congruence. }
  fold t in CI'. split; [eapply mode_ok; exact CI'|]. intros T3.
  destruct CI' as (_ & _ & _ & RW & RC & RA' & _ & _ & _ & _ & NX & _). unfold mode_of. destruct (smode t) eqn:M; try constructor.
  - apply slash_fits; [unfold printable; lia| |lia]. rewrite space_enc, <- RA', zlen_rabs by exact RW. pose proof RW as RW'. unfold RWf in RW'. lia.
  - constructor.
  - destruct (T3 eq_refl). apply slash_fits; [unfold printable; lia|lia|]. pose proof (zlen_nonneg (slog t)). lia.
  - constructor.
Qed.
Lemma close_small d d' : close d d' -> line_small d' -> op_fits d.
Proof.
  destruct d' as [| a b c e| |]; cbn [line_small]; try tauto. destruct d as [| a' b' c' e'| |]; cbn [close]; try tauto. intros (C1 & C2 & C3 & C4) ((B1 & B2 & B3 & B4) & D1 & D2).
  split; [cbn [op_typed]; unfold int16; lia|]. split; [cbn [last_coordinate]; destruct (Z.abs (_ - _) <=? _); lia|]. lia.
Qed.
Lemma close_smalls ds ds' : Forall2 close ds ds' -> Forall line_small ds' -> Forall op_fits ds.
Proof. induction 1 as [|d d' ds ds' C _ IH]; intros S; constructor; inversion S; subst; auto. eapply close_small; eauto. Qed.
Lemma closes_refl ds : Forall2 close ds ds.
Proof. induction ds; constructor; auto. apply close_refl. Qed.

(** ** C65 and C72 with the [float]s of the device

    The geometry is stored rounded to [float], no component is larger than M; sin and cos are accurate to 2^-22.  Unless a NaN
    has been commanded: drawing is defined, and every line, bar and box is where the exact picture of the stored angles has it, up to
    one pixel.  If the numbers fit in their line (as in C72), the pixels on are exactly those of these shapes, and they are sent. *)
Theorem C65_picture_ieee : forall (L : libm), let A := IEEE L in
  forall fwd inv l2p p2l limits pinMap print print1 sgn (M : R) (g : geom spec_float) (n : geom R) (mn mx Ms home : Z -> R) (servos : V6 (servo A)) axs junk mem l s0 stims
    (past : nat -> list stim) (w : nat -> sys A) (tr : nat -> list (sys_ev A)),
  accurate L -> okM M -> (M <= 5000)%R -> table M g n -> (span n <= 30000)%R -> zlen pinMap = 10 ->
  (forall a, six (fin 1100) a -> six (fin 1000000) (p2l a)) -> servo_table L mn mx Ms home servos ->
  zlen junk = 300 -> holds sgn mem l -> Forall (fun m => zlen m <= 80) l -> sys_boot A fwd p2l servos axs junk mem = Ok s0 ->
  host_ok (spec_boot l) (map CChar (arrivals stims)) ->
  (forall k, exists future, stims = past k ++ future /\ sys_run A fwd inv l2p p2l limits pinMap print sgn s0 (past k) = Ok (w k, tr k) /\ numbers (commanded (tr k))) ->
  let state := snd (spec_run (spec_boot l) (mcp_events (tr 3%nat))) in
  exists pic a0 a1 (t c : Z -> R),
    reads (current_logical A p2l (d_robot (y_dev (w 0%nat)))) a0 /\ reads (current_logical A p2l (d_robot (y_dev (w 1%nat)))) a1 /\
    axes (fun i => v32 (s_target (at6 (r_servos (d_robot (y_dev (w (4 + 2 * Z.to_nat i)%nat)))) i)) (t i) /\
                   v32 (s_cur (at6 (r_servos (d_robot (y_dev (w (5 + 2 * Z.to_nat i)%nat)))) i)) (c i)) /\
    render A p2l (kin_new A g) pinMap print1 w = Ok pic /\
    Forall2 close pic (arm_lines vx vy 10 20 n a0 ++ arm_lines vx vz 35 28 n a1 ++ mode_of state ++ [header_at print1 (w 2%nat)] ++ bars_at mn mx home t c ++ boxes_at pinMap w) /\
    ((smode state = EEPROM -> snext state <= 999 /\ zlen (slog state) <= 999) ->
     (let speed := print1 (r_maxvel (d_robot (y_dev (w 2%nat)))) in Forall printable speed /\ zlen speed <= 15) ->
     forall fuel, 65536 <= Z.of_nat fuel -> exists frame shapes packets, paint fuel blank pic = Ok frame /\
       Forall2 shape_of pic shapes /\ (forall i j, on_screen i j -> (lit frame i j = true <-> exists S, In S shapes /\ S i j)) /\
       send_frame 32 frame 0 = Ok packets /\ flat_map (@tl Z) packets = frame).
Proof.
  intros L A fwd inv l2p p2l limits pinMap print print1 sgn M g n mn mx Ms home servos axs junk mem l s0 stims past w tr HL HM M5 T SP PM P2L ST J HO L80 B HOK W state.
  assert (SH : forall k, axes (shown L mn mx Ms home (w k))).
  { intros k. destruct (W k) as (fut & _ & R & N). eapply reached_v; eauto. }
  destruct (logical_reads L p2l mn mx Ms home servos (w 0%nat) P2L ST (SH 0%nat)) as (a0 & R0). destruct (logical_reads L p2l mn mx Ms home servos (w 1%nat) P2L ST (SH 1%nat)) as (a1 & R1).
  destruct (robot_v L p2l M g n _ a0 10 20 true HL HM M5 T SP R0 ltac:(lia) ltac:(lia)) as (d0 & E0 & C0). destruct (robot_v L p2l M g n _ a1 35 28 false HL HM M5 T SP R1 ltac:(lia) ltac:(lia)) as (d1 & E1 & C1).
  destruct (W 3%nat) as (fut & E & R & _). destruct (mode_any A fwd inv l2p p2l limits pinMap print sgn servos axs junk mem l s0 stims _ fut _ _ J HO L80 B HOK E R) as [EM FM]. fold state in EM, FM.
  unfold axes, servo_table in ST. destruct ST as (S0 & S1 & S2 & S3 & S4 & S5).
  assert (Q : forall k, shown L mn mx Ms home (w k) 0 /\ shown L mn mx Ms home (w k) 1 /\ shown L mn mx Ms home (w k) 2 /\ shown L mn mx Ms home (w k) 3 /\ shown L mn mx Ms home (w k) 4 /\ shown L mn mx Ms home (w k) 5) by exact SH.
  destruct (bar_shown L mn mx Ms home servos 0 v0 8 (w 4%nat) (w 5%nat) ltac:(lia) ltac:(reflexivity) S0 ltac:(apply Q) ltac:(apply Q)) as (b0 & t0 & c0 & EB0 & T0 & U0 & K0 & F0).
  destruct (bar_shown L mn mx Ms home servos 1 v1 11 (w 6%nat) (w 7%nat) ltac:(lia) ltac:(reflexivity) S1 ltac:(apply Q) ltac:(apply Q)) as (b1 & t1 & c1 & EB1 & T1 & U1 & K1 & F1).
  destruct (bar_shown L mn mx Ms home servos 2 v2 14 (w 8%nat) (w 9%nat) ltac:(lia) ltac:(reflexivity) S2 ltac:(apply Q) ltac:(apply Q)) as (b2 & t2 & c2 & EB2 & T2 & U2 & K2 & F2).
  destruct (bar_shown L mn mx Ms home servos 3 v3 17 (w 10%nat) (w 11%nat) ltac:(lia) ltac:(reflexivity) S3 ltac:(apply Q) ltac:(apply Q)) as (b3 & t3 & c3 & EB3 & T3 & U3 & K3 & F3).
  destruct (bar_shown L mn mx Ms home servos 4 v4 20 (w 12%nat) (w 13%nat) ltac:(lia) ltac:(reflexivity) S4 ltac:(apply Q) ltac:(apply Q)) as (b4 & t4 & c4 & EB4 & T4 & U4 & K4 & F4).
  destruct (bar_shown L mn mx Ms home servos 5 v5 23 (w 14%nat) (w 15%nat) ltac:(lia) ltac:(reflexivity) S5 ltac:(apply Q) ltac:(apply Q)) as (b5 & t5 & c5 & EB5 & T5 & U5 & K5 & F5).
  assert (EB : display_bars A w = Ok (b0 ++ b1 ++ b2 ++ b3 ++ b4 ++ b5)).
  { unfold display_bars, view_servo. cbv zeta. change (8 + 0 * 3) with 8. change (8 + 1 * 3) with 11. change (8 + 2 * 3) with 14. change (8 + 3 * 3) with 17. change (8 + 4 * 3) with 20. change (8 + 5 * 3) with 23.
    rewrite (bind_ok _ _ _ EB0), (bind_ok _ _ _ EB1), (bind_ok _ _ _ EB2), (bind_ok _ _ _ EB3), (bind_ok _ _ _ EB4), (bind_ok _ _ _ EB5). reflexivity. }
  set (pic := d0 ++ d1 ++ mode_of state ++ [header_at print1 (w 2%nat)] ++ (b0 ++ b1 ++ b2 ++ b3 ++ b4 ++ b5) ++ boxes_at pinMap w).
  exists pic, a0, a1, (at6 (mk6 t0 t1 t2 t3 t4 t5)), (at6 (mk6 c0 c1 c2 c3 c4 c5)). split; [exact R0|]. split; [exact R1|]. split; [unfold axes; cbn [at6 v0 v1 v2 v3 v4 v5]; auto 10|].
  split; [unfold render; rewrite (bind_ok _ _ _ E0), (bind_ok _ _ _ E1), (bind_ok _ _ _ EM), (bind_ok _ _ _ EB), (bind_ok _ _ _ (boxes_any A pinMap w PM)); reflexivity|].
  split.
  - unfold pic. apply Forall2_app; [exact C0|]. apply Forall2_app; [exact C1|]. apply Forall2_app; [apply closes_refl|]. apply Forall2_app; [apply closes_refl|].
    apply Forall2_app; [|apply closes_refl]. unfold bars_at. cbn [flat_map]. cbn [at6 v0 v1 v2 v3 v4 v5]. rewrite app_nil_r.
    apply Forall2_app; [exact K0|]. apply Forall2_app; [exact K1|]. apply Forall2_app; [exact K2|]. apply Forall2_app; [exact K3|]. apply Forall2_app; [exact K4|exact K5].
  - intros T999 PR fuel Fu. assert (FT : Forall op_fits pic).
    { unfold pic. rewrite !Forall_app. 
      split; [eapply close_smalls; [exact C0|]; apply arm_small; try lra; [apply vx_ok|apply vy_ok]|].
      split; [eapply close_smalls; [exact C1|]; apply arm_small; try lra; [apply vx_ok|apply vz_ok]|].
      split; [exact (FM T999)|]. split; [|split; [auto 10|]].
      - constructor; [|constructor]. unfold header_at. cbv zeta in PR. destruct PR as [P1 P2]. apply text_fits; [lia| |].
        + destruct (r_method _); cbn [app]; repeat (constructor; [unfold printable; lia|]); exact P1.
        + destruct (r_method _); cbn [app]; rewrite !zlen_cons; lia.
      - apply Forall_flat_map, Forall_forall. intros k K. apply in_seq in K. apply box_fits. lia. }
    destruct (C71_pixels fuel pic blank (proj1 blank_ok) FT Fu) as (b & Ss & P & SHP & AD).
    destruct (C73_sent b (proj1 AD)) as (ps & EP & _ & _ & FL). exists b, Ss, ps. split; [exact P|]. split; [exact SHP|]. split; [|split; assumption].
    intros i j O. rewrite (proj2 AD i j O). rewrite (proj2 blank_ok). split; [intros [X|X]; [discriminate|exact X]|auto].
Qed.
Print Assumptions C65_picture_ieee.

(** ** the kit *)
Lemma kit_geometry_span : (span kit_geometry <= 30000)%R.
Proof.
  assert (N : forall v : vecR, (dot3 v v <= 1000)%R -> (norm3R v <= 1000)%R).
  { intros v H. unfold norm3R. apply Rle_trans with (sqrt (1000 * 1000)); [apply sqrt_le_1_alt; lra|]. rewrite sqrt_square; lra. }
  unfold span, kit_geometry. cbn [g0 g1 g2 g3 g4].
  repeat match goal with |- context [norm3R ?v] => let n := fresh "n" in let H := fresh "H" in
    assert (H : (norm3R v <= 1000)%R) by (apply N; unfold dot3; cbn [vx vy vz]; lra); set (n := norm3R v) in *; clearbody n end. lra.
Qed.
Lemma kit_servo_table (L : libm) : servo_table L (kit_mn L) (kit_mx L) (fun _ => 3%R) (fun _ => 0%R) (kit_servos (IEEE L)).
Proof.
  destruct (C30_kit_calibrated_ieee L) as [H _]. unfold servo_table, axes, wide, kit_mn, kit_mx in *. cbn [at6 kit_servos v0 v1 v2 v3 v4 v5] in *.
  destruct H as (H0 & H1 & H2 & H3 & H4 & H5).
  split; [split; [exact H0|]|]; [split; [lits; lra|]; split; [apply (fv_zero 24 128 false)|lits; lra]|].
  split; [split; [exact H1|]|]; [split; [lits; lra|]; split; [apply (fv_zero 24 128 false)|lits; lra]|].
  split; [split; [exact H2|]|]; [split; [lits; lra|]; split; [apply (fv_zero 24 128 false)|lits; lra]|].
  split; [split; [exact H3|]|]; [split; [lits; lra|]; split; [apply (fv_zero 24 128 false)|lits; lra]|].
  split; [split; [exact H4|]|]; [split; [lits; lra|]; split; [apply (fv_zero 24 128 false)|lits; lra]|].
  split; [exact H5|]. split; [lits; lra|]. split; [apply (fv_zero 24 128 false)|lits; lra].
Qed.
(** the display of the shipped arm *)
Theorem C65_kit_ieee : forall (L : libm), let A := IEEE L in let K := kin_new A (kit_geom A) in
  forall pinMap print print1 sgn axs junk mem l s0 stims (past : nat -> list stim) (w : nat -> sys A) (tr : nat -> list (sys_ev A)),
  accurate L -> zlen pinMap = 10 -> zlen junk = 300 -> holds sgn mem l -> Forall (fun m => zlen m <= 80) l ->
  sys_boot A (kin_forward A K) (kit_p2l A) (kit_servos A) axs junk mem = Ok s0 ->
  host_ok (spec_boot l) (map CChar (arrivals stims)) ->
  (forall k, exists future, stims = past k ++ future /\
     sys_run A (kin_forward A K) (kin_inv A K) (kit_l2p A) (kit_p2l A) (kit_limits A) pinMap print sgn s0 (past k) = Ok (w k, tr k) /\ numbers (commanded (tr k))) ->
  let state := snd (spec_run (spec_boot l) (mcp_events (tr 3%nat))) in
  exists pic a0 a1 (t c : Z -> R),
    reads (current_logical A (kit_p2l A) (d_robot (y_dev (w 0%nat)))) a0 /\ reads (current_logical A (kit_p2l A) (d_robot (y_dev (w 1%nat)))) a1 /\
    axes (fun i => v32 (s_target (at6 (r_servos (d_robot (y_dev (w (4 + 2 * Z.to_nat i)%nat)))) i)) (t i) /\
                   v32 (s_cur (at6 (r_servos (d_robot (y_dev (w (5 + 2 * Z.to_nat i)%nat)))) i)) (c i)) /\
    render A (kit_p2l A) K pinMap print1 w = Ok pic /\
    Forall2 close pic (arm_lines vx vy 10 20 kit_geometry a0 ++ arm_lines vx vz 35 28 kit_geometry a1 ++ mode_of state ++ [header_at print1 (w 2%nat)] ++
      bars_at (kit_mn L) (kit_mx L) (fun _ => 0%R) t c ++ boxes_at pinMap w) /\
    ((smode state = EEPROM -> snext state <= 999 /\ zlen (slog state) <= 999) ->
     (let speed := print1 (r_maxvel (d_robot (y_dev (w 2%nat)))) in Forall printable speed /\ zlen speed <= 15) ->
     forall fuel, 65536 <= Z.of_nat fuel -> exists frame shapes packets, paint fuel blank pic = Ok frame /\
       Forall2 shape_of pic shapes /\ (forall i j, on_screen i j -> (lit frame i j = true <-> exists S, In S shapes /\ S i j)) /\
       send_frame 32 frame 0 = Ok packets /\ flat_map (@tl Z) packets = frame).
Proof.
  intros L A K pinMap print print1 sgn axs junk mem l s0 stims past w tr HL PM J HO L80 B HOK W state.
  exact (C65_picture_ieee L (kin_forward A K) (kin_inv A K) (kit_l2p A) (kit_p2l A) (kit_limits A) pinMap print print1 sgn 13 (kit_geom A) kit_geometry
    (kit_mn L) (kit_mx L) (fun _ => 3%R) (fun _ => 0%R) (kit_servos A) axs junk mem l s0 stims past w tr HL ltac:(unfold okM; lra) ltac:(lra) (C41_kit_table L) kit_geometry_span PM
    (kit_p2l_fin L) (kit_servo_table L) J HO L80 B HOK W).
Qed.
Print Assumptions C65_kit_ieee.

(** ** The hypotheses are met: the kit, just switched on, while the ten bytes of an instruction arrive; the k-th read sees the first k bytes *)
Example C65_ieee_reachable : forall (L : libm), let A := IEEE L in let K := kin_new A (kit_geom A) in forall print sgn junk, zlen junk = 300 ->
  exists s0 (w : nat -> sys A) tr, sys_boot A (kin_forward A K) (kit_p2l A) (kit_servos A) [] junk (repeat 0 2048) = Ok s0 /\ accurate PropKinFloat.good_libm /\
    host_ok (spec_boot []) (map CChar (arrivals (map SArrive demo_pose))) /\ holds sgn (repeat 0 2048) [] /\ y_rx (w 10%nat) = demo_pose /\
    (forall k, exists future, map SArrive demo_pose = bytes_in k ++ future /\
       sys_run A (kin_forward A K) (kin_inv A K) (kit_l2p A) (kit_p2l A) (kit_limits A) kit_pinMap print sgn s0 (bytes_in k) = Ok (w k, tr k) /\ numbers (commanded (tr k))) /\
    smode (snd (spec_run (spec_boot []) (mcp_events (tr 3%nat)))) <> EEPROM.
Proof.
  intros L A K print sgn junk J.
  assert (HO : holds sgn (repeat 0 2048) []).
  { split; [reflexivity|]. split; [constructor|]. exists (repeat 0 2047). reflexivity. }
  destruct (c_boot_inv sgn junk (repeat 0 2048) [] J HO ltac:(constructor)) as (m & E & _).
  set (s0 := mkSys (dev_boot A (kin_forward A K) (kit_p2l A) (kit_servos A) []) m [] PRobot1).
  assert (AR : forall l s, sys_run A (kin_forward A K) (kin_inv A K) (kit_l2p A) (kit_p2l A) (kit_limits A) kit_pinMap print sgn s (map SArrive l) =
                 Ok (mkSys (y_dev s) (y_mcp s) (y_rx s ++ l) (y_phase s), [])).
  { induction l as [|c l IH]; intros s; cbn [map sys_run sys_step bind].
    - rewrite app_nil_r. destruct s; reflexivity.
    - rewrite IH. cbn [bind y_dev y_mcp y_rx y_phase app]. rewrite <- app_assoc. reflexivity. }
  exists s0, (fun k => mkSys (y_dev s0) m (firstn k demo_pose) PRobot1), (fun _ => []).
  split; [unfold sys_boot; rewrite E; reflexivity|]. split; [exact C41_accurate_exists|].
  split; [replace (arrivals (map SArrive demo_pose)) with demo_pose by reflexivity; vm_compute; splits; auto; discriminate|]. split; [exact HO|]. split; [reflexivity|]. split; [|discriminate].
  intros k. exists (map SArrive (skipn k demo_pose)). split; [unfold bytes_in; rewrite <- map_app, firstn_skipn; reflexivity|]. split; [unfold bytes_in; rewrite AR; reflexivity|constructor].
Qed.
