(** * PropDisplay: what the display shows (C65). *)
From Coq Require Import Reals Lra.
From Verif Require Import Base Arith RingModel RingSpec RingProofs EepromModel EepromSpec EepromProofs ServoModel ServoSpec ServoProofs
  RobotModel RobotSpec RobotProofs RobotExact PropRobot KinModel KinSpec KinProofs PropKin IoModel MrilModel McpModel McpSpec McpProofs
  DeviceModel SystemModel SystemSpec SystemProofs SystemSafe SystemQueue SystemMore PropProgress PropMotion ConfigModel PropKit DisplayModel.
Set Default Goal Selector "!".

(** ** Specification *)
(** the column, 0 to 64, of an angle in the range of the servo [c] *)
Definition column (c : servo RA) (a : R) : Z := Int_part (64 * (a - s_min c) / (s_max c - s_min c))%R.
(** three rows of a bar: a mark at the home position, a line from there to the target, a line from
    there to the current angle *)
Definition bar_of (row : Z) (c : servo RA) (target current : R) : list draw :=
  let home := column c (s_home c) in
  let line a r := FillRect (64 + Z.min home (column c a)) r (Z.abs (column c a - home)) 1 in
  [FillRect (64 + home) row 1 3; line target (row + 1); line current (row + 2)].

(** the arm, as lines between its consecutive joints: one pixel per unit to the right, half a pixel per unit
    upwards, [u] to the right and [v] upwards *)
Definition arm_lines (u v : V3 R -> R) (x y : R) (g : geom R) (joints : V6 R) : list draw :=
  let C := calculate_coordinates RA (kin_new RA g) joints in
  let col p := rtrunc (x + u p) in let row p := rtrunc (y - v p / 2) in
  let line p q := DrawLine (col p) (row p) (col q) (row q) in
  [line (c_j0 _ C) (c_j1 _ C); line (c_j1 _ C) (c_j2 _ C); line (c_j2 _ C) (c_j3 _ C);
   line (c_j3 _ C) (c_j4 _ C); line (c_j4 _ C) (c_j5 _ C)].

(** the box of logical pin i: filled when the first pending condition on its pin waits for high, an outline when
    it waits for low, flat when there is none *)
Definition box_of (pinMap : list Z) (pending : list (Z * Z)) (i : Z) : list draw :=
  let x := 70 + 6 * i in
  match find (fun c => fst c =? nth (Z.to_nat i) pinMap 0) pending with
  | None => [DrawRect x 28 4 1]
  | Some (_, st) => if st =? 0 then [DrawRect x 28 4 3] else if st =? 1 then [FillRect x 28 4 3]
                    else if st =? 2 then [DrawRect x 28 4 1] else []
  end.

(** in queue mode the occupied and the total bytes of the queue, in EEPROM mode the next and the number of the
    stored instructions *)
Definition mode_of (t : sstate) : list draw :=
  match smode t with
  | QUEUE => [DrawText 72 0 (66 :: 32 :: int_chars (space (squeue t)) ++ 47 :: int_chars 300)]
  | EEPROM => [DrawText 72 0 (87 :: 32 :: int_chars (snext t) ++ 47 :: int_chars (zlen (slog t)))]
  | _ => []
  end.

(** inside the rectangle [x0, x1) x [y0, y1) *)
Definition fill_inside (x0 x1 y0 y1 : Z) (d : draw) : Prop :=
  match d with FillRect x y w h => x0 <= x /\ x + w <= x1 /\ y0 <= y /\ y + h <= y1 /\ 0 <= w /\ 0 <= h | _ => False end.

Definition span (g : geom R) : R := (norm3R (g0 g) + norm3R (g1 g) + norm3R (g2 g) + norm3R (g3 g) + norm3R (g4 g))%R.

(** ** Proofs *)
(** the home position is configuration *)
Definition same_home {A} (s s' : V6 (servo A)) : Prop := axes (fun i => s_home (at6 s' i) = s_home (at6 s i)).
Section Home.
Context (A : arith) (fwd : V6 (F A) -> V6 (F A)) (inv : V6 (F A) -> option (V6 (F A))).
Context (l2p p2l : V6 (F A) -> V6 (F A)) (limits : V6 (F A * F A)).
Lemma same_home_refl (s : V6 (servo A)) : same_home s s.
Proof. unfold same_home, axes. auto 10. Qed.
Lemma process_home (s s' : servo A) dt p : servo_process A s dt = Ok (s', p) -> s_home s' = s_home s.
Proof.
  unfold servo_process. destruct (servo_move A _); [|discriminate]. cbn [bind]. intros H; injection H as <- _.
  unfold servo_advance. cbv zeta.
  repeat match goal with |- context [if ?b then _ else _] => destruct b end; reflexivity.
Qed.
Lemma step_home (r r' : robot A) o e : r_step A fwd inv l2p p2l limits r o = Ok (r', e) -> same_home (r_servos r) (r_servos r').
Proof.
  intros H. destruct o.
  1-2,4-5,6-9: cbn in H; inversion H; subst; cbn; apply same_home_refl.
  - cbn in H. unfold set_angle in H. destruct ((0 <=? i) && (i <? 6)); [|discriminate].
    cbn in H; inversion H; subst; cbn; apply same_home_refl.
  - cbn [r_step] in H. apply process_cases in H as [[_ ->]|(rs & H & <- & _)]; [apply same_home_refl|].
    apply start_move_commands in H as [[_ ->]|(tl & vels & _ & _ & _ & ->)]; [apply same_home_refl|].
    assert (C : forall (s : servo A) v a, s_home (servo_set_target A (servo_set_vel A s v) a) = s_home s).
    { intros s v a. unfold servo_set_vel. destruct (flt A _ _); [reflexivity|]. destruct (fle A _ _); reflexivity. }
    unfold same_home, axes. cbn [at6 zip6 v0 v1 v2 v3 v4 v5 fst snd].
    split; [|split; [|split; [|split; [|split]]]]; apply C.
  - apply step_tick in H as [H ->]. unfold r_tick in H.
    repeat match type of H with
    | bind (bind ?x _) _ = _ => let E := fresh "E" in destruct x as [[? ?]|] eqn:E; cbn [bind] in H; [|discriminate];
         apply process_home in E
    end.
    injection H as <-. unfold same_home, axes; cbn. auto 10.
Qed.
Lemma run_home os : forall (r r' : robot A) e, r_run A fwd inv l2p p2l limits r os = Ok (r', e) -> same_home (r_servos r) (r_servos r').
Proof.
  induction os as [|o os IH]; intros r r' e H; cbn [r_run] in H; [injection H as <- <-; apply same_home_refl|].
  destruct (r_step A fwd inv l2p p2l limits r o) as [[r1 e1]|] eqn:E1; cbn [bind] in H; [|discriminate].
  destruct (r_run A fwd inv l2p p2l limits r1 os) as [[r2 e2]|] eqn:E2; cbn [bind] in H; [|discriminate]. injection H as <- <-.
  apply step_home in E1. apply IH in E2. unfold same_home, axes in *. intuition congruence.
Qed.
End Home.

Lemma i16_id z : -32768 <= z <= 32767 -> i16 z = z.
Proof. intros H. unfold i16. rewrite Z.mod_small; lia. Qed.

Lemma to_i16_RA (x : R) : (Rabs x <= 32767)%R -> to_i16 RA x = Ok (rtrunc x).
Proof.
  intros H. assert (Q : (- 32767 <= x <= 32767)%R) by (split_Rabs; lra). unfold to_i16. cbn [ftoz RA].
  assert (K : -32768 <= rtrunc x <= 32767).
  { destruct (Rle_lt_dec 0 x) as [P|N].
    - destruct (rtrunc_pos x P) as [[L U] Z0]. split; [lia|]. apply le_IZR. lra.
    - unfold rtrunc. destruct (Rle_dec 0 x); [lra|]. destruct (base_Int_part (- x)) as [L U].
      assert (IZR (Int_part (- x)) <= 32767)%R by lra. apply le_IZR in H0.
      assert (-1 < IZR (Int_part (- x)))%R by lra. apply lt_IZR in H1. lia. }
  replace ((-32768 <=? rtrunc x) && (rtrunc x <=? 32767)) with true; [reflexivity|].
  symmetry. apply andb_true_iff. split; apply Z.leb_le; lia.
Qed.

Lemma comp_le (v : vecR) (c : vecR -> R) : (forall w, c w * c w <= dot3 w w)%R -> (Rabs (c v) <= norm3R v)%R.
Proof.
  intros H. unfold norm3R. rewrite <- sqrt_Rsqr_abs. apply sqrt_le_1_alt. apply H.
Qed.
Lemma far (p q : vecR) (c : vecR -> R) : (forall w, c w * c w <= dot3 w w)%R -> (forall a b, c (sub3 a b) = c a - c b)%R ->
  (Rabs (c p) <= Rabs (c q) + dist p q)%R.
Proof.
  intros H L. pose proof (comp_le (sub3 p q) c H) as K. rewrite L in K. unfold dist. split_Rabs; lra.
Qed.
Lemma arm_bound (g : geom R) (j : V6 R) (c : vecR -> R) : (forall w, c w * c w <= dot3 w w)%R -> (forall a b, c (sub3 a b) = c a - c b)%R ->
  c zero3 = 0%R ->
  let C := calculate_coordinates RA (kin_new RA g) j in
  (Rabs (c (c_j0 _ C)) <= span g /\ Rabs (c (c_j1 _ C)) <= span g /\ Rabs (c (c_j2 _ C)) <= span g /\
   Rabs (c (c_j3 _ C)) <= span g /\ Rabs (c (c_j4 _ C)) <= span g /\ Rabs (c (c_j5 _ C)) <= span g)%R.
Proof.
  intros H L Z. cbv zeta. destruct (C41_rigid_chain g j) as (E0 & E1 & E2 & E3 & E4 & E5).
  pose proof (far (c_j1 _ (calculate_coordinates RA (kin_new RA g) j)) (c_j0 _ (calculate_coordinates RA (kin_new RA g) j)) c H L) as F1.
  pose proof (far (c_j2 _ (calculate_coordinates RA (kin_new RA g) j)) (c_j1 _ (calculate_coordinates RA (kin_new RA g) j)) c H L) as F2.
  pose proof (far (c_j3 _ (calculate_coordinates RA (kin_new RA g) j)) (c_j2 _ (calculate_coordinates RA (kin_new RA g) j)) c H L) as F3.
  pose proof (far (c_j4 _ (calculate_coordinates RA (kin_new RA g) j)) (c_j3 _ (calculate_coordinates RA (kin_new RA g) j)) c H L) as F4.
  pose proof (far (c_j5 _ (calculate_coordinates RA (kin_new RA g) j)) (c_j4 _ (calculate_coordinates RA (kin_new RA g) j)) c H L) as F5.
  rewrite E1 in F1. rewrite E2 in F2. rewrite E3 in F3. rewrite E4 in F4. rewrite E5 in F5. rewrite E0, Z, Rabs_R0 in F1. rewrite E0, Z, Rabs_R0.
  assert (P : forall v, (0 <= norm3R v)%R) by (intros; apply sqrt_pos).
  pose proof (P (g0 g)). pose proof (P (g1 g)). pose proof (P (g2 g)). pose proof (P (g3 g)). pose proof (P (g4 g)).
  unfold span. repeat (split; [lra|]). lra.
Qed.
Lemma vx_ok : (forall w : vecR, vx w * vx w <= dot3 w w)%R /\ (forall a b : vecR, vx (sub3 a b) = vx a - vx b)%R /\ vx zero3 = 0%R.
Proof. split; [intros; unfold dot3; nra|]. split; reflexivity. Qed.
Lemma vy_ok : (forall w : vecR, vy w * vy w <= dot3 w w)%R /\ (forall a b : vecR, vy (sub3 a b) = vy a - vy b)%R /\ vy zero3 = 0%R.
Proof. split; [intros; unfold dot3; nra|]. split; reflexivity. Qed.
Lemma vz_ok : (forall w : vecR, vz w * vz w <= dot3 w w)%R /\ (forall a b : vecR, vz (sub3 a b) = vz a - vz b)%R /\ vz zero3 = 0%R.
Proof. split; [intros; unfold dot3; nra|]. split; reflexivity. Qed.

Lemma half_RA : @eq R (half RA) (1 / 2)%R.
Proof. unfold half. cbn [d2f ddec RA]. unfold rdec, powerRZ. replace (Pos.to_nat 1) with 1%nat by reflexivity. cbn [pow]. field. Qed.

Lemma line_RA (u v : vecR -> R) x y (p q : vecR) S :
  0 <= x <= 127 -> 0 <= y <= 127 -> (Rabs (u p) <= S)%R -> (Rabs (v p) <= S)%R -> (Rabs (u q) <= S)%R -> (Rabs (v q) <= S)%R -> (S <= 30000)%R ->
  joint_line RA u v x y (half RA) p q =
  Ok (DrawLine (rtrunc (IZR x + u p)) (rtrunc (IZR y - v p / 2)) (rtrunc (IZR x + u q)) (rtrunc (IZR y - v q / 2))).
Proof.
  intros X Y Up Vp Uq Vq HS. unfold joint_line. cbv zeta. rewrite half_RA. cbn [fadd fmul fopp fofz RA].
  assert (IX : (0 <= IZR x <= 127)%R) by (split; apply IZR_le; lia). assert (IY : (0 <= IZR y <= 127)%R) by (split; apply IZR_le; lia).
  assert (EU : forall p, (IZR x + u p * (1 / 2) * 2 = IZR x + u p)%R) by (intros; field).
  assert (EV : forall p, (IZR y + - v p * (1 / 2) = IZR y - v p / 2)%R) by (intros; field).
  rewrite !EU, !EV.
  rewrite !to_i16_RA by (split_Rabs; lra). reflexivity.
Qed.

Lemma bind_ok {X Y} (e : res X) v (f : X -> res Y) : e = Ok v -> bind e f = f v.
Proof. intros ->. reflexivity. Qed.
Lemma robot_RA (p2l : V6 R -> V6 R) (g : geom R) (r : robot RA) x y top : (span g <= 30000)%R -> 0 <= x <= 127 -> 0 <= y <= 127 ->
  display_robot RA p2l (kin_new RA g) r x y (half RA) top =
  Ok (arm_lines vx (if top then vy else vz) (IZR x) (IZR y) g (current_logical RA p2l r)).
Proof.
  intros H X Y. unfold display_robot, arm_lines. cbv zeta.
  set (j := current_logical RA p2l r). 
  pose proof (arm_bound g j vx (proj1 vx_ok) (proj1 (proj2 vx_ok)) (proj2 (proj2 vx_ok))) as BX. cbv zeta in BX.
  assert (BV := arm_bound g j (if top then vy else vz)). cbv zeta in BV.
  destruct BV as (V0 & V1 & V2 & V3 & V4 & V5); [destruct top; [apply vy_ok|apply vz_ok]|destruct top; [apply vy_ok|apply vz_ok]|destruct top; reflexivity|].
  destruct BX as (U0 & U1 & U2 & U3 & U4 & U5).
  rewrite (bind_ok _ _ _ (line_RA vx (if top then vy else vz) x y _ _ (span g) X Y U0 V0 U1 V1 H)).
  rewrite (bind_ok _ _ _ (line_RA vx (if top then vy else vz) x y _ _ (span g) X Y U1 V1 U2 V2 H)).
  rewrite (bind_ok _ _ _ (line_RA vx (if top then vy else vz) x y _ _ (span g) X Y U2 V2 U3 V3 H)).
  rewrite (bind_ok _ _ _ (line_RA vx (if top then vy else vz) x y _ _ (span g) X Y U3 V3 U4 V4 H)).
  rewrite (bind_ok _ _ _ (line_RA vx (if top then vy else vz) x y _ _ (span g) X Y U4 V4 U5 V5 H)).
  reflexivity.
Qed.

(** bars *)
Lemma column_range (c : servo RA) (a : R) : (s_min c < s_max c)%R -> (s_min c <= a <= s_max c)%R -> 0 <= column c a <= 64.
Proof.
  intros H1 H2. unfold column. set (q := (64 * (a - s_min c) / (s_max c - s_min c))%R).
  assert (Q : (0 <= q <= 64)%R).
  { unfold q. assert (I : (0 < / (s_max c - s_min c))%R) by (apply Rinv_0_lt_compat; lra). split.
    - unfold Rdiv. apply Rmult_le_pos; [lra|lra].
    - unfold Rdiv. apply (Rmult_le_reg_r (s_max c - s_min c)); [lra|]. rewrite Rmult_assoc, Rinv_l, Rmult_1_r by lra. lra. }
  destruct (base_Int_part q) as [L U]. split.
  - assert (-1 < IZR (Int_part q))%R by lra. apply lt_IZR in H. lia.
  - apply le_IZR. lra.
Qed.
Lemma column_lt (c : servo RA) (a : R) : (s_min c < s_max c)%R -> (s_min c <= a < s_max c)%R -> column c a < 64.
Proof.
  intros H1 H2. unfold column. set (q := (64 * (a - s_min c) / (s_max c - s_min c))%R).
  assert (Q : (q < 64)%R).
  { unfold q, Rdiv. apply (Rmult_lt_reg_r (s_max c - s_min c)); [lra|]. rewrite Rmult_assoc, Rinv_l, Rmult_1_r by lra. lra. }
  destruct (base_Int_part q) as [L U]. apply lt_IZR. lra.
Qed.
(** the configuration of a servo *)
Definition configured (c s : servo RA) : Prop := s_min s = s_min c /\ s_max s = s_max c /\ s_home s = s_home c.
Lemma bar_pixel_RA (c s : servo RA) a : configured c s -> (s_min c < s_max c)%R -> (s_min c <= a <= s_max c)%R ->
  bar_pixel RA s a 64 = Ok (column c a).
Proof.
  intros (E1 & E2 & _) H1 H2. unfold bar_pixel. rewrite E1, E2.
  assert (M : @eq R (map_float RA a (s_min c) (s_max c) (fofz RA 0) (fofz RA 64)) (64 * (a - s_min c) / (s_max c - s_min c))%R).
  { unfold map_float. cbn [fadd fdiv fmul fsub fofz RA]. field. lra. }
  rewrite M.
  assert (P : (0 <= 64 * (a - s_min c) / (s_max c - s_min c))%R).
  { unfold Rdiv. apply Rmult_le_pos; [lra|]. apply Rlt_le, Rinv_0_lt_compat. lra. }
  assert (T : rtrunc (64 * (a - s_min c) / (s_max c - s_min c)) = column c a).
  { unfold rtrunc. destruct (Rle_dec _ _); [reflexivity|contradiction]. }
  pose proof (column_range c a H1 H2). rewrite to_int_RA; [|rewrite T; lia]. rewrite T. reflexivity.
Qed.
Lemma bar_line_ok row n m : 0 <= n <= 64 -> 0 <= m <= 64 -> 0 <= row <= 100 ->
  bar_line 64 row 64 n m = Ok (FillRect (64 + Z.min n m) row (Z.abs (m - n)) 1).
Proof.
  intros N M R. unfold bar_line, int_sub.
  replace ((-2147483648 <=? n - m) && (n - m <=? 2147483647)) with true by (symmetry; apply andb_true_iff; split; apply Z.leb_le; lia).
  replace ((-2147483648 <=? m - n) && (m - n <=? 2147483647)) with true by (symmetry; apply andb_true_iff; split; apply Z.leb_le; lia).
  cbn [bind]. destruct (Z.ltb_spec 0 (n - m)); rewrite !i16_id by lia; do 2 f_equal; lia.
Qed.
Lemma bar_RA row (c st sc : servo RA) : 0 <= row <= 90 -> (s_min c < s_max c)%R -> (s_min c <= s_home c <= s_max c)%R ->
  configured c st -> configured c sc -> (s_min c <= s_target st <= s_max c)%R -> (s_min c <= s_cur sc <= s_max c)%R ->
  display_bar RA 64 row 64 st sc = Ok (bar_of row c (s_target st) (s_cur sc)).
Proof.
  intros R H HH Ct Cc Ht Hc. unfold display_bar.
  destruct Ct as (T1 & T2 & T3). rewrite T3.
  pose proof (column_range c _ H HH). pose proof (column_range c _ H Ht). pose proof (column_range c _ H Hc).
  rewrite (bar_pixel_RA c st _ (conj T1 (conj T2 T3)) H HH). cbn [bind].
  rewrite (bar_pixel_RA c st _ (conj T1 (conj T2 T3)) H Ht). cbn [bind].
  rewrite (bar_pixel_RA c sc _ Cc H Hc). cbn [bind].
  rewrite !bar_line_ok by lia. cbn [bind]. rewrite !i16_id by lia. unfold bar_of. reflexivity.
Qed.

(** inputs *)
Lemma box_ok pinMap io i : 0 <= i < zlen pinMap -> io_box pinMap io i = Ok (box_of pinMap io i).
Proof.
  intros H. unfold io_box, io_getTargetState. rewrite (zget_ok _ _ 0) by exact H. cbn [bind]. unfold box_of.
  set (p := nth (Z.to_nat i) pinMap 0). clearbody p. f_equal.
  assert (E : io_findState io p = match find (fun c => fst c =? p) io with Some (_, st) => st | None => 2 end).
  { induction io as [|[q st] io IH]; [reflexivity|]. cbn [io_findState find fst]. destruct (q =? p); [reflexivity|exact IH]. }
  rewrite E. destruct (find _ io) as [[q st]|]; reflexivity.
Qed.
Lemma boxes_ok pinMap (w : nat -> sys RA) : zlen pinMap = 10 ->
  io_boxes RA pinMap w 10 0 =
  Ok (flat_map (fun k => box_of pinMap (d_io (y_dev (w (16 + k)%nat))) (Z.of_nat k)) (seq 0 10)).
Proof.
  intros P. cbn [io_boxes]. rewrite !box_ok by (rewrite P; lia). cbn [bind]. cbn [flat_map seq app]. rewrite ?app_nil_r. reflexivity.
Qed.

(** mode *)
Lemma mode_ok sgn s t : CInv sgn s t -> mode_text (cm s) = Ok (mode_of t).
Proof.
  intros (_ & _ & _ & RW & RC & RB & _ & HO & _ & EP & _ & MM & NH). unfold mode_text, mode_of. rewrite MM.
  destruct (smode t); try reflexivity.
  - rewrite RC. unfold ring_getSize. rewrite <- (zlen_rabs _ RW), RB, <- space_enc. reflexivity.
  - rewrite (holds_count _ _ _ HO). cbn [bind]. rewrite EP. reflexivity.
Qed.

(** ** C65 The picture.

    Every schedule [stims] of bytes, timer interrupts and loop steps that conforms to the framing; the display is
    drawn from states [w k] seen at whatever moments [past k] of that schedule (timer interrupts come between the
    reads).  With servos whose home position is in their range and an arm shorter than 30000 units, drawing is
    always defined and shows: the arm from above and from the front, the mode, method and speed, the six bars, and
    the awaited inputs - each as it is at the moment it is read. *)
Definition shafts (s : sys RA) : V6 R := map6 s_cur (r_servos (d_robot (y_dev s))).
Definition targets (s : sys RA) : V6 R := map6 s_target (r_servos (d_robot (y_dev s))).
Definition header_of (print1 : R -> list Z) (s : sys RA) : draw :=
  DrawText 0 0 ((match r_method (d_robot (y_dev s)) with P2P => [77; 48; 48] | LINEAR => [77; 48; 49] | CIRCULAR => [77; 48; 50] end)
                ++ [32; 86; 32] ++ print1 (r_maxvel (d_robot (y_dev s)))).
Definition bars_of (servos : V6 (servo RA)) (w : nat -> sys RA) : list draw :=
  flat_map (fun i => bar_of (8 + 3 * i) (at6 servos i) (at6 (targets (w (4 + 2 * Z.to_nat i)%nat)) i) (at6 (shafts (w (5 + 2 * Z.to_nat i)%nat)) i))
           [0; 1; 2; 3; 4; 5].

Lemma reached_bars fwd inv l2p p2l limits pinMap print sgn (servos : V6 (servo RA)) axs junk mem s0 past s tr :
  axes (fun i => working (at6 servos i)) -> sys_boot RA fwd p2l servos axs junk mem = Ok s0 ->
  sys_run RA fwd inv l2p p2l limits pinMap print sgn s0 past = Ok (s, tr) ->
  axes (fun i => let x := at6 (r_servos (d_robot (y_dev s))) i in configured (at6 servos i) x /\
    (s_min (at6 servos i) <= s_target x <= s_max (at6 servos i))%R /\ (s_min (at6 servos i) <= s_cur x <= s_max (at6 servos i))%R).
Proof.
  intros H B R.
  destruct (C32_system_servos_inside fwd inv l2p p2l limits pinMap print sgn servos axs junk mem s0 past s tr H B R) as [K _].
  destruct (robot_projection RA fwd inv l2p p2l limits pinMap print sgn _ _ _ _ R) as (os & evs & RR & _ & _).
  unfold sys_boot in B. destruct (c_boot junk mem); cbn [bind] in B; [|discriminate]. injection B as <-.
  cbn [y_dev dev_boot d_robot] in RR. pose proof (run_limits _ _ _ _ _ _ _ _ _ _ RR) as L. apply run_home in RR.
  cbn [r_servos with_maxvel with_method robot_new with_targets] in L, RR.
  unfold same_limits, same_home, configured, axes in *. cbv zeta in *.
  destruct K as (K0 & K1 & K2 & K3 & K4 & K5). destruct L as ((A0 & B0) & (A1 & B1) & (A2 & B2) & (A3 & B3) & (A4 & B4) & (A5 & B5)).
  destruct RR as (R0 & R1 & R2 & R3 & R4 & R5).
  split; [tauto|]. split; [tauto|]. split; [tauto|]. split; [tauto|]. split; tauto.
Qed.

Theorem C65_picture : forall fwd inv l2p p2l limits pinMap print print1 sgn (g : geom R) (servos : V6 (servo RA)) axs junk mem l s0 stims
    (past : nat -> list stim) (w : nat -> sys RA) (tr : nat -> list (sys_ev RA)),
  (span g <= 30000)%R -> zlen pinMap = 10 ->
  axes (fun i => working (at6 servos i) /\ (s_min (at6 servos i) <= s_home (at6 servos i) <= s_max (at6 servos i))%R) ->
  zlen junk = 300 -> holds sgn mem l -> Forall (fun m => zlen m <= 80) l -> sys_boot RA fwd p2l servos axs junk mem = Ok s0 ->
  host_ok (spec_boot l) (map CChar (arrivals stims)) ->
  (forall k, exists future, stims = past k ++ future /\
     sys_run RA fwd inv l2p p2l limits pinMap print sgn s0 (past k) = Ok (w k, tr k)) ->
  render RA p2l (kin_new RA g) pinMap print1 w =
  Ok (arm_lines vx vy 10 20 g (p2l (shafts (w 0%nat))) ++
      arm_lines vx vz 35 28 g (p2l (shafts (w 1%nat))) ++
      mode_of (snd (spec_run (spec_boot l) (mcp_events (tr 3%nat)))) ++
      [header_of print1 (w 2%nat)] ++
      bars_of servos w ++
      flat_map (fun k => box_of pinMap (d_io (y_dev (w (16 + k)%nat))) (Z.of_nat k)) (seq 0 10)).
Proof.
  intros fwd inv l2p p2l limits pinMap print print1 sgn g servos axs junk mem l s0 stims past w tr SP PM H J HO L80 B HOK W.
  assert (HW : axes (fun i => working (at6 servos i))) by (unfold axes in *; tauto).
  assert (RB : forall k, axes (fun i => let x := at6 (r_servos (d_robot (y_dev (w k)))) i in configured (at6 servos i) x /\
    (s_min (at6 servos i) <= s_target x <= s_max (at6 servos i))%R /\ (s_min (at6 servos i) <= s_cur x <= s_max (at6 servos i))%R)).
  { intros k. destruct (W k) as (fut & _ & R). eapply reached_bars; [exact HW|exact B|exact R]. }
  destruct (boot_run RA fwd p2l sgn junk mem l axs servos s0 J HO L80 B) as (CI & RX & _ & _).
  assert (M : mode_text (cm (y_mcp (w 3%nat))) = Ok (mode_of (snd (spec_run (spec_boot l) (mcp_events (tr 3%nat)))))).
  { destruct (W 3%nat) as (fut & E & R).
    destruct (run_spec RA fwd inv l2p p2l limits pinMap print sgn s0 (spec_boot l) (past 3%nat) (w 3%nat) (tr 3%nat) CI RX R) as (_ & CI' & _).
    - apply host_ok_polls with (rest := arrivals fut).
      replace (chars (map CChar (arrivals (past 3%nat)))) with (arrivals (past 3%nat)); [rewrite <- arrivals_app, <- E; exact HOK|].
      clear. induction (arrivals (past 3%nat)); cbn; congruence.
    - eapply mode_ok. exact CI'. }
  unfold render. rewrite !robot_RA by (try lia; exact SP). cbn [bind]. rewrite M. cbn [bind].
  rewrite boxes_ok by exact PM.
  assert (BS : display_bars RA w = Ok (bars_of servos w)); [|rewrite BS; reflexivity].
  unfold display_bars, view_servo. cbv zeta.
  unfold axes, working in H. cbv zeta in RB. unfold axes in RB. cbn [at6] in H, RB.
  destruct H as ((W0 & H0) & (W1 & H1) & (W2 & H2) & (W3 & H3) & (W4 & H4) & (W5 & H5)).
  rewrite (bar_RA (8 + 0 * 3) (v0 servos)) by (try lia; try apply W0; try apply H0; apply RB). cbn [bind].
  rewrite (bar_RA (8 + 1 * 3) (v1 servos)) by (try lia; try apply W1; try apply H1; apply RB). cbn [bind].
  rewrite (bar_RA (8 + 2 * 3) (v2 servos)) by (try lia; try apply W2; try apply H2; apply RB). cbn [bind].
  rewrite (bar_RA (8 + 3 * 3) (v3 servos)) by (try lia; try apply W3; try apply H3; apply RB). cbn [bind].
  rewrite (bar_RA (8 + 4 * 3) (v4 servos)) by (try lia; try apply W4; try apply H4; apply RB). cbn [bind].
  rewrite (bar_RA (8 + 5 * 3) (v5 servos)) by (try lia; try apply W5; try apply H5; apply RB). cbn [bind].
  unfold bars_of. cbn [flat_map]. rewrite app_nil_r. reflexivity.
Qed.

(** the bars stay in their part of the screen, columns 64 to 127 and rows 8 to 25, when the home position is below
    the upper limit *)
Theorem C65_bars_inside : forall fwd inv l2p p2l limits pinMap print sgn (servos : V6 (servo RA)) axs junk mem s0
    (past : nat -> list stim) (w : nat -> sys RA) (tr : nat -> list (sys_ev RA)),
  axes (fun i => working (at6 servos i) /\ (s_min (at6 servos i) <= s_home (at6 servos i) < s_max (at6 servos i))%R) ->
  sys_boot RA fwd p2l servos axs junk mem = Ok s0 ->
  (forall k, sys_run RA fwd inv l2p p2l limits pinMap print sgn s0 (past k) = Ok (w k, tr k)) ->
  Forall (fill_inside 64 128 8 26) (bars_of servos w).
Proof.
  intros fwd inv l2p p2l limits pinMap print sgn servos axs junk mem s0 past w tr H B W.
  assert (HW : axes (fun i => working (at6 servos i))) by (unfold axes in *; tauto).
  assert (RB : forall k, axes (fun i => let x := at6 (r_servos (d_robot (y_dev (w k)))) i in configured (at6 servos i) x /\
    (s_min (at6 servos i) <= s_target x <= s_max (at6 servos i))%R /\ (s_min (at6 servos i) <= s_cur x <= s_max (at6 servos i))%R)).
  { intros k. eapply reached_bars; [exact HW|exact B|exact (W k)]. }
  assert (BI : forall row c t x, 8 <= row <= 23 -> working c -> (s_min c <= s_home c < s_max c)%R -> (s_min c <= t <= s_max c)%R ->
             (s_min c <= x <= s_max c)%R -> Forall (fill_inside 64 128 8 26) (bar_of row c t x)).
  { intros row c t x R K Hh Ht Hx. destruct K as (K & _).
    pose proof (column_range c _ K Ht). pose proof (column_range c _ K Hx). pose proof (column_lt c _ K Hh).
    assert (Hh' : (s_min c <= s_home c <= s_max c)%R) by lra. pose proof (column_range c _ K Hh').
    unfold bar_of. cbv zeta.
    apply Forall_cons; [cbn [fill_inside]; lia|]. apply Forall_cons; [cbn [fill_inside]; lia|]. apply Forall_cons; [cbn [fill_inside]; lia|]. apply Forall_nil. }
  unfold axes in H. cbv zeta in RB. unfold axes in RB. cbn [at6] in H, RB.
  destruct H as ((W0 & H0) & (W1 & H1) & (W2 & H2) & (W3 & H3) & (W4 & H4) & (W5 & H5)).
  unfold bars_of, targets, shafts. cbn [flat_map map6 at6 v0 v1 v2 v3 v4 v5].
  apply Forall_app; split; [apply BI; [lia|exact W0|exact H0|apply RB|apply RB]|].
  apply Forall_app; split; [apply BI; [lia|exact W1|exact H1|apply RB|apply RB]|].
  apply Forall_app; split; [apply BI; [lia|exact W2|exact H2|apply RB|apply RB]|].
  apply Forall_app; split; [apply BI; [lia|exact W3|exact H3|apply RB|apply RB]|].
  apply Forall_app; split; [apply BI; [lia|exact W4|exact H4|apply RB|apply RB]|].
  apply Forall_app; split; [apply BI; [lia|exact W5|exact H5|apply RB|apply RB]|]. apply Forall_nil.
Qed.

(** a larger angle is never drawn further left, and the column is right to one pixel *)
Theorem C65_column : forall (c : servo RA) a b, (s_min c < s_max c)%R ->
  ((a <= b)%R -> column c a <= column c b) /\
  (IZR (column c a) <= 64 * (a - s_min c) / (s_max c - s_min c) < IZR (column c a) + 1)%R.
Proof.
  intros c a b H. split.
  - intros L. unfold column. set (p := (64 * (a - s_min c) / (s_max c - s_min c))%R). set (q := (64 * (b - s_min c) / (s_max c - s_min c))%R).
    assert (PQ : (p <= q)%R).
    { unfold p, q, Rdiv. apply Rmult_le_compat_r; [|lra]. apply Rlt_le, Rinv_0_lt_compat. lra. }
    destruct (base_Int_part p) as [L1 U1]. destruct (base_Int_part q) as [L2 U2].
    assert (IZR (Int_part p) < IZR (Int_part q) + 1)%R by lra. rewrite <- plus_IZR in H0. apply lt_IZR in H0. lia.
  - unfold column. set (p := (64 * (a - s_min c) / (s_max c - s_min c))%R). destruct (base_Int_part p) as [L1 U1]. lra.
Qed.

(** ** The hypotheses are met: the kit, just switched on, while the ten bytes of an instruction arrive; the k-th
    read sees the first k bytes received *)
Definition bytes_in (n : nat) : list stim := map SArrive (firstn n demo_pose).
Definition kit_g : geom R := mkGeom (mk3 (46/10) 0 (79/10))%R (mk3 0 0 (117/10))%R (mk3 1 0 (15/10))%R (mk3 (1215/100) 0 0)%R (mk3 0 0 (-3))%R.
Lemma kit_span : (span kit_g <= 30000)%R.
Proof.
  assert (N : forall v : vecR, (dot3 v v <= 1000)%R -> (norm3R v <= 1000)%R).
  { intros v H. unfold norm3R. apply Rle_trans with (sqrt (1000 * 1000)); [apply sqrt_le_1_alt; lra|]. rewrite sqrt_square; lra. }
  unfold span, kit_g. cbn [g0 g1 g2 g3 g4].
  repeat match goal with |- context [norm3R ?v] => let n := fresh "n" in let H := fresh "H" in
    assert (H : (norm3R v <= 1000)%R) by (apply N; unfold dot3; cbn [vx vy vz]; lra); set (n := norm3R v) in *; clearbody n end. lra.
Qed.
Lemma kit_working : axes (fun i => working (at6 (kit_servos RA) i) /\
  (s_min (at6 (kit_servos RA) i) <= s_home (at6 (kit_servos RA) i) < s_max (at6 (kit_servos RA) i))%R).
Proof.
  pose proof degree_big. unfold axes. cbn [at6]. unfold kit_servos, kit_servo, working.
  cbn [v0 v1 v2 v3 v4 v5 s_min s_max s_minF s_maxF s_start s_cur s_target s_maxvel s_vel s_home].
  rewrite !deg_RA. cbn [fofz RA]. splits; try lia; lra.
Qed.
Example C65_reachable : forall fwd inv l2p p2l limits print sgn junk, zlen junk = 300 ->
  exists s0 (w : nat -> sys RA) tr pic,
    sys_boot RA fwd p2l (kit_servos RA) [] junk (repeat 0 2048) = Ok s0 /\
    (forall k, sys_run RA fwd inv l2p p2l limits kit_pinMap print sgn s0 (bytes_in k) = Ok (w k, tr k)) /\
    y_rx (w 10%nat) = demo_pose /\
    render RA p2l (kin_new RA kit_g) kit_pinMap (fun _ => []) w = Ok pic /\ length pic = 39%nat.
Proof.
  intros fwd inv l2p p2l limits print sgn junk J.
  assert (HO : holds sgn (repeat 0 2048) []).
  { split; [reflexivity|]. split; [constructor|]. exists (repeat 0 2047). reflexivity. }
  assert (L80 : Forall (fun m : list Z => zlen m <= 80) []) by constructor.
  destruct (c_boot_inv sgn junk (repeat 0 2048) [] J HO L80) as (m & E & _).
  set (s0 := mkSys (dev_boot RA fwd p2l (kit_servos RA) []) m [] PRobot1).
  assert (B : sys_boot RA fwd p2l (kit_servos RA) [] junk (repeat 0 2048) = Ok s0) by (unfold sys_boot; rewrite E; reflexivity).
  assert (AR : forall l s, sys_run RA fwd inv l2p p2l limits kit_pinMap print sgn s (map SArrive l) =
                 Ok (mkSys (y_dev s) (y_mcp s) (y_rx s ++ l) (y_phase s), [])).
  { induction l as [|c l IH]; intros s; cbn [map sys_run sys_step bind].
    - rewrite app_nil_r. destruct s; reflexivity.
    - rewrite IH. cbn [bind y_dev y_mcp y_rx y_phase app]. rewrite <- app_assoc. reflexivity. }
  exists s0, (fun k => mkSys (y_dev s0) m (firstn k demo_pose) PRobot1), (fun _ => []).
  assert (RN : forall k, sys_run RA fwd inv l2p p2l limits kit_pinMap print sgn s0 (bytes_in k) =
    Ok (mkSys (y_dev s0) m (firstn k demo_pose) PRobot1, [])) by (intros k; unfold bytes_in; rewrite AR; reflexivity).
  assert (HK : axes (fun i => working (at6 (kit_servos RA) i) /\
    (s_min (at6 (kit_servos RA) i) <= s_home (at6 (kit_servos RA) i) <= s_max (at6 (kit_servos RA) i))%R)).
  { pose proof kit_working as K. unfold axes in *.
    assert (LL : forall (P : Prop) (a b c : R), P /\ (a <= b < c)%R -> P /\ (a <= b <= c)%R) by (intros P a b c [p q]; split; [exact p|lra]).
    destruct K as (K0 & K1 & K2 & K3 & K4 & K5).
    split; [apply LL; exact K0|]. split; [apply LL; exact K1|]. split; [apply LL; exact K2|].
    split; [apply LL; exact K3|]. split; [apply LL; exact K4|apply LL; exact K5]. }
  eexists. split; [exact B|]. split; [exact RN|]. split; [reflexivity|]. split.
  - apply (C65_picture fwd inv l2p p2l limits kit_pinMap print (fun _ => []) sgn kit_g (kit_servos RA) [] junk (repeat 0 2048) [] s0
             (map SArrive demo_pose) bytes_in _ (fun _ => []) kit_span eq_refl HK J HO L80 B).
    + replace (arrivals (map SArrive demo_pose)) with demo_pose by reflexivity. vm_compute. splits; auto; discriminate.
    + intros k. exists (map SArrive (skipn k demo_pose)). split; [|apply RN]. unfold bytes_in. rewrite <- map_app, firstn_skipn. reflexivity.
  - reflexivity.
Qed.
