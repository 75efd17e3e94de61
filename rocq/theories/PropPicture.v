(** * C72: what the user sees: the picture of C65 on the screen, pixel for pixel *)
From Coq Require Import Reals Lra.
From Verif Require Import Base Arith RingModel RingSpec RingProofs EepromModel EepromSpec EepromProofs ServoModel ServoSpec ServoProofs
  RobotModel RobotSpec RobotProofs RobotExact PropRobot KinModel KinSpec KinProofs PropKin IoModel MrilModel McpModel McpSpec McpProofs
  DeviceModel SystemModel SystemSpec SystemProofs SystemSafe SystemQueue SystemMore PropProgress PropMotion ConfigModel PropKit DisplayModel PropDisplay
  GfxFont GfxModel GfxProofs PropScreen.
Set Default Goal Selector "!".

(** ** Proofs *)
(** decimal numbers *)
Lemma uint_printable u : Forall printable (uint_chars u).
Proof. induction u; cbn [uint_chars]; constructor; auto; unfold printable; lia. Qed.
Lemma int_printable n : Forall printable (int_chars n).
Proof. unfold int_chars. destruct (Z.to_int n); [apply uint_printable|constructor; [unfold printable; lia|apply uint_printable]]. Qed.
Lemma int_three n : 0 <= n <= 999 -> 1 <= zlen (int_chars n) <= 3.
Proof.
  intros H. assert (C : forallb (fun n => (1 <=? zlen (int_chars n)) && (zlen (int_chars n) <=? 3)) (zrange 1000) = true) by (vm_compute; reflexivity).
  rewrite forallb_forall in C. specialize (C n (in_zrange 1000 n ltac:(lia))). lia.
Qed.
Lemma printable_byte t : Forall printable t -> Forall (fun c => 0 <= c < 256) t.
Proof. apply Forall_impl. intros c [H _]. exact H. Qed.
Lemma text_fits x t : 0 <= x -> Forall printable t -> x + 6 * zlen t <= 127 -> op_fits (DrawText x 0 t).
Proof. intros X P W. split; [exact (printable_byte t P)|]. split; [reflexivity|]. split; [exact X|]. split; [unfold int16; lia|]. auto. Qed.

(** truncation *)
Lemma rtrunc_bound a n : (Rabs a <= IZR n)%R -> Z.abs (rtrunc a) <= n.
Proof.
  intros H. assert (Q : (- IZR n <= a <= IZR n)%R) by (split_Rabs; lra). destruct Q as [Q1 Q2]. rewrite <- opp_IZR in Q1.
  apply rtrunc_mono in Q1, Q2. rewrite rtrunc_IZR in Q1, Q2. lia.
Qed.
Lemma rtrunc_near a b n : (Rabs (a - b) <= IZR n)%R -> Z.abs (rtrunc a - rtrunc b) <= n + 1.
Proof.
  intros H. assert (G : forall c, (IZR (rtrunc c) - 1 < c < IZR (rtrunc c) + 1)%R).
  { intros c. destruct (Rle_lt_dec 0 c) as [P|P]; [destruct (rtrunc_pos c P) as [Q _]|destruct (rtrunc_neg c ltac:(lra)) as [Q _]]; lra. }
  pose proof (G a) as Ga. pose proof (G b) as Gb.
  assert (K : (IZR (rtrunc a - rtrunc b) < IZR (n + 2) /\ IZR (- (n + 2)) < IZR (rtrunc a - rtrunc b))%R) by (rewrite opp_IZR, minus_IZR, plus_IZR; split_Rabs; lra).
  destruct K as [K1 K2]. apply lt_IZR in K1, K2. lia.
Qed.
(** a line of the arm is short enough *)
Definition line_small (d : draw) : Prop :=
  match d with DrawLine a b c e => (Z.abs a <= 31000 /\ Z.abs b <= 31000 /\ Z.abs c <= 31000 /\ Z.abs e <= 31000) /\ Z.abs (c - a) <= 30001 /\ Z.abs (e - b) <= 30001 | _ => False end.
Lemma small_fits d : line_small d -> op_fits d.
Proof.
  destruct d as [| a b c e| |]; cbn [line_small]; try tauto. intros ((B1 & B2 & B3 & B4) & D1 & D2).
  split; [cbn [op_typed]; unfold int16; lia|]. split; [cbn [last_coordinate]; destruct (Z.abs (_ - _) <=? _); lia|]. lia.
Qed.
Lemma joint_small (u v : vecR -> R) x y (p q : vecR) S : (0 <= x <= 127)%R -> (0 <= y <= 127)%R ->
  (Rabs (u p) <= S)%R -> (Rabs (v p) <= S)%R -> (Rabs (u q) <= S)%R -> (Rabs (v q) <= S)%R -> (Rabs (u p - u q) <= S)%R -> (Rabs (v p - v q) <= S)%R -> (S <= 30000)%R ->
  line_small (DrawLine (rtrunc (x + u p)) (rtrunc (y - v p / 2)) (rtrunc (x + u q)) (rtrunc (y - v q / 2))).
Proof.
  intros X Y Up Vp Uq Vq Du Dv HS.
  assert (B1 : Z.abs (rtrunc (x + u p)) <= 31000) by (apply rtrunc_bound; split_Rabs; lra).
  assert (B2 : Z.abs (rtrunc (y - v p / 2)) <= 31000) by (apply rtrunc_bound; split_Rabs; lra).
  assert (B3 : Z.abs (rtrunc (x + u q)) <= 31000) by (apply rtrunc_bound; split_Rabs; lra).
  assert (B4 : Z.abs (rtrunc (y - v q / 2)) <= 31000) by (apply rtrunc_bound; split_Rabs; lra).
  assert (D1 : Z.abs (rtrunc (x + u q) - rtrunc (x + u p)) <= 30000 + 1) by (apply rtrunc_near; split_Rabs; lra).
  assert (D2 : Z.abs (rtrunc (y - v q / 2) - rtrunc (y - v p / 2)) <= 30000 + 1) by (apply rtrunc_near; split_Rabs; lra).
  cbn [line_small]. lia.
Qed.
Lemma apart (p q : vecR) (c : vecR -> R) : (forall w, c w * c w <= dot3 w w)%R -> (forall a b, c (sub3 a b) = c a - c b)%R -> (Rabs (c q - c p) <= dist q p)%R.
Proof. intros H L. pose proof (comp_le (sub3 q p) c H) as K. rewrite L in K. exact K. Qed.
Lemma arm_small (u v : vecR -> R) x y (g : geom R) j : (0 <= x <= 127)%R -> (0 <= y <= 127)%R -> (span g <= 30000)%R ->
  ((forall w, u w * u w <= dot3 w w) /\ (forall a b, u (sub3 a b) = u a - u b) /\ u zero3 = 0)%R ->
  ((forall w, v w * v w <= dot3 w w) /\ (forall a b, v (sub3 a b) = v a - v b) /\ v zero3 = 0)%R ->
  Forall line_small (arm_lines u v x y g j).
Proof.
  intros X Y SP (U1 & U2 & U3) (V1 & V2 & V3). unfold arm_lines. cbv zeta.
  pose proof (arm_bound g j u U1 U2 U3) as BU. pose proof (arm_bound g j v V1 V2 V3) as BV. pose proof (C41_rigid_chain g j) as CH. cbv zeta in BU, BV, CH.
  set (C := calculate_coordinates RA (kin_new RA g) j) in *. destruct BU as (BU0 & BU1 & BU2 & BU3 & BU4 & BU5). destruct BV as (BV0 & BV1 & BV2 & BV3 & BV4 & BV5).
  destruct CH as (_ & E1 & E2 & E3 & E4 & E5).
  assert (P : forall w, (0 <= norm3R w)%R) by (intros; apply sqrt_pos).
  pose proof (P (g0 g)) as P0. pose proof (P (g1 g)) as P1. pose proof (P (g2 g)) as P2. pose proof (P (g3 g)) as P3. pose proof (P (g4 g)) as P4.
  assert (DS : forall p q : vecR, (dist q p <= span g)%R -> (Rabs (u p) <= span g)%R -> (Rabs (v p) <= span g)%R -> (Rabs (u q) <= span g)%R -> (Rabs (v q) <= span g)%R ->
    line_small (DrawLine (rtrunc (x + u p)) (rtrunc (y - v p / 2)) (rtrunc (x + u q)) (rtrunc (y - v q / 2)))).
  { intros p q D A1 A2 A3 A4. pose proof (apart p q u U1 U2) as K1. pose proof (apart p q v V1 V2) as K2.
    apply joint_small with (S := span g); auto; rewrite Rabs_minus_sym; eapply Rle_trans; [exact K1|exact D|exact K2|exact D]. }
  unfold span in *.
  constructor; [apply DS; auto; rewrite E1; lra|]. constructor; [apply DS; auto; rewrite E2; lra|]. constructor; [apply DS; auto; rewrite E3; lra|].
  constructor; [apply DS; auto; rewrite E4; lra|]. constructor; [apply DS; auto; rewrite E5; lra|]. constructor.
Qed.
Lemma arm_fits (u v : vecR -> R) x y (g : geom R) j : (0 <= x <= 127)%R -> (0 <= y <= 127)%R -> (span g <= 30000)%R ->
  ((forall w, u w * u w <= dot3 w w) /\ (forall a b, u (sub3 a b) = u a - u b) /\ u zero3 = 0)%R ->
  ((forall w, v w * v w <= dot3 w w) /\ (forall a b, v (sub3 a b) = v a - v b) /\ v zero3 = 0)%R ->
  Forall op_fits (arm_lines u v x y g j).
Proof. intros X Y SP U V. eapply Forall_impl; [exact small_fits|]. now apply arm_small. Qed.
Lemma fill_fits x y w h : 0 <= x <= 200 -> 0 <= y <= 200 -> 0 <= w <= 200 -> 0 <= h <= 200 -> op_fits (FillRect x y w h).
Proof. intros X Y W H. split; [cbn; unfold int16; lia|]. split; [cbn [last_coordinate]; lia|]. lia. Qed.
Lemma rect_fits x y w h : 0 <= x <= 200 -> 0 <= y <= 200 -> 1 <= w <= 200 -> 1 <= h <= 200 -> op_fits (DrawRect x y w h).
Proof. intros X Y W H. split; [cbn; unfold int16; lia|]. split; [reflexivity|]. lia. Qed.
Lemma bar_fits row (c : servo RA) t a : 0 <= row <= 100 -> (s_min c < s_max c)%R -> (s_min c <= s_home c <= s_max c)%R -> (s_min c <= t <= s_max c)%R -> (s_min c <= a <= s_max c)%R ->
  Forall op_fits (bar_of row c t a).
Proof.
  intros HR M H T A. unfold bar_of. cbv zeta. pose proof (column_range c _ M H). pose proof (column_range c _ M T). pose proof (column_range c _ M A).
  constructor; [apply fill_fits; lia|]. constructor; [apply fill_fits; lia|]. constructor; [apply fill_fits; lia|]. constructor.
Qed.
Lemma box_fits pinMap pending i : 0 <= i < 10 -> Forall op_fits (box_of pinMap pending i).
Proof.
  intros I. unfold box_of. cbv zeta. destruct (find _ pending) as [[p st]|]; [|constructor; [apply rect_fits; lia|constructor]].
  destruct (st =? 0); [constructor; [apply rect_fits; lia|constructor]|]. destruct (st =? 1); [constructor; [apply fill_fits; lia|constructor]|].
  destruct (st =? 2); [constructor; [apply rect_fits; lia|constructor]|constructor].
Qed.
Lemma slash_fits c a b : printable c -> 0 <= a <= 999 -> 0 <= b <= 999 -> op_fits (DrawText 72 0 (c :: 32 :: int_chars a ++ 47 :: int_chars b)).
Proof.
  intros C HA HB. pose proof (int_three a HA). pose proof (int_three b HB). apply text_fits; [lia| |].
  - constructor; [exact C|]. constructor; [unfold printable; lia|]. apply Forall_app. split; [apply int_printable|]. constructor; [unfold printable; lia|apply int_printable].
  - rewrite !zlen_cons, zlen_app, zlen_cons. lia.
Qed.

(** ** C72

    As in C65: every schedule, every moment.  The numbers of stored instructions have at most three digits (a longer text does not
    fit in the line), and the speed is printed in at most fifteen characters.  Then the drawing always ends; of the 4096 pixels exactly
    those are on that belong to the shapes of the picture - the lines of the arm, the texts, the bars, the boxes; and exactly this
    frame is sent. *)
Theorem C72_on_the_screen_partial : forall fwd inv l2p p2l limits pinMap print print1 sgn (g : geom R) (servos : V6 (servo RA)) axs junk mem l s0 stims
    (past : nat -> list stim) (w : nat -> sys RA) (tr : nat -> list (sys_ev RA)) fuel,
  (span g <= 30000)%R -> zlen pinMap = 10 ->
  axes (fun i => working (at6 servos i) /\ (s_min (at6 servos i) <= s_home (at6 servos i) <= s_max (at6 servos i))%R) ->
  zlen junk = 300 -> holds sgn mem l -> Forall (fun m => zlen m <= 80) l -> sys_boot RA fwd p2l servos axs junk mem = Ok s0 ->
  host_ok (spec_boot l) (map CChar (arrivals stims)) ->
  (forall k, exists future, stims = past k ++ future /\
     sys_run RA fwd inv l2p p2l limits pinMap print sgn s0 (past k) = Ok (w k, tr k)) ->
  let t := snd (spec_run (spec_boot l) (mcp_events (tr 3%nat))) in
  (smode t = EEPROM -> snext t <= 999 /\ zlen (slog t) <= 999) ->
  (let speed := print1 (r_maxvel (d_robot (y_dev (w 2%nat)))) in Forall printable speed /\ zlen speed <= 15) ->
  65536 <= Z.of_nat fuel ->
  let picture := arm_lines vx vy 10 20 g (p2l (shafts (w 0%nat))) ++ arm_lines vx vz 35 28 g (p2l (shafts (w 1%nat))) ++ mode_of t ++
      [header_of print1 (w 2%nat)] ++ bars_of servos w ++ flat_map (fun k => box_of pinMap (d_io (y_dev (w (16 + k)%nat))) (Z.of_nat k)) (seq 0 10) in
  exists frame shapes packets,
    render RA p2l (kin_new RA g) pinMap print1 w = Ok picture /\ paint fuel blank picture = Ok frame /\
    Forall2 shape_of picture shapes /\ (forall i j, on_screen i j -> (lit frame i j = true <-> exists S, In S shapes /\ S i j)) /\
    send_frame 32 frame 0 = Ok packets /\ flat_map (@tl Z) packets = frame.
Proof.
  intros fwd inv l2p p2l limits pinMap print print1 sgn g servos axs junk mem l s0 stims past w tr fuel SP PM H J HO L80 B HOK W t T3 PR Fu picture.
  pose proof (C65_picture fwd inv l2p p2l limits pinMap print print1 sgn g servos axs junk mem l s0 stims past w tr SP PM H J HO L80 B HOK W) as RE.
  assert (HW : axes (fun i => working (at6 servos i))) by (unfold axes in *; tauto).
  assert (RB : forall k, axes (fun i => let x := at6 (r_servos (d_robot (y_dev (w k)))) i in configured (at6 servos i) x /\
    (s_min (at6 servos i) <= s_target x <= s_max (at6 servos i))%R /\ (s_min (at6 servos i) <= s_cur x <= s_max (at6 servos i))%R)).
  { intros k. destruct (W k) as (fut & _ & R). eapply reached_bars; [exact HW|exact B|exact R]. }
  assert (MF : Forall op_fits (mode_of t)).
  { destruct (boot_run RA fwd p2l sgn junk mem l axs servos s0 J HO L80 B) as (CI & RX & _ & _). destruct (W 3%nat) as (fut & E & R).
    destruct (run_spec RA fwd inv l2p p2l limits pinMap print sgn s0 (spec_boot l) (past 3%nat) (w 3%nat) (tr 3%nat) CI RX R) as (_ & CI' & _).
    { apply host_ok_polls with (rest := arrivals fut).
      replace (chars (map CChar (arrivals (past 3%nat)))) with (arrivals (past 3%nat)); [rewrite <- arrivals_app, <- E; exact HOK|].
      clear. induction (arrivals (past 3%nat)); cbn; congruence. }
    fold t in CI'. destruct CI' as (_ & _ & _ & RW & RC & RA' & _ & _ & _ & _ & NX & _). unfold mode_of. destruct (smode t) eqn:M; try constructor.
    - apply slash_fits; [unfold printable; lia| |lia]. rewrite space_enc, <- RA', zlen_rabs by exact RW. pose proof RW as RW'. unfold RWf in RW'. lia.
    - constructor.
    - destruct (T3 eq_refl). apply slash_fits; [unfold printable; lia|lia|]. pose proof (zlen_nonneg (slog t)). lia.
    - constructor. }
  assert (FT : Forall op_fits picture).
  { unfold picture. apply Forall_app. split; [apply arm_fits; try lra; [apply vx_ok|apply vy_ok]|]. apply Forall_app. split; [apply arm_fits; try lra; [apply vx_ok|apply vz_ok]|].
    apply Forall_app. split; [exact MF|]. apply Forall_app. split; [|apply Forall_app; split].
    - constructor; [|constructor]. unfold header_of. cbv zeta in PR. destruct PR as [P1 P2]. apply text_fits; [lia| |].
      + destruct (r_method _); cbn [app]; repeat (constructor; [unfold printable; lia|]); exact P1.
      + destruct (r_method _); cbn [app]; rewrite !zlen_cons; lia.
    - unfold bars_of. unfold axes in H, RB. cbn [at6] in H. destruct H as ((W0 & H0) & (W1 & H1) & (W2 & H2) & (W3 & H3) & (W4 & H4) & (W5 & H5)).
      assert (RT : forall k, axes (fun i => (s_min (at6 servos i) <= at6 (targets (w k)) i <= s_max (at6 servos i))%R /\ (s_min (at6 servos i) <= at6 (shafts (w k)) i <= s_max (at6 servos i))%R)).
      { intros k. destruct (RB k) as ((_ & R0) & (_ & R1) & (_ & R2) & (_ & R3) & (_ & R4) & (_ & R5)). unfold axes, targets, shafts, map6. cbn [at6 v0 v1 v2 v3 v4 v5] in *. auto 10. }
      unfold axes in RT. cbn [flat_map]. rewrite !Forall_app. unfold working in *.
      split; [apply bar_fits; [lia|apply W0|exact H0|apply (RT 4%nat)|apply (RT 5%nat)]|].
      split; [apply bar_fits; [lia|apply W1|exact H1|apply (RT 6%nat)|apply (RT 7%nat)]|].
      split; [apply bar_fits; [lia|apply W2|exact H2|apply (RT 8%nat)|apply (RT 9%nat)]|].
      split; [apply bar_fits; [lia|apply W3|exact H3|apply (RT 10%nat)|apply (RT 11%nat)]|].
      split; [apply bar_fits; [lia|apply W4|exact H4|apply (RT 12%nat)|apply (RT 13%nat)]|].
      split; [apply bar_fits; [lia|apply W5|exact H5|apply (RT 14%nat)|apply (RT 15%nat)]|constructor].
    - apply Forall_flat_map, Forall_forall. intros k K. apply in_seq in K. apply box_fits. lia. }
  destruct (C71_pixels fuel picture blank (proj1 blank_ok) FT Fu) as (b & Ss & P & SH & A).
  destruct (C73_sent b (proj1 A)) as (ps & E & _ & _ & FL). exists b, Ss, ps. split; [exact RE|]. split; [exact P|]. split; [exact SH|]. split; [|split; assumption].
  intros i j O. rewrite (proj2 A i j O). rewrite (proj2 blank_ok). split; [intros [X|X]; [discriminate|exact X]|auto].
Qed.
Print Assumptions C72_on_the_screen_partial.

(** A text that does not fit behind column 72 goes on at the left border, over the arm: from 100 of 1000 instructions on. *)
Theorem C72_long_text_refuted : forall t b, frame_ok b -> Forall printable t -> 9 < zlen t <= 30 ->
  exists b', draw_text b 72 0 t = Ok b' /\ adds b b' (fun i j => text_pixels 72 0 (firstn 9 t) i j \/ text_pixels 0 8 (skipn 9 t) i j).
Proof.
  intros t b O P L. unfold draw_text. rewrite !i16_id by lia. pose proof (firstn_skipn 9 t) as E. set (t1 := firstn 9 t) in *. set (t2 := skipn 9 t) in *.
  assert (L1 : zlen t1 = 9) by (unfold t1, zlen in *; rewrite firstn_length; lia). assert (L2 : 0 < zlen t2 <= 21) by (unfold t2, zlen in *; rewrite skipn_length; lia).
  clearbody t1 t2. rewrite <- E in P. apply Forall_app in P as [P1 P2]. rewrite <- E, <- app_assoc, print_app.
  destruct (print_line t1 72 0 b O ltac:(unfold int16; lia) P1 ltac:(lia) ltac:(lia)) as (b1 & E1 & A1). rewrite E1. cbn [bind].
  rewrite print_app. destruct (print_line t2 0 8 b1 (proj1 A1) ltac:(unfold int16; lia) P2 ltac:(lia) ltac:(lia)) as (b2 & E2 & A2).
  assert (G : gfx_print (b1, 72 + 6 * zlen t1, 0) t2 = Ok (b2, 0 + 6 * zlen t2, 8)).
  { destruct t2 as [|c t2']; [rewrite (@zlen_nil Z) in L2; lia|]. cbn [gfx_print] in *. rewrite <- E2. f_equal. inversion P2 as [|? ? (C & C1 & C2) _]; subst.
    unfold gfx_write. replace (c =? 10) with false by lia. replace (c =? 13) with false by lia. rewrite L1. reflexivity. }
  rewrite G. exists b2. split; [reflexivity|]. exact (adds_both _ _ _ _ _ A1 A2).
Qed.
Print Assumptions C72_long_text_refuted.

(** ** Cases *)
(** "W 100/1000" *)
Example C72_long_case : let t := 87 :: 32 :: int_chars 100 ++ 47 :: int_chars 1000 in Forall printable t /\ 9 < zlen t <= 30 /\
  match paint 0 blank [DrawText 72 0 t] with Ok b => filter (fun p => 8 <=? snd p) (lit_pixels b) | Ub _ => [] end =
  [(1, 8); (2, 8); (3, 8); (0, 9); (4, 9); (0, 10); (3, 10); (4, 10); (0, 11); (2, 11); (4, 11); (0, 12); (1, 12); (4, 12); (0, 13); (4, 13); (1, 14); (2, 14); (3, 14)].
Proof. cbv zeta. split; [repeat (constructor; [unfold printable; lia|]); constructor|]. split; [vm_compute; split; [reflexivity|discriminate]|vm_compute; reflexivity]. Qed.
(** the kit, just switched on, while ten bytes arrive, as in C65 *)
Example C72_reachable : forall fwd inv l2p p2l limits print sgn junk, zlen junk = 300 ->
  exists s0 (w : nat -> sys RA) tr pic frame shapes packets,
    sys_boot RA fwd p2l (kit_servos RA) [] junk (repeat 0 2048) = Ok s0 /\
    (forall k, sys_run RA fwd inv l2p p2l limits kit_pinMap print sgn s0 (bytes_in k) = Ok (w k, tr k)) /\
    render RA p2l (kin_new RA kit_g) kit_pinMap (fun _ => [49; 48; 46; 48]) w = Ok pic /\ length pic = 39%nat /\
    paint (Z.to_nat 65536) blank pic = Ok frame /\
    Forall2 shape_of pic shapes /\ (forall i j, on_screen i j -> (lit frame i j = true <-> exists S, In S shapes /\ S i j)) /\
    send_frame 32 frame 0 = Ok packets /\ flat_map (@tl Z) packets = frame.
Proof.
  intros fwd inv l2p p2l limits print sgn junk J.
  assert (HO : holds sgn (repeat 0 2048) []).
  { split; [reflexivity|]. split; [constructor|]. exists (repeat 0 2047). reflexivity. }
  assert (L80 : Forall (fun m : list Z => zlen m <= 80) []) by constructor.
  destruct (c_boot_inv sgn junk (repeat 0 2048) [] J HO L80) as (m & E & _).
  set (s0 := mkSys (dev_boot RA fwd p2l (kit_servos RA) []) m [] PRobot1).
  assert (B : sys_boot RA fwd p2l (kit_servos RA) [] junk (repeat 0 2048) = Ok s0) by (unfold sys_boot; rewrite E; reflexivity).
  assert (AR : forall l s, sys_run RA fwd inv l2p p2l limits kit_pinMap print sgn s (map SArrive l) =
                 Ok (mkSys (y_dev s) (y_mcp s) (y_rx s ++ l) (y_phase s), [])).
  { induction l as [|c l IH]; intros s; cbn [map sys_run sys_step bind].
    - rewrite app_nil_r. destruct s; reflexivity.
    - rewrite IH. cbn [bind y_dev y_mcp y_rx y_phase app]. rewrite <- app_assoc. reflexivity. }
  assert (RN : forall k, sys_run RA fwd inv l2p p2l limits kit_pinMap print sgn s0 (bytes_in k) =
    Ok (mkSys (y_dev s0) m (firstn k demo_pose) PRobot1, [])) by (intros k; unfold bytes_in; rewrite AR; reflexivity).
  assert (HK : axes (fun i => working (at6 (kit_servos RA) i) /\
    (s_min (at6 (kit_servos RA) i) <= s_home (at6 (kit_servos RA) i) <= s_max (at6 (kit_servos RA) i))%R)).
  { pose proof kit_working as K. unfold axes in *.
    assert (LL : forall (P : Prop) (a b c : R), P /\ (a <= b < c)%R -> P /\ (a <= b <= c)%R) by (intros P a b c [p q]; split; [exact p|lra]).
    destruct K as (K0 & K1 & K2 & K3 & K4 & K5).
    split; [apply LL; exact K0|]. split; [apply LL; exact K1|]. split; [apply LL; exact K2|].
    split; [apply LL; exact K3|]. split; [apply LL; exact K4|apply LL; exact K5]. }
  destruct (C72_on_the_screen_partial fwd inv l2p p2l limits kit_pinMap print (fun _ => [49; 48; 46; 48]) sgn kit_g (kit_servos RA) [] junk (repeat 0 2048) [] s0
             (map SArrive demo_pose) bytes_in (fun k => mkSys (y_dev s0) m (firstn k demo_pose) PRobot1) (fun _ => []) (Z.to_nat 65536) kit_span eq_refl HK J HO L80 B)
    as (frame & shapes & packets & H1 & H2 & H3 & H4 & H5 & H6).
  - replace (arrivals (map SArrive demo_pose)) with demo_pose by reflexivity. vm_compute. splits; auto; discriminate.
  - intros k. exists (map SArrive (skipn k demo_pose)). split; [|apply RN]. unfold bytes_in. rewrite <- map_app, firstn_skipn. reflexivity.
  - discriminate.
  - cbv zeta. split; [repeat (constructor; [unfold printable; lia|]); constructor|vm_compute; discriminate].
  - rewrite Z2Nat.id; lia.
  - exists s0. do 6 eexists. split; [exact B|]. split; [exact RN|]. split; [exact H1|]. split; [reflexivity|]. split; [exact H2|]. split; [exact H3|]. split; [exact H4|]. split; [exact H5|exact H6].
Qed.
