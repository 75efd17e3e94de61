(** * C70 on the pixels: what is seen at power-up *)
From Coq Require Import Reals Lra ZArith Lia Floats.SpecFloat.
From Verif Require Import Base Arith FloatBridge ServoModel ServoFloat KinModel DisplayModel StartModel ConfigModel PropDisplay PropStart GfxFont GfxModel GfxProofs PropScreen.
Open Scope Z_scope.

(** lines along row 32 with ends that fit *)
Definition flat_line (d : draw) : Prop := match d with DrawLine c0 r0 c1 r1 => r0 = 32 /\ r1 = 32 /\ Z.abs c0 <= 10000 /\ Z.abs c1 <= 10300 | _ => False end.
Lemma scale_flat z l : forall ds x, drawn_to_scale z x l ds -> Forall (fun a => (0 <= 128 * (a / z) <= 270)%R) l ->
  Z.abs x + 140 * zlen l <= 5000 -> Forall flat_line ds.
Proof.
  induction l as [|a l IH]; intros ds x D F B; destruct ds as [|[| | |] ds]; cbn [drawn_to_scale] in D; try contradiction; [constructor|].
  destruct D as (-> & -> & -> & E & x' & X & D). inversion F as [|? ? F1 F2]; subst.
  assert (BL : zlen (a :: l) = 1 + zlen l) by (unfold zlen; cbn [length]; lia). rewrite BL in B. pose proof (zlen_nonneg l).
  match type of E with (Rabs (IZR ?c - _) <= _)%R => rename c into c1 end.
  assert (C : 2 * x - 2 <= c1 <= 2 * x + 272).
  { assert (E' : (IZR (2 * x - 2) <= IZR c1 /\ IZR c1 <= IZR (2 * x + 272))%R); [|destruct E' as [E1 E2]; apply le_IZR in E1, E2; lia].
    rewrite minus_IZR, plus_IZR, mult_IZR. apply Rabs_bounds in E. lra. }
  constructor; [cbn [flat_line]; lia|]. apply (IH ds x' D F2). lia.
Qed.
Lemma flat_fits d : flat_line d -> op_fits d.
Proof.
  destruct d as [| c0 r0 c1 r1| |]; try contradiction. intros (-> & -> & B0 & B1). unfold op_fits. cbn [op_typed last_coordinate]. unfold int16.
  destruct (Z.abs (32 - 32) <=? Z.abs (c1 - c0)); lia.
Qed.
Lemma flat_unseen d S i j : flat_line d -> shape_of d S -> on_screen i j -> ~ S i j.
Proof.
  destruct d as [| c0 r0 c1 r1| |]; try contradiction. intros (-> & -> & _) (r & -> & R0 & R1 & R2) [_ J]. unfold line_pixels.
  change (Z.abs (32 - 32)) with 0 in *. destruct (Z.leb_spec 0 (Z.abs (c1 - c0))) as [L|L]; [|lia]. intros (k & K & _ & Q).
  rewrite Z.max_l, Z.min_r in R2 by lia. destruct (R2 k K) as [R3 _]. replace (r k) with 0 in Q by lia. revert Q. unfold toward. change (32 <? 32) with false. cbv iota. lia.
Qed.

(** For every arm in the x-z plane that reaches to the right: when setup() has drawn "STARTING" and the
    arm into the blank frame, exactly the pixels of the word are lit; of the arm there is none. *)
Theorem C70_screen_refuted : forall (L : libm) (g : geom spec_float) x0 x1 x2 x3 x4 fuel, reaches_right g x0 x1 x2 x3 x4 -> 65536 <= Z.of_nat fuel ->
  exists ds frame, start_screen (IEEE L) g = Ok ds /\ length (filter is_line ds) = 5%nat /\ paint fuel blank ds = Ok frame /\
    forall i j, on_screen i j -> (lit frame i j = true <-> text_pixels 0 0 text_starting i j).
Proof.
  intros L g x0 x1 x2 x3 x4 fuel G Fu. destruct (C70_defined_partial L g _ _ _ _ _ G) as (ds & z & E & Z & D). cbv zeta in Z.
  destruct G as (_ & _ & _ & _ & _ & _ & P0 & P1 & P2 & P3 & S & P4).
  assert (Zp : (IZR z > 0)%R) by lra.
  assert (Q : forall a, (0 <= a <= x0 + x1 + x2 + x3)%R -> (0 <= 128 * (a / IZR z) <= 270)%R).
  { intros a Ba. assert (A : (0 <= a / IZR z <= 2.1)%R); [|lra]. split.
    - apply Rmult_le_pos; [lra|]. apply Rlt_le, Rinv_0_lt_compat. lra.
    - apply Rmult_le_reg_r with (IZR z); [lra|]. unfold Rdiv. rewrite Rmult_assoc, Rinv_l, Rmult_1_r by lra. lra. }
  assert (F : Forall flat_line ds).
  { apply (scale_flat (IZR z) [x0; x1; x2; x3; x4] ds 30 D); [|unfold zlen; cbn [length]; lia]. repeat (apply Forall_cons; [apply Q; lra|]). apply Forall_nil. }
  assert (LN : length (filter is_line (DrawText 0 0 text_starting :: ds)) = 5%nat).
  { clear - D F. cbn [filter is_line]. 
    assert (K : forall l x e, drawn_to_scale (IZR z) x l e -> length (filter is_line e) = length l).
    { induction l as [|a l IH]; intros x [|[| | |] e] H; cbn [drawn_to_scale] in H; try contradiction; [reflexivity|]. destruct H as (_ & _ & _ & _ & x' & _ & H). cbn [filter is_line length]. f_equal. exact (IH _ _ H). }
    exact (K _ _ _ D). }
  destruct blank_ok as [OK BL].
  assert (TF : op_fits (DrawText 0 0 text_starting)).
  { assert (PT : Forall printable text_starting) by (unfold text_starting; repeat (apply Forall_cons; [unfold printable; lia|]); apply Forall_nil).
    unfold op_fits. cbn [op_typed last_coordinate]. split; [eapply Forall_impl; [|exact PT]; intros c [H _]; exact H|]. split; [lia|].
    split; [lia|]. split; [unfold int16; lia|]. split; [exact PT|]. unfold zlen, text_starting. cbn [length]. lia. }
  destruct (C71_pixels fuel (DrawText 0 0 text_starting :: ds) blank OK) as (frame & Ss & PE & SH & AD); [constructor; [exact TF|eapply Forall_impl; [apply flat_fits|exact F]]|exact Fu|].
  exists (DrawText 0 0 text_starting :: ds), frame. split; [exact E|]. split; [exact LN|]. split; [exact PE|]. intros i j O.
  destruct AD as [_ AD]. rewrite (AD i j O), BL. inversion SH as [|? S0 ? Sr SH0 SHr]; subst. cbn [shape_of] in SH0. subst S0. split.
  - intros [H|(S1 & [<-|I] & H)]; [discriminate|exact H|]. exfalso. clear - F SHr I H O. induction SHr as [|d S2 ds Sr SH IH SHr]; [contradiction|].
    inversion F; subst. destruct I as [->|I]; [exact (flat_unseen _ _ i j H2 SH O H)|auto].
  - intros H. right. eexists. split; [left; reflexivity|exact H].
Qed.
Print Assumptions C70_screen_refuted.

(** both shipped arms *)
Theorem C70_screen_shipped : forall (L : libm) g fuel, g = kit_geom (IEEE L) \/ g = d_geom (IEEE L) -> 65536 <= Z.of_nat fuel ->
  exists ds frame, start_screen (IEEE L) g = Ok ds /\ length (filter is_line ds) = 5%nat /\ paint fuel blank ds = Ok frame /\
    forall i j, on_screen i j -> (lit frame i j = true <-> text_pixels 0 0 text_starting i j).
Proof.
  intros L g fuel [-> | ->] Fu.
  - destruct (kit_right L) as (a & b & K). exact (C70_screen_refuted L _ _ _ _ _ _ fuel K Fu).
  - destruct (d_right L) as (a & b & K). exact (C70_screen_refuted L _ _ _ _ _ _ fuel K Fu).
Qed.
Print Assumptions C70_screen_shipped.
