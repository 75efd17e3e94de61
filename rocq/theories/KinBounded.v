(** * The inverse kinematic in the arithmetic of the device: whatever the geometry and the pose, it answers OUT_OF_RANGE or
    six finite angles of a few turns *)
From Coq Require Import Reals Lra ZArith Lia Floats.SpecFloat.
From Flocq Require Import Core BinarySingleNaN.
From Verif Require Import Base Arith FloatBridge ServoModel ServoFloat RobotModel KinModel PropRobot PropFloatMoves.
Open Scope Z_scope.

(** not a number, or finite and at most B in absolute value: binary32, binary64 *)
Definition nb32 (B : R) (x : spec_float) : Prop := x = S754_nan \/ exists r, v32 x r /\ (Rabs r <= B)%R.
Definition nb64 (B : R) (x : spec_float) : Prop := x = S754_nan \/ exists r, v64 x r /\ (Rabs r <= B)%R.

(** what is asked of acos, atan2 (float), acos and fmod (double): NaN, or an angle of at most 4 rad; a remainder that is not larger
    than the divisor *)
Definition tame_libm (L : libm) : Prop :=
  (forall x, nb32 4 (m_facos L x)) /\ (forall x y, nb32 4 (m_fatan2 L x y)) /\ (forall x, nb64 4 (m_dacos L x)) /\
  (forall x y, nb64 10 y -> nb64 10 (m_dfmod L x y)).

Lemma nb32_le B B' x : (B <= B')%R -> nb32 B x -> nb32 B' x.
Proof. intros H [N|(r & V & K)]; [left; exact N|right; exists r; split; [exact V|lra]]. Qed.
Lemma nb64_le B B' x : (B <= B')%R -> nb64 B x -> nb64 B' x.
Proof. intros H [N|(r & V & K)]; [left; exact N|right; exists r; split; [exact V|lra]]. Qed.
Lemma add_nan_r p e x : SFadd p e x S754_nan = S754_nan.
Proof. destruct x; reflexivity. Qed.
Lemma sub_nan_r p e x : SFsub p e x S754_nan = S754_nan.
Proof. destruct x; reflexivity. Qed.
Lemma mul_nan_r p e x : SFmul p e x S754_nan = S754_nan.
Proof. destruct x; reflexivity. Qed.
Lemma near32 r B : (Rabs r <= B)%R -> (B <= 1000000)%R -> (Rabs (r32 r) <= B + 1)%R.
Proof. intros H K. pose proof tiny_small. pose proof (r32_near r B H) as E. apply Rabs_bounds in H. apply Rabs_le. lra. Qed.
Lemma near64 r B : (Rabs r <= B)%R -> (B <= 1000000)%R -> (Rabs (r64 r) <= B + 1)%R.
Proof. intros H K. pose proof tiny_small. pose proof (r64_near r B H) as E. apply Rabs_bounds in H. apply Rabs_le. lra. Qed.
Lemma nb32_add B B' x y : nb32 B x -> nb32 B' y -> (B + B' <= 1000000)%R -> nb32 (B + B' + 1) (SFadd 24 128 x y).
Proof.
  intros [->|(r & V & K)] [->|(r' & V' & K')] H; try (left; first [reflexivity|apply add_nan_r]).
  assert (Q : (Rabs (r + r') <= B + B')%R) by (eapply Rle_trans; [apply Rabs_triang|lra]).
  right. eexists. split; [apply v_add; eauto; lra|]. now apply near32.
Qed.
Lemma nb32_sub B B' x y : nb32 B x -> nb32 B' y -> (B + B' <= 1000000)%R -> nb32 (B + B' + 1) (SFsub 24 128 x y).
Proof.
  intros [->|(r & V & K)] [->|(r' & V' & K')] H; try (left; first [reflexivity|apply sub_nan_r]).
  assert (Q : (Rabs (r - r') <= B + B')%R) by (unfold Rminus; eapply Rle_trans; [apply Rabs_triang|rewrite Rabs_Ropp; lra]).
  right. eexists. split; [apply v_sub; eauto; lra|]. now apply near32.
Qed.
Lemma nb64_add B B' x y : nb64 B x -> nb64 B' y -> (B + B' <= 1000000)%R -> nb64 (B + B' + 1) (SFadd 53 1024 x y).
Proof.
  intros [->|(r & V & K)] [->|(r' & V' & K')] H; try (left; first [reflexivity|apply add_nan_r]).
  assert (Q : (Rabs (r + r') <= B + B')%R) by (eapply Rle_trans; [apply Rabs_triang|lra]).
  right. eexists. split; [apply (fv_add 53 1024); eauto; apply r64_bound; lra|]. now apply near64.
Qed.
Lemma nb64_sub B B' x y : nb64 B x -> nb64 B' y -> (B + B' <= 1000000)%R -> nb64 (B + B' + 1) (SFsub 53 1024 x y).
Proof.
  intros [->|(r & V & K)] [->|(r' & V' & K')] H; try (left; first [reflexivity|apply sub_nan_r]).
  assert (Q : (Rabs (r - r') <= B + B')%R) by (unfold Rminus; eapply Rle_trans; [apply Rabs_triang|rewrite Rabs_Ropp; lra]).
  right. eexists. split; [apply (fv_sub 53 1024); eauto; apply r64_bound; lra|]. now apply near64.
Qed.
Lemma nb32_d2f B x : nb64 B x -> (B <= 1000000)%R -> nb32 (B + 1) (sf_conv 24 128 x).
Proof.
  intros [->|(r & V & K)] H; [left; reflexivity|]. right. eexists. split; [apply (fv_conv 53 1024 24 128); eauto; apply r32_bound; lra|]. now apply near32.
Qed.
Lemma nb64_f2d B x : nb32 B x -> (B <= 1000000)%R -> nb64 (B + 1) (sf_conv 53 1024 x).
Proof.
  intros [->|(r & V & K)] H; [left; reflexivity|]. right. eexists. split; [apply (fv_conv 24 128 53 1024); eauto; apply r64_bound; lra|]. now apply near64.
Qed.
Lemma nb32_int z : Z.abs z <= 1 -> nb32 1 (SpecFloat.binary_normalize 24 128 z 0 false).
Proof. intros H. right. exists (IZR z). split; [apply v_int; lia|]. rewrite <- abs_IZR. apply (IZR_le _ 1). exact H. Qed.

Section Bounded.
Context (L : libm) (TL : tame_libm L).
Notation A := (IEEE L).
Lemma half_pi_nb : nb64 2 (half_pi A).
Proof.
  right. exists (SF2R radix2 (half_pi A)). split; [let y := eval vm_compute in (half_pi A) in change (half_pi A) with y; apply fv_valid; reflexivity|].
  apply Rabs_le. lits. lra.
Qed.
Lemma pi_nb : nb64 4 sf_pi.
Proof.
  right. exists (SF2R radix2 sf_pi). split; [let y := eval vm_compute in sf_pi in change sf_pi with y; apply fv_valid; reflexivity|].
  apply Rabs_le. lits. lra.
Qed.
Lemma angle_nb u v ref : nb32 5 (angle_between A u v ref).
Proof.
  unfold angle_between. cbv zeta. destruct TL as (_ & T & _). match goal with |- context [fatan2 A ?a ?b] => pose proof (T a b) as K end.
  cbn [fmul fatan2 IEEE] in *. destruct K as [->|(r & V & K)]; [left; reflexivity|].
  assert (S : exists s, v32 (if flt A (fnum A 0) (fadd A (fadd A (fmul A (vx ref) (vx u)) (fmul A (vy ref) (vy u))) (fmul A (vz ref) (vz u))) then fnum A 1 else fnum A (-1)) s /\ (Rabs s <= 1)%R).
  { destruct (flt A _ _); [exists 1%R|exists (-1)%R]; (split; [first [apply (v_int 1); lia|apply (v_int (-1)); lia]|apply Rabs_le; lra]). }
  destruct S as (s & VS & KS). right.
  assert (Q : (Rabs (r * s) <= 4)%R) by (rewrite Rabs_mult; replace 4%R with (4 * 1)%R by ring; apply Rmult_le_compat; auto using Rabs_pos).
  exists (r32 (r * s)). split; [apply v_mul; auto; lra|]. replace 5%R with (4 + 1)%R by ring. apply near32; lra.
Qed.
Lemma addd_nb B B' x y : nb32 B x -> nb64 B' y -> (0 <= B <= 1000)%R -> (0 <= B' <= 1000)%R -> nb32 (B + B' + 3) (addd A x y).
Proof.
  intros X Y H H'. unfold addd. cbn [d2f dadd f2d IEEE].
  apply (nb32_le (B + 1 + B' + 1 + 1)); [lra|]. apply nb32_d2f; [|lra]. apply nb64_add; [|exact Y|lra]. apply nb64_f2d; [exact X|lra].
Qed.
Lemma subd_nb B B' x y : nb32 B x -> nb64 B' y -> (0 <= B <= 1000)%R -> (0 <= B' <= 1000)%R -> nb32 (B + B' + 3) (subd A x y).
Proof.
  intros X Y H H'. unfold subd. cbn [d2f dsub f2d IEEE].
  apply (nb32_le (B + 1 + B' + 1 + 1)); [lra|]. apply nb32_d2f; [|lra]. apply nb64_sub; [|exact Y|lra]. apply nb64_f2d; [exact X|lra].
Qed.
Lemma zero_nb : nb32 1 (fnum A 0).
Proof. apply nb32_int. lia. Qed.
Lemma atan2_nb x y : nb32 4 (fatan2 A x y).
Proof. apply TL. Qed.
Lemma acos_nb x : nb64 4 (dacos A x).
Proof. apply TL. Qed.
Lemma offset_nb : nb32 6 (addd A (fnum A 0) (half_pi A)).
Proof. apply (nb32_le (1 + 2 + 3)); [lra|]. apply addd_nb; [exact zero_nb|exact half_pi_nb|lra|lra]. Qed.

(** every computed angle is NaN or at most 100 rad *)
Lemma solve_nb g po : six (nb32 100) (kin_solve A (kin_new A g) po).
Proof.
  unfold kin_solve. cbv zeta. unfold six. cbn [v0 v1 v2 v3 v4 v5].
  assert (R0 : forall J, nb32 20 (solve_r0 A (kin_new A g) J)).
  { intros J. unfold solve_r0. cbv zeta. cbn [fadd IEEE].
    assert (F : forall x, nb32 4 (facos A x)) by (intros x; apply TL).
    match goal with |- context [facos A ?x] => pose proof (F x) as K; set (y := facos A x) in *; clearbody y end.
    apply (nb32_le (12 + 4 + 1)); [lra|]. apply nb32_add; [|apply atan2_nb|lra]. apply (nb32_le (1 + 8 + 3)); [lra|]. apply addd_nb; [exact zero_nb| |lra|lra].
    cbn [dsub f2d IEEE]. apply (nb64_le (2 + (4 + 1) + 1)); [lra|]. apply nb64_sub; [exact half_pi_nb|apply nb64_f2d; [exact K|lra]|lra]. }
  split; [apply (nb32_le 20); [lra|apply R0]|].
  split; [|split; [|split; [|split]]].
  - unfold solve_r1. cbv zeta. apply (nb32_le (16 + 4 + 3)); [lra|]. apply subd_nb; [|apply acos_nb|lra|lra].
    cbn [k_a1 kin_new fsub IEEE]. apply (nb32_le (11 + 4 + 1)); [lra|]. apply nb32_sub; [|apply atan2_nb|lra].
    apply (nb32_le (6 + 4 + 1)); [lra|]. apply nb32_sub; [exact offset_nb|apply atan2_nb|lra].
  - unfold solve_r2. cbv zeta. apply (nb32_le (16 + 4 + 3)); [lra|]. apply subd_nb; [|apply acos_nb|lra|lra].
    cbn [k_a2 kin_new fadd IEEE]. apply (nb32_le (11 + 4 + 1)); [lra|]. apply nb32_add; [|apply atan2_nb|lra].
    apply (nb32_le (6 + 4 + 1)); [lra|]. apply nb32_add; [exact offset_nb|apply atan2_nb|lra].
  - unfold solve_r3. cbv zeta. apply (nb32_le 5); [lra|]. apply angle_nb.
  - unfold solve_r4. cbv zeta. cbn [d2f dsub dfmod IEEE].
    assert (P1 : nb64 4 (dmul A (dnum A (3 / 2)) (dpi A))).
    { right. exists (SF2R radix2 (dmul A (dnum A (3 / 2)) (dpi A))). split; [let y := eval vm_compute in (dmul A (dnum A (3 / 2)) (dpi A)) in change (dmul A (dnum A (3 / 2)) (dpi A)) with y; apply fv_valid; reflexivity|].
      apply Rabs_le. lits. lra. }
    assert (P2 : nb64 10 (dmul A (dnum A 2) (dpi A))).
    { right. exists (SF2R radix2 (dmul A (dnum A 2) (dpi A))). split; [let y := eval vm_compute in (dmul A (dnum A 2) (dpi A)) in change (dmul A (dnum A 2) (dpi A)) with y; apply fv_valid; reflexivity|].
      apply Rabs_le. lits. lra. }
    apply (nb32_le (10 + 4 + 1 + 1)); [lra|]. apply nb32_d2f; [|lra]. apply nb64_sub; [|exact P1|lra]. apply TL. exact P2.
  - unfold solve_r5. cbv zeta. set (a := angle_between A _ _ _). assert (K : nb32 5 a) by apply angle_nb. clearbody a.
    destruct (dlt A _ _).
    + cbn [d2f dadd dopp dpi dfmod IEEE]. apply (nb32_le (4 + 10 + 1 + 1)); [lra|]. apply nb32_d2f; [|lra]. apply nb64_add; [| |lra].
      * destruct pi_nb as [N|(r & V & B)]; [left; rewrite N; reflexivity|]. right. exists (- r)%R. split; [now apply fv_opp|rewrite Rabs_Ropp; exact B].
      * apply TL. apply (nb64_le 4); [lra|exact pi_nb].
    + cbn [fsub IEEE]. apply (nb32_le (1 + 5 + 1)); [lra|]. apply nb32_sub; [exact zero_nb|exact K|lra].
Qed.
Lemma not_nan B x : nb32 B x -> fisnan A x = false -> fin B x.
Proof. intros [->|K] N; [discriminate|exact K]. Qed.

(** Whatever the geometry (unusable ones included), the pose (NaN and infinities included) and what the array held: the inverse
    kinematic reports OUT_OF_RANGE and leaves the array alone, or it reports OK and stores six finite angles of at most 100 rad. *)
Theorem C45_finite_or_out_of_range_ieee (g : geom (F A)) (po out : V6 (F A)) :
  kin_inverse A (kin_new A g) po out = (1, out) \/
  exists a, kin_inverse A (kin_new A g) po out = (0, a) /\ six (fin 100) a.
Proof.
  unfold kin_inverse. pose proof (solve_nb g po) as (N0 & N1 & N2 & N3 & N4 & N5). set (r := kin_solve A (kin_new A g) po) in *. clearbody r.
  destruct (existsb (fisnan A) (list6 r)) eqn:E; [left; reflexivity|]. right. exists r. split; [reflexivity|].
  unfold list6 in E. cbn [existsb] in E. repeat (apply orb_false_iff in E as [? E]). unfold six. splits; apply not_nan; assumption.
Qed.
Lemma kin_inv_fin g po a : kin_inv A (kin_new A g) po = Some a -> six (fin 1000000) a.
Proof.
  unfold kin_inv. destruct (C45_finite_or_out_of_range_ieee g po po) as [E|(b & E & F)]; rewrite E; [discriminate|]. intros X. injection X as <-.
  eapply six_impl; [|exact F]. intros x. apply fin_le. lra.
Qed.
End Bounded.

Lemma flat_tame : tame_libm flat_libm.
Proof.
  assert (Z32 : nb32 4 (S754_zero false)) by (right; exists 0%R; split; [apply (fv_zero 24 128)|rewrite Rabs_R0; lra]).
  assert (Z64 : forall B, (0 <= B)%R -> nb64 B (S754_zero false)) by (intros B H; right; exists 0%R; split; [apply (fv_zero 53 1024)|rewrite Rabs_R0; lra]).
  unfold tame_libm. splits; intros; cbn; auto; apply Z64; lra.
Qed.
