(** * The forward kinematics in the arithmetic of the device (binary32): error analysis.

    [apx L M x r b e] says that the computed number [x] stands for the exact number [r]: [r] is at
    most b*M in size and the two differ by at most e*M/2^24 (one unit is the relative rounding
    error of a [float]).  The rules below follow the operations of calculateCoordinates. *)
From Coq Require Import Reals Lra ZArith Lia Floats.SpecFloat.
From Flocq Require Import Core BinarySingleNaN.
From Verif Require Import Base Arith FloatBridge ServoFloat RobotModel KinModel.
Open Scope Z_scope.

(** a library whose sin and cos are accurate to 2^-22 for every [float] argument *)
Definition accurate (L : libm) : Prop := forall (x : spec_float) (r : R), v32 x r ->
  exists c s : R, v32 (m_fcos L x) c /\ v32 (m_fsin L x) s /\
    (Rabs (c - cos r) <= / 4194304)%R /\ (Rabs (s - sin r) <= / 4194304)%R.

Section Apx.
Context (L : libm).
Notation A := (IEEE L).

Definition apx (M : R) (x : F A) (r : F RA) (b e : Z) : Prop := exists v : R,
  v32 x v /\ (Rabs r <= IZR b * M)%R /\ (Rabs (v - r) <= IZR e * (M / 16777216))%R.
Definition okM (M : R) : Prop := (/ 1000000 <= M <= 1000000)%R.

Lemma apx_mul M x y p r e1 b e2 : okM M -> apx 1 x p 1 e1 -> apx M y r b e2 -> 0 <= e1 <= 4000 -> 0 <= e2 <= 4000 -> 0 <= b <= 64 ->
  apx M (fmul A x y) (fmul RA p r) b (e2 + b * e1 + b + 3).
Proof.
  intros HM (v & V & P & E) (w & W & Q & G) H1 H2 Hb.
  change (fmul RA p r) with (p * r)%R. change (fmul A x y) with (SFmul 24 128 x y).
  unfold okM in HM. set (p' := p : R) in *. set (r' := r : R) in *. change (F RA) with R in *. clearbody p' r'.
  pose proof (IZR_le _ _ (proj1 H1)). pose proof (IZR_le _ _ (proj2 H1)). pose proof (IZR_le _ _ (proj1 H2)). pose proof (IZR_le _ _ (proj2 H2)).
  pose proof (IZR_le _ _ (proj1 Hb)). pose proof (IZR_le _ _ (proj2 Hb)).
  set (a1 := IZR e1) in *. set (a2 := IZR e2) in *. set (bb := IZR b) in *.
  assert (B : (Rabs (p' * r') <= bb * M)%R).
  { rewrite Rabs_mult. replace (bb * M)%R with (1 * (bb * M))%R by ring. apply Rmult_le_compat; try apply Rabs_pos; lra. }
  (* the error before rounding *)
  assert (D : (Rabs (v * w - p' * r') <= (a2 + bb * a1 + 1) * (M / 16777216))%R).
  { replace (v * w - p' * r')%R with (p' * (w - r') + r' * (v - p') + (v - p') * (w - r'))%R by ring.
    eapply Rle_trans; [apply Rabs_triang|]. eapply Rle_trans; [apply Rplus_le_compat_r, Rabs_triang|]. rewrite !Rabs_mult.
    assert (T1 : (Rabs p' * Rabs (w - r') <= 1 * (a2 * (M / 16777216)))%R) by (apply Rmult_le_compat; try apply Rabs_pos; lra).
    assert (T2 : (Rabs r' * Rabs (v - p') <= (bb * M) * (a1 * (1 / 16777216)))%R) by (apply Rmult_le_compat; try apply Rabs_pos; lra).
    assert (T3 : (Rabs (v - p') * Rabs (w - r') <= (a1 * (1 / 16777216)) * (a2 * (M / 16777216)))%R) by (apply Rmult_le_compat; try apply Rabs_pos; lra).
    assert (T4 : (a1 * a2 <= 4000 * 4000)%R) by (apply Rmult_le_compat; lra).
    assert (T5 : ((a1 * (1 / 16777216)) * (a2 * (M / 16777216)) <= 1 * (M / 16777216))%R).
    { replace ((a1 * (1 / 16777216)) * (a2 * (M / 16777216)))%R with (((a1 * a2) / 16777216) * (M / 16777216))%R by field.
      apply Rmult_le_compat_r; lra. }
    replace ((a2 + bb * a1 + 1) * (M / 16777216))%R with (1 * (a2 * (M / 16777216)) + (bb * M) * (a1 * (1 / 16777216)) + 1 * (M / 16777216))%R by field.
    lra. }
  assert (K : (0 <= a2 + bb * a1 + 1 <= 300000)%R).
  { assert (0 <= bb * a1)%R by (apply Rmult_le_pos; lra). assert (bb * a1 <= 64 * 4000)%R by (apply Rmult_le_compat; lra). lra. }
  assert (S : (Rabs (v * w) <= (bb + 1 / 10) * M)%R).
  { replace (v * w)%R with (p' * r' + (v * w - p' * r'))%R by ring. eapply Rle_trans; [apply Rabs_triang|].
    assert ((a2 + bb * a1 + 1) * (M / 16777216) <= 300000 * (M / 16777216))%R by (apply Rmult_le_compat_r; lra). lra. }
  assert (S' : ((bb + 1 / 10) * M <= 65 * 1000000)%R) by (apply Rmult_le_compat; lra).
  exists (r32 (v * w)). split; [apply v_mul; auto; lra|]. split; [exact B|].
  pose proof (r32_error (v * w)) as R1. pose proof tiny_small as T.
  replace (r32 (v * w) - p' * r')%R with ((r32 (v * w) - v * w) + (v * w - p' * r'))%R by ring.
  eapply Rle_trans; [apply Rabs_triang|].
  replace (IZR (e2 + b * e1 + b + 3)) with (a2 + bb * a1 + bb + 3)%R by (unfold a1, a2, bb; rewrite !plus_IZR, mult_IZR; reflexivity).
  replace ((a2 + bb * a1 + bb + 3) * (M / 16777216))%R with ((a2 + bb * a1 + 1) * (M / 16777216) + (bb + 1 / 10) * M / 16777216 + (19 / 10) * (M / 16777216))%R by field.
  assert (Rabs (v * w) / 16777216 <= (bb + 1 / 10) * M / 16777216)%R by (apply Rmult_le_compat_r; lra).
  lra.
Qed.

Lemma apx_sum_aux M v w p r b1 e1 b2 e2 : okM M -> 0 <= e1 <= 100000 -> 0 <= e2 <= 100000 -> 0 <= b1 <= 1000 -> 0 <= b2 <= 1000 ->
  (Rabs p <= IZR b1 * M)%R -> (Rabs (v - p) <= IZR e1 * (M / 16777216))%R ->
  (Rabs r <= IZR b2 * M)%R -> (Rabs (w - r) <= IZR e2 * (M / 16777216))%R ->
  (Rabs (v + w) <= 1000000000000000)%R /\ (Rabs (p + r) <= IZR (b1 + b2) * M)%R /\
  (Rabs (r32 (v + w) - (p + r)) <= IZR (e1 + e2 + b1 + b2 + 2) * (M / 16777216))%R.
Proof.
  intros HM H1 H2 B1 B2 P E Q G. unfold okM in HM.
  pose proof (IZR_le _ _ (proj1 H1)). pose proof (IZR_le _ _ (proj2 H1)). pose proof (IZR_le _ _ (proj1 H2)). pose proof (IZR_le _ _ (proj2 H2)).
  pose proof (IZR_le _ _ (proj1 B1)). pose proof (IZR_le _ _ (proj2 B1)). pose proof (IZR_le _ _ (proj1 B2)). pose proof (IZR_le _ _ (proj2 B2)).
  replace (IZR (e1 + e2 + b1 + b2 + 2)) with (IZR e1 + IZR e2 + IZR b1 + IZR b2 + 2)%R by (now rewrite !plus_IZR).
  rewrite plus_IZR. set (a1 := IZR e1) in *. set (a2 := IZR e2) in *. set (c1 := IZR b1) in *. set (c2 := IZR b2) in *.
  assert (B : (Rabs (p + r) <= (c1 + c2) * M)%R) by (eapply Rle_trans; [apply Rabs_triang|]; lra).
  assert (D : (Rabs (v + w - (p + r)) <= (a1 + a2) * (M / 16777216))%R).
  { replace (v + w - (p + r))%R with ((v - p) + (w - r))%R by ring. eapply Rle_trans; [apply Rabs_triang|]. lra. }
  assert (S : (Rabs (v + w) <= (c1 + c2 + 1 / 50) * M)%R).
  { replace (v + w)%R with (p + r + (v + w - (p + r)))%R by ring. eapply Rle_trans; [apply Rabs_triang|].
    assert ((a1 + a2) * (M / 16777216) <= 200000 * (M / 16777216))%R by (apply Rmult_le_compat_r; lra). lra. }
  assert (S' : ((c1 + c2 + 1 / 50) * M <= 2001 * 1000000)%R) by (apply Rmult_le_compat; lra).
  split; [lra|]. split; [exact B|].
  pose proof (r32_error (v + w)) as R1. pose proof tiny_small as T.
  replace (r32 (v + w) - (p + r))%R with ((r32 (v + w) - (v + w)) + (v + w - (p + r)))%R by ring.
  eapply Rle_trans; [apply Rabs_triang|].
  assert (Rabs (v + w) / 16777216 <= (c1 + c2 + 1 / 50) * M / 16777216)%R by (apply Rmult_le_compat_r; lra).
  replace ((a1 + a2 + c1 + c2 + 2) * (M / 16777216))%R with ((a1 + a2) * (M / 16777216) + (c1 + c2 + 1 / 50) * M / 16777216 + (198 / 100) * (M / 16777216))%R by field.
  lra.
Qed.

Lemma apx_add M x y p r b1 e1 b2 e2 : okM M -> apx M x p b1 e1 -> apx M y r b2 e2 ->
  0 <= e1 <= 100000 -> 0 <= e2 <= 100000 -> 0 <= b1 <= 1000 -> 0 <= b2 <= 1000 ->
  apx M (fadd A x y) (fadd RA p r) (b1 + b2) (e1 + e2 + b1 + b2 + 2).
Proof.
  intros HM (v & V & P & E) (w & W & Q & G) H1 H2 B1 B2.
  destruct (apx_sum_aux M v w p r b1 e1 b2 e2 HM H1 H2 B1 B2 P E Q G) as (S1 & S2 & S3).
  exists (r32 (v + w)). split; [|split; [exact S2|exact S3]]. now apply v_add.
Qed.
Lemma apx_opp M x r b e : apx M x r b e -> apx M (fopp A x) (fopp RA r) b e.
Proof.
  intros (v & V & P & E). exists (- v)%R. change (fopp RA r) with (- r)%R. split; [now apply fv_opp|]. split; [now rewrite Rabs_Ropp|].
  set (r' := r : R) in *. change (F RA) with R in *. clearbody r'.
  replace (- v - - r')%R with (- (v - r'))%R by ring. now rewrite Rabs_Ropp.
Qed.
Lemma apx_sub M x y p r b1 e1 b2 e2 : okM M -> apx M x p b1 e1 -> apx M y r b2 e2 ->
  0 <= e1 <= 100000 -> 0 <= e2 <= 100000 -> 0 <= b1 <= 1000 -> 0 <= b2 <= 1000 ->
  apx M (fsub A x y) (fsub RA p r) (b1 + b2) (e1 + e2 + b1 + b2 + 2).
Proof.
  intros HM (v & V & P & E) (w & W & Q & G) H1 H2 B1 B2.
  assert (Q' : (Rabs (- r) <= IZR b2 * M)%R) by now rewrite Rabs_Ropp.
  assert (G' : (Rabs (- w - - r) <= IZR e2 * (M / 16777216))%R).
  { replace (- w - - r)%R with (- (w - r))%R by ring. now rewrite Rabs_Ropp. }
  destruct (apx_sum_aux M v (- w) p (- r) b1 e1 b2 e2 HM H1 H2 B1 B2 P E Q' G') as (S1 & S2 & S3).
  exists (r32 (v + - w)). split; [|split; [exact S2|exact S3]]. now apply v_sub.
Qed.
Lemma apx_zero M : okM M -> apx M (fnum A 0) (fnum RA 0) 0 0.
Proof.
  intros HM. unfold okM in HM. exists 0%R. split; [apply (v_int 0); lia|]. change (fnum RA 0) with (IZR 0).
  rewrite Rminus_0_r, Rabs_R0. lra.
Qed.
Lemma apx_cos x r : accurate L -> v32 x r -> apx 1 (fcos A x) (fcos RA r) 1 4.
Proof.
  intros HL V. destruct (HL x r V) as (c & s & C & _ & E & _). exists c. split; [exact C|]. change (fcos RA r) with (cos r).
  pose proof (COS_bound r). split; [apply Rabs_le_of; lra|lra].
Qed.
Lemma apx_sin x r : accurate L -> v32 x r -> apx 1 (fsin A x) (fsin RA r) 1 4.
Proof.
  intros HL V. destruct (HL x r V) as (c & s & _ & C & _ & E). exists s. split; [exact C|]. change (fsin RA r) with (sin r).
  pose proof (SIN_bound r). split; [apply Rabs_le_of; lra|lra].
Qed.
Lemma apx_weaken M x r b e e' : okM M -> apx M x r b e -> e <= e' -> exists v : R, v32 x v /\ (Rabs (v - r) <= IZR e' * (M / 16777216))%R.
Proof.
  intros HM (v & V & _ & E) H. exists v. split; [exact V|]. eapply Rle_trans; [exact E|]. apply Rmult_le_compat_r; [unfold okM in HM; lra|now apply IZR_le].
Qed.
End Apx.
