(** * IEEE floats as rounded reals.

    [Arith.IEEE] computes with the binary32/binary64 operations of Coq's SpecFloat.  Here each operation is
    related to exact arithmetic followed by one rounding to nearest even (through Flocq's BinarySingleNaN). *)
From Coq Require Import Reals Lra ZArith Lia Floats.SpecFloat.
From Flocq Require Import Core BinarySingleNaN Relative.
From Verif Require Import Base Arith.
Open Scope Z_scope.

Section Format.
Context (prec emax : Z) {Hp : Prec_gt_0 prec} {Hm : Prec_lt_emax prec emax}.
Notation emin := (3 - emax - prec).
Notation fexp := (FLT_exp emin prec).

(** rounding to nearest even in the format *)
Definition rnd (x : R) : R := round radix2 fexp ZnearestE x.

(** [fv x r]: x is a finite float of the format, of value r *)
Definition fv (x : spec_float) (r : R) : Prop :=
  exists b : binary_float prec emax, B2SF b = x /\ is_finite b = true /\ B2R b = r.

Lemma fv_inj x r r' : fv x r -> fv x r' -> r = r'.
Proof.
  intros (b & E & _ & <-) (b' & E' & _ & <-). rewrite <- !SF2R_B2SF. congruence.
Qed.
Lemma fv_valid x : valid_binary prec emax x = true -> is_finite_SF x = true -> fv x (SF2R radix2 x).
Proof.
  intros V F. exists (SF2B x V). rewrite B2SF_SF2B, is_finite_SF2B, B2R_SF2B. auto.
Qed.
Lemma fv_format x r : fv x r -> generic_format radix2 fexp r.
Proof. intros (b & _ & _ & <-). apply generic_format_B2R. Qed.
Lemma fv_rnd x r : fv x r -> rnd r = r.
Proof. intros H. apply round_generic; [apply valid_rnd_N|]. eapply fv_format; eauto. Qed.
Lemma fv_zero s : fv (S754_zero s) 0.
Proof. exists (B754_zero s). repeat split. Qed.

(** ** the operations of SpecFloat are those of Flocq *)
Lemma round_nearest_even_eq s m l : round_nearest_even m l = choice_mode mode_NE s m l.
Proof. destruct l as [|c]; [reflexivity|]. destruct c; try reflexivity. cbn. unfold Round.cond_incr. now destruct (Z.even m). Qed.
Lemma round_aux_eq sx mx ex lx :
  SpecFloat.binary_round_aux prec emax sx mx ex lx = BinarySingleNaN.binary_round_aux prec emax mode_NE sx mx ex lx.
Proof.
  unfold SpecFloat.binary_round_aux, BinarySingleNaN.binary_round_aux.
  destruct (shr_fexp _ _ _ _ _) as [mrs e']. now rewrite (round_nearest_even_eq sx).
Qed.
Lemma round_eq s m e : SpecFloat.binary_round prec emax s m e = BinarySingleNaN.binary_round prec emax mode_NE s m e.
Proof.
  unfold SpecFloat.binary_round, BinarySingleNaN.binary_round, shl_align_fexp.
  destruct (shl_align _ _ _) as [mz ez]. apply round_aux_eq.
Qed.
Lemma normalize_eq m e z : SpecFloat.binary_normalize prec emax m e z = B2SF (BinarySingleNaN.binary_normalize prec emax Hp Hm mode_NE m e z).
Proof. destruct m; cbn; [reflexivity|rewrite B2SF_SF2B; apply round_eq..]. Qed.

Lemma mul_eq (x y : binary_float prec emax) : SFmul prec emax (B2SF x) (B2SF y) = B2SF (Bmult mode_NE x y).
Proof.
  destruct x as [sx|sx| |sx mx ex Bx], y as [sy|sy| |sy my ey By]; try reflexivity.
  cbn. rewrite B2SF_SF2B. apply round_aux_eq.
Qed.
Lemma add_eq (x y : binary_float prec emax) : SFadd prec emax (B2SF x) (B2SF y) = B2SF (Bplus mode_NE x y).
Proof.
  destruct x as [sx|sx| |sx mx ex Bx], y as [sy|sy| |sy my ey By]; try (cbn; try destruct (Bool.eqb _ _); reflexivity).
  apply normalize_eq.
Qed.
Lemma sub_eq (x y : binary_float prec emax) : SFsub prec emax (B2SF x) (B2SF y) = B2SF (Bminus mode_NE x y).
Proof.
  destruct x as [sx|sx| |sx mx ex Bx], y as [sy|sy| |sy my ey By]; try (cbn; try destruct (Bool.eqb _ _); reflexivity).
  simpl. unfold Zminus. rewrite <- cond_Zopp_negb. apply normalize_eq.
Qed.
Lemma div_eq (x y : binary_float prec emax) : SFdiv prec emax (B2SF x) (B2SF y) = B2SF (Bdiv mode_NE x y).
Proof.
  destruct x as [sx|sx| |sx mx ex Bx], y as [sy|sy| |sy my ey By]; try (cbn; try destruct (Bool.eqb _ _); reflexivity).
  cbn. rewrite B2SF_SF2B. destruct (SFdiv_core_binary _ _ _ _ _ _) as [[mz ez] lz]. apply round_aux_eq.
Qed.

Notation small a := (Rabs a < bpow radix2 emax)%R.
Lemma rnd_small (a : R) m : (Rabs a <= bpow radix2 m)%R -> emin <= m < emax -> small (rnd a).
Proof.
  intros H M. apply Rle_lt_trans with (bpow radix2 m); [|apply bpow_lt; lia].
  apply abs_round_le_generic; auto; try apply FLT_exp_valid; try apply valid_rnd_N; auto.
  apply generic_format_bpow. unfold FLT_exp. pose proof Hp. unfold Prec_gt_0 in *. destruct (Z.max_spec (m + 1 - prec) emin) as [[_ ->]|[_ ->]]; lia.
Qed.

Lemma fv_add x y a b : fv x a -> fv y b -> small (rnd (a + b)) -> fv (SFadd prec emax x y) (rnd (a + b)).
Proof.
  intros (p & <- & Fp & <-) (q & <- & Fq & <-) S. pose proof (Bplus_correct prec emax Hp Hm mode_NE p q Fp Fq) as C.
  cbn [round_mode] in C. unfold rnd in *. rewrite Rlt_bool_true in C by exact S. destruct C as (C1 & C2 & _).
  exists (Bplus mode_NE p q). rewrite add_eq. auto.
Qed.
Lemma fv_sub x y a b : fv x a -> fv y b -> small (rnd (a - b)) -> fv (SFsub prec emax x y) (rnd (a - b)).
Proof.
  intros (p & <- & Fp & <-) (q & <- & Fq & <-) S. pose proof (Bminus_correct prec emax Hp Hm mode_NE p q Fp Fq) as C.
  cbn [round_mode] in C. unfold rnd in *. rewrite Rlt_bool_true in C by exact S. destruct C as (C1 & C2 & _).
  exists (Bminus mode_NE p q). rewrite sub_eq. auto.
Qed.
Lemma fv_mul x y a b : fv x a -> fv y b -> small (rnd (a * b)) -> fv (SFmul prec emax x y) (rnd (a * b)).
Proof.
  intros (p & <- & Fp & <-) (q & <- & Fq & <-) S. pose proof (Bmult_correct prec emax Hp Hm mode_NE p q) as C.
  cbn [round_mode] in C. unfold rnd in *. rewrite Rlt_bool_true in C by exact S. destruct C as (C1 & C2 & _).
  exists (Bmult mode_NE p q). rewrite mul_eq. rewrite Fp, Fq in C2. auto.
Qed.
Lemma fv_div x y a b : fv x a -> fv y b -> b <> 0%R -> small (rnd (a / b)) -> fv (SFdiv prec emax x y) (rnd (a / b)).
Proof.
  intros (p & <- & Fp & <-) (q & <- & Fq & <-) N S. pose proof (Bdiv_correct prec emax Hp Hm mode_NE p q N) as C.
  cbn [round_mode] in C. unfold rnd in *. rewrite Rlt_bool_true in C by exact S. destruct C as (C1 & C2 & _).
  exists (Bdiv mode_NE p q). rewrite div_eq. rewrite Fp in C2. auto.
Qed.
Lemma fv_normalize m e z : small (rnd (IZR m * bpow radix2 e)) -> fv (SpecFloat.binary_normalize prec emax m e z) (rnd (IZR m * bpow radix2 e)).
Proof.
  intros S. pose proof (binary_normalize_correct prec emax Hp Hm mode_NE m e z) as C. cbn [round_mode] in C. unfold rnd in *.
  unfold F2R in C. cbn [Fnum Fexp] in C. rewrite Rlt_bool_true in C by exact S. destruct C as (C1 & C2 & _).
  exists (BinarySingleNaN.binary_normalize prec emax Hp Hm mode_NE m e z). rewrite normalize_eq. auto.
Qed.
Lemma fv_opp x a : fv x a -> fv (SFopp x) (- a).
Proof.
  intros (p & <- & Fp & <-). exists (Bopp p). rewrite is_finite_Bopp, B2R_Bopp. split; [|auto]. destruct p; reflexivity.
Qed.
Lemma fv_abs x a : fv x a -> fv (SFabs x) (Rabs a).
Proof.
  intros (p & <- & Fp & <-). exists (Babs p). rewrite is_finite_Babs, B2R_Babs. split; [|auto]. destruct p; reflexivity.
Qed.

(** comparisons are exact *)
Lemma fv_cmp x y a b : fv x a -> fv y b -> SFcompare x y = Some (Rcompare a b).
Proof. intros (p & <- & Fp & <-) (q & <- & Fq & <-). exact (Bcompare_correct prec emax p q Fp Fq). Qed.
Lemma fv_lt x y a b : fv x a -> fv y b -> SFltb x y = rltb a b.
Proof.
  intros P Q. unfold SFltb. rewrite (fv_cmp x y a b P Q). unfold rltb. destruct (Rlt_dec a b) as [H|H].
  - now rewrite Rcompare_Lt.
  - destruct (Rcompare_spec a b); auto; lra.
Qed.
Lemma fv_le x y a b : fv x a -> fv y b -> SFleb x y = rleb a b.
Proof.
  intros P Q. unfold SFleb. rewrite (fv_cmp x y a b P Q). unfold rleb. destruct (Rle_dec a b) as [H|H].
  - destruct (Rcompare_spec a b); auto; lra.
  - now rewrite Rcompare_Gt by lra.
Qed.
Lemma fv_eq x y a b : fv x a -> fv y b -> SFeqb x y = reqb a b.
Proof.
  intros P Q. unfold SFeqb. rewrite (fv_cmp x y a b P Q). unfold reqb. destruct (Req_EM_T a b) as [H|H].
  - now rewrite Rcompare_Eq.
  - destruct (Rcompare_spec a b); auto; lra.
Qed.

(** truncation towards zero is exact *)
Lemma fv_trunc x a : fv x a -> sf_trunc x = Some (rtrunc a).
Proof.
  intros (p & <- & Fp & <-). destruct p as [s|s| |s m e B]; try discriminate; cbn [B2SF sf_trunc].
  - f_equal. symmetry. apply (rtrunc_IZR 0).
  - f_equal. cbn [B2R]. unfold F2R. cbn [Fnum Fexp].
    assert (G : forall x y : R, rtrunc (- x) = - rtrunc x).
    { intros u _. destruct (Rle_dec 0 u) as [H|H].
      - destruct (rtrunc_pos u H) as [[A C] D]. destruct (rtrunc_neg (- u)) as [[A2 C2] D2]; [lra|].
        assert (IZR (rtrunc (- u)) < IZR (- rtrunc u + 1))%R as K by (rewrite plus_IZR, opp_IZR; lra).
        assert (IZR (- rtrunc u - 1) < IZR (rtrunc (- u)))%R as K2 by (rewrite minus_IZR, opp_IZR; lra).
        apply lt_IZR in K. apply lt_IZR in K2. lia.
      - destruct (rtrunc_neg u) as [[A C] D]; [lra|]. destruct (rtrunc_pos (- u)) as [[A2 C2] D2]; [lra|].
        assert (IZR (rtrunc (- u)) < IZR (- rtrunc u + 1))%R as K by (rewrite plus_IZR, opp_IZR; lra).
        assert (IZR (- rtrunc u - 1) < IZR (rtrunc (- u)))%R as K2 by (rewrite minus_IZR, opp_IZR; lra).
        apply lt_IZR in K. apply lt_IZR in K2. lia. }
    assert (P : (if 0 <=? e then Zpos m * 2 ^ e else Zpos m / 2 ^ (- e)) = rtrunc (IZR (Zpos m) * bpow radix2 e)).
    { destruct (Z.leb_spec 0 e) as [E|E].
      - rewrite <- IZR_Zpower by exact E. rewrite <- mult_IZR, rtrunc_IZR. reflexivity.
      - assert (Q : 0 < 2 ^ (- e)) by (apply Z.pow_pos_nonneg; lia).
        assert (BE : bpow radix2 e = (/ IZR (2 ^ (- e)))%R).
        { rewrite <- (Z.opp_involutive e) at 1. rewrite bpow_opp. f_equal. rewrite <- IZR_Zpower by lia. reflexivity. }
        rewrite BE. pose proof (Z.div_mod (Zpos m) (2 ^ (- e)) ltac:(lia)) as DM. pose proof (Z.mod_pos_bound (Zpos m) (2 ^ (- e)) Q) as MB.
        set (q := Zpos m / 2 ^ (- e)) in *. set (w := 2 ^ (- e)) in *.
        assert (V : (0 <= IZR (Zpos m) * / IZR w)%R).
        { apply Rmult_le_pos; [apply IZR_le; lia|]. left. apply Rinv_0_lt_compat. now apply IZR_lt. }
        destruct (rtrunc_pos _ V) as [[A C] D]. set (t := rtrunc (IZR (Zpos m) * / IZR w)) in *.
        assert (W : (0 < IZR w)%R) by now apply IZR_lt.
        assert (T : (IZR (Zpos m) * / IZR w * IZR w = IZR (Zpos m))%R) by (field; lra).
        assert (A' : (IZR t * IZR w <= IZR (Zpos m))%R) by (rewrite <- T; apply Rmult_le_compat_r; lra).
        assert (C' : (IZR (Zpos m) < (IZR t + 1) * IZR w)%R) by (rewrite <- T; apply Rmult_lt_compat_r; lra).
        rewrite <- mult_IZR in A'. apply le_IZR in A'. rewrite <- plus_IZR, <- mult_IZR in C'. apply lt_IZR in C'. nia. }
    rewrite P. destruct s; cbn [cond_Zopp SpecFloat.cond_Zopp]; [|reflexivity].
    rewrite <- (G _ 0%R). f_equal. change (IZR (Z.neg m)) with (IZR (- Z.pos m)). rewrite opp_IZR. ring.
Qed.

(** ** the rounding error *)
Definition half_ulp_rel : R := (/ 2 * bpow radix2 (- prec + 1))%R.
Definition eta : R := bpow radix2 emin.
Lemma rnd_error (x : R) : (Rabs (rnd x - x) <= half_ulp_rel * Rabs x + eta)%R.
Proof.
  unfold rnd, half_ulp_rel, eta. destruct (Rle_or_lt (bpow radix2 (emin + prec - 1)) (Rabs x)) as [H|H].
  - pose proof (relative_error_N_FLT radix2 emin prec Hp (fun x => negb (Z.even x)) x H) as E.
    pose proof (bpow_ge_0 radix2 emin). lra.
  - pose proof (error_le_half_ulp radix2 fexp (fun x => negb (Z.even x)) x) as E.
    assert (U : ulp radix2 fexp x = bpow radix2 emin).
    { apply ulp_FLT_small. exact Hp. replace (emin + prec) with (emin + prec - 1 + 1) by lia.
      apply Rlt_trans with (1 := H). apply bpow_lt. lia. }
    rewrite U in E. pose proof (bpow_ge_0 radix2 emin). pose proof (Rabs_pos x).
    assert (0 <= / 2 * bpow radix2 (- prec + 1))%R by (apply Rmult_le_pos; [lra|apply bpow_ge_0]).
    assert (0 <= / 2 * bpow radix2 (- prec + 1) * Rabs x)%R by (apply Rmult_le_pos; auto). lra.
Qed.
Lemma rnd_le a b : (a <= b)%R -> (rnd a <= rnd b)%R.
Proof. intros H. apply round_le; auto. apply FLT_exp_valid; exact Hp. apply valid_rnd_N. Qed.
Lemma rnd_0 : rnd 0 = 0%R.
Proof. apply round_0. apply valid_rnd_N. Qed.
Lemma rnd_IZR z : Z.abs z <= 2 ^ prec -> emin <= 0 -> rnd (IZR z) = IZR z.
Proof.
  intros H E. apply round_generic; [apply valid_rnd_N|]. destruct (Z.eq_dec (Z.abs z) (2 ^ prec)) as [Q|Q].
  - assert (K : generic_format radix2 fexp (bpow radix2 prec)).
    { apply generic_format_bpow. unfold FLT_exp. pose proof Hp as PP. unfold Prec_gt_0 in PP. destruct (Z.max_spec (prec + 1 - prec) emin) as [[_ ->]|[_ ->]]; lia. }
    assert (B : bpow radix2 prec = IZR (2 ^ prec)) by (rewrite <- IZR_Zpower; [reflexivity|pose proof Hp as PP; unfold Prec_gt_0 in PP; lia]).
    rewrite B in K. destruct (Z.abs_spec z) as [[_ A]|[_ A]].
    + replace z with (2 ^ prec) by lia. exact K.
    + replace z with (- (2 ^ prec)) by lia. rewrite opp_IZR. now apply generic_format_opp.
  - apply generic_format_FLT. exists (Float radix2 z 0).
    + unfold F2R. cbn. ring.
    + cbn. apply Z.lt_le_trans with (2 ^ prec); [lia|]. reflexivity || apply Z.le_refl.
    + cbn. exact E.
Qed.
Lemma rnd_pos a : (0 <= a)%R -> (0 <= rnd a)%R.
Proof. intros H. rewrite <- rnd_0. now apply rnd_le. Qed.
Lemma rnd_opp a : rnd (- a) = (- rnd a)%R.
Proof. unfold rnd. apply round_NE_opp. Qed.
End Format.

(** conversion between formats *)
Lemma fv_conv p1 e1 p2 e2 {H1 : Prec_gt_0 p1} {M1 : Prec_lt_emax p1 e1} {H2 : Prec_gt_0 p2} {M2 : Prec_lt_emax p2 e2} x a :
  fv p1 e1 x a -> (Rabs (rnd p2 e2 a) < bpow radix2 e2)%R -> fv p2 e2 (sf_conv p2 e2 x) (rnd p2 e2 a).
Proof.
  intros (p & <- & Fp & <-) S. destruct p as [s|s| |s m e B]; try discriminate; cbn [B2SF sf_conv B2R] in *.
  - rewrite rnd_0. apply fv_zero.
  - unfold F2R in *. cbn [Fnum Fexp] in *.
    replace (SpecFloat.cond_Zopp s (Z.pos m)) with (cond_Zopp s (Z.pos m)) by reflexivity.
    apply fv_normalize; auto.
Qed.
