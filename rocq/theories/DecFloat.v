(** * Decimal numbers read as IEEE doubles and floats: one rounding each *)
From Coq Require Import Reals Lra ZArith Lia Machin Ratan Floats.SpecFloat.
From Flocq Require Import Core BinarySingleNaN.
From Verif Require Import Base Arith FloatBridge ServoFloat.
Open Scope Z_scope.

Section Dec.
Context (prec emax : Z) {Hp : Prec_gt_0 prec} {Hm : Prec_lt_emax prec emax}.

(** SFdiv rounds correctly also operands that are not normalised *)
Lemma fv_div_raw p q : (Rabs (rnd prec emax (IZR (Zpos p) / IZR (Zpos q))) < bpow radix2 emax)%R ->
  fv prec emax (SFdiv prec emax (S754_finite false p 0) (S754_finite false q 0)) (rnd prec emax (IZR (Zpos p) / IZR (Zpos q))).
Proof.
  intros S. pose proof (Bdiv_correct_aux prec emax Hp Hm mode_NE false p 0 false q 0) as C. cbv zeta in C.
  cbn [SFdiv]. destruct (SFdiv_core_binary prec emax (Z.pos p) 0 (Z.pos q) 0) as [[mz ez] lz].
  unfold F2R in C. cbn [Fnum Fexp cond_Zopp SpecFloat.cond_Zopp] in C. cbn [bpow] in C. rewrite !Rmult_1_r in C.
  destruct C as [V C]. unfold rnd in *. cbn [round_mode] in C. rewrite Rlt_bool_true in C by exact S. destruct C as (C1 & C2 & _).
  rewrite (round_aux_eq prec emax). cbn [xorb] in *.
  match type of C1 with SF2R radix2 ?z = _ => change (fv prec emax z (rnd prec emax (IZR (Z.pos p) / IZR (Z.pos q)))); replace (rnd prec emax (IZR (Z.pos p) / IZR (Z.pos q))) with (SF2R radix2 z) by exact C1 end.
  apply fv_valid; assumption.
Qed.

Lemma powerRZ_10 e : 0 <= e -> powerRZ 10 e = IZR (10 ^ e).
Proof.
  intros H. rewrite <- (Z2Nat.id e H) at 1. rewrite <- pow_powerRZ. rewrite pow_IZR. f_equal. f_equal. lia.
Qed.
Lemma rdec_sign n m e : rdec n m e = (if n then - rdec false m e else rdec false m e)%R.
Proof. unfold rdec. destruct n; ring. Qed.

(** the decimal m * 10^e, correctly rounded *)
Lemma fv_dec n m e : 0 <= m -> (Rabs (rnd prec emax (rdec n m e)) < bpow radix2 emax)%R -> fv prec emax (sf_dec prec emax n m e) (rnd prec emax (rdec n m e)).
Proof.
  intros M S.
  assert (K : (Rabs (rnd prec emax (rdec false m e)) < bpow radix2 emax)%R).
  { rewrite rdec_sign in S. destruct n; [|exact S]. rewrite rnd_opp, Rabs_Ropp in S. exact S. }
  assert (P : fv prec emax (sf_dec prec emax false m e) (rnd prec emax (rdec false m e))).
  { unfold sf_dec, sf_signed. destruct (Z.leb_spec 0 e) as [E|E].
    - assert (EQ : rdec false m e = (IZR (m * 10 ^ e) * bpow radix2 0)%R).
      { unfold rdec. rewrite powerRZ_10 by exact E. rewrite mult_IZR. cbn [bpow]. ring. }
      rewrite EQ in *. now apply fv_normalize.
    - destruct m as [|p|p]; [|clear S|lia].
      + replace (rdec false 0 e) with 0%R by (unfold rdec; ring). rewrite rnd_0. apply fv_zero.
      + destruct (10 ^ - e) as [|q|q] eqn:Q; [pose proof (Z.pow_pos_nonneg 10 (- e) ltac:(lia) ltac:(lia)); lia| |pose proof (Z.pow_pos_nonneg 10 (- e) ltac:(lia) ltac:(lia)); lia].
        assert (EQ : rdec false (Z.pos p) e = (IZR (Zpos p) / IZR (Zpos q))%R).
        { unfold rdec. rewrite <- (Z.opp_involutive e), powerRZ_neg'. rewrite powerRZ_10 by lia. rewrite Q. unfold Rdiv. ring. }
        rewrite EQ in *. now apply fv_div_raw. }
  assert (SG : sf_dec prec emax n m e = if n then SFopp (sf_dec prec emax false m e) else sf_dec prec emax false m e) by (destruct n; reflexivity).
  rewrite SG, rdec_sign. destruct n; [|exact P]. rewrite rnd_opp. now apply fv_opp.
Qed.
End Dec.

(** ten digits of pi *)
Open Scope R_scope.
Lemma PI_digits : 31415926535 / 10000000000 <= PI <= 31415926536 / 10000000000.
Proof.
  pose proof (PI_2_3_7_ineq 5) as [H1 H2]. 
  unfold tg_alt, PI_2_3_7_tg, Ratan_seq in *. 
  cbn [Nat.mul Nat.add sum_f_R0] in *.
  cbn [Nat.mul Nat.add sum_f_R0 pow] in H1, H2. 
  repeat match goal with H : context [INR ?n] |- _ => let z := eval vm_compute in (Z.of_nat n) in replace (INR n) with (IZR z) in H by (rewrite INR_IZR_INZ; reflexivity) end.
  split; lra.
Qed.
