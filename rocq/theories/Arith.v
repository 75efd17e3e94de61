(** * Arith: the C++ floating-point operations used by the motion code.

    [float] and [double] are two abstract types with the C operations between them;
    every model of motion code is generic in this record, so a theorem stated for
    every [arith] holds in particular for IEEE arithmetic with any libm, for exact
    arithmetic, and for arithmetic with NaN.
    Three instances:
    - [RA]   exact real arithmetic (float = double = R, no rounding, no NaN);
    - [NRA]  exact real arithmetic with NaN ([None]): invalid operations give NaN;
    - [IEEE] binary32/binary64 with round-to-nearest-even (Coq's SpecFloat), for any
             mathematical library. *)
From Verif Require Import Base.
From Coq Require Import Reals Lra Floats.SpecFloat.

Record arith := mkArith {
  F : Type;                         (* float *)
  D : Type;                         (* double *)
  fadd : F -> F -> F;  fsub : F -> F -> F;  fmul : F -> F -> F;  fdiv : F -> F -> F;
  fopp : F -> F;       fabsf : F -> F;
  flt : F -> F -> bool; fle : F -> F -> bool; feq : F -> F -> bool;
  fofz : Z -> F;                    (* int/unsigned -> float *)
  ftoz : F -> option Z;             (* truncation towards zero; None: NaN or infinity *)
  f2d : F -> D;        d2f : D -> F;
  dadd : D -> D -> D;  dsub : D -> D -> D;  dmul : D -> D -> D;  ddiv : D -> D -> D;
  dopp : D -> D;       dabs : D -> D;
  dlt : D -> D -> bool; dle : D -> D -> bool;
  ddec : bool -> Z -> Z -> D;       (* the double written as (-1)^neg * m * 10^e *)
  dhex : bool -> Z -> Z -> D;       (* ... (-1)^neg * m * 2^e *)
  dinf : bool -> D;    dnan : D;
  dpi : D;                          (* PI, Arduino.h *)
  (* libm *)
  fsin : F -> F;  fcos : F -> F;  facos : F -> F;  fasin : F -> F;
  fatan2 : F -> F -> F;  fsqrt : F -> F;
  dsin : D -> D;  dcos : D -> D;  dacos : D -> D;
  dsqrt : D -> D;  dfmod : D -> D -> D;  datan2 : D -> D -> D }.

(** isnan(x) *)
Definition fisnan (A : arith) (x : F A) : bool := negb (feq A x x).

(** ** Exact arithmetic *)
Definition rltb (x y : R) : bool := if Rlt_dec x y then true else false.
Definition rleb (x y : R) : bool := if Rle_dec x y then true else false.
Definition reqb (x y : R) : bool := if Req_EM_T x y then true else false.

(** truncation towards zero *)
Definition rtrunc (x : R) : Z :=
  if Rle_dec 0 x then Int_part x else (- Int_part (- x))%Z.

Definition rdec (neg : bool) (m e : Z) : R :=
  ((if neg then -1 else 1) * IZR m * powerRZ 10 e)%R.
Definition rhex (neg : bool) (m e : Z) : R :=
  ((if neg then -1 else 1) * IZR m * powerRZ 2 e)%R.

(** the mathematical atan2 (0 at the origin, as in C) *)
Definition ratan2 (y x : R) : R :=
  if Rlt_dec 0 x then atan (y / x)
  else if Rlt_dec x 0 then (if Rle_dec 0 y then atan (y / x) + PI else atan (y / x) - PI)
  else if Rlt_dec 0 y then PI / 2
  else if Rlt_dec y 0 then - (PI / 2)
  else 0.

(** fmod: x - n*y with n = x/y truncated towards zero *)
Definition rfmod (x y : R) : R := (x - IZR (rtrunc (x / y)) * y)%R.

Definition RA : arith := {|
  F := R; D := R;
  fadd := Rplus; fsub := Rminus; fmul := Rmult; fdiv := Rdiv;
  fopp := Ropp; fabsf := Rabs;
  flt := rltb; fle := rleb; feq := reqb;
  fofz := IZR; ftoz := fun x => Some (rtrunc x);
  f2d := fun x => x; d2f := fun x => x;
  dadd := Rplus; dsub := Rminus; dmul := Rmult; ddiv := Rdiv;
  dopp := Ropp; dabs := Rabs; dlt := rltb; dle := rleb;
  ddec := rdec; dhex := rhex;
  (* infinities and NaN do not exist in exact arithmetic; theorems over RA never
     feed them *)
  dinf := fun _ => 0%R; dnan := 0%R;
  dpi := PI;
  fsin := sin; fcos := cos; facos := acos; fasin := asin; fatan2 := ratan2; fsqrt := sqrt;
  dsin := sin; dcos := cos; dacos := acos; dsqrt := sqrt; dfmod := rfmod; datan2 := ratan2 |}.

(** ** Exact arithmetic with NaN = None *)
Definition lift1 (f : R -> R) (x : option R) : option R :=
  match x with Some a => Some (f a) | None => None end.
Definition lift2 (f : R -> R -> R) (x y : option R) : option R :=
  match x, y with Some a, Some b => Some (f a b) | _, _ => None end.
Definition cmp2 (f : R -> R -> bool) (x y : option R) : bool :=
  match x, y with Some a, Some b => f a b | _, _ => false end.
(** x/0 is an infinity or NaN in C; the only quotients whose divisor can vanish are
    arguments of acos, and acos of either is NaN *)
Definition ndiv (x y : option R) : option R :=
  match x, y with
  | Some a, Some b => if Req_EM_T b 0 then None else Some (a / b)%R
  | _, _ => None
  end.
Definition nacos (x : option R) : option R :=
  match x with
  | Some a => if Rle_dec (-1) a then if Rle_dec a 1 then Some (acos a) else None else None
  | None => None
  end.
Definition nasin (x : option R) : option R :=
  match x with
  | Some a => if Rle_dec (-1) a then if Rle_dec a 1 then Some (asin a) else None else None
  | None => None
  end.
Definition nsqrt (x : option R) : option R :=
  match x with
  | Some a => if Rle_dec 0 a then Some (sqrt a) else None
  | None => None
  end.

Definition NRA : arith := {|
  F := option R; D := option R;
  fadd := lift2 Rplus; fsub := lift2 Rminus; fmul := lift2 Rmult; fdiv := ndiv;
  fopp := lift1 Ropp; fabsf := lift1 Rabs;
  flt := cmp2 rltb; fle := cmp2 rleb; feq := cmp2 reqb;
  fofz := fun z => Some (IZR z);
  ftoz := fun x => match x with Some a => Some (rtrunc a) | None => None end;
  f2d := fun x => x; d2f := fun x => x;
  dadd := lift2 Rplus; dsub := lift2 Rminus; dmul := lift2 Rmult; ddiv := ndiv;
  dopp := lift1 Ropp; dabs := lift1 Rabs; dlt := cmp2 rltb; dle := cmp2 rleb;
  ddec := fun n m e => Some (rdec n m e); dhex := fun n m e => Some (rhex n m e);
  dinf := fun _ => None; dnan := None;
  dpi := Some PI;
  fsin := lift1 sin; fcos := lift1 cos; facos := nacos; fasin := nasin;
  fatan2 := lift2 ratan2; fsqrt := nsqrt;
  dsin := lift1 sin; dcos := lift1 cos; dacos := nacos; dsqrt := nsqrt;
  dfmod := lift2 rfmod; datan2 := lift2 ratan2 |}.

(** ** IEEE binary32 / binary64, round to nearest even *)
Record libm := mkLibm {
  m_fsin : spec_float -> spec_float; m_fcos : spec_float -> spec_float;
  m_facos : spec_float -> spec_float; m_fasin : spec_float -> spec_float;
  m_fatan2 : spec_float -> spec_float -> spec_float;
  m_dsin : spec_float -> spec_float; m_dcos : spec_float -> spec_float;
  m_dacos : spec_float -> spec_float; m_dfmod : spec_float -> spec_float -> spec_float;
  m_datan2 : spec_float -> spec_float -> spec_float }.

Definition sf_signed (neg : bool) (x : spec_float) : spec_float := if neg then SFopp x else x.

(** convert between formats, rounding to nearest even *)
Definition sf_conv (prec emax : Z) (x : spec_float) : spec_float :=
  match x with
  | S754_finite s m e => binary_normalize prec emax (cond_Zopp s (Zpos m)) e s
  | _ => x
  end.

(** m * 10^e *)
Definition sf_dec (prec emax : Z) (neg : bool) (m e : Z) : spec_float :=
  sf_signed neg
    (if 0 <=? e then binary_normalize prec emax (m * 10 ^ e) 0 false
     else match m with
          | Zpos p => SFdiv prec emax (S754_finite false p 0)
                        (match 10 ^ (- e) with Zpos q => S754_finite false q 0 | _ => S754_nan end)
          | _ => S754_zero false
          end).

(** truncation towards zero *)
Definition sf_trunc (x : spec_float) : option Z :=
  match x with
  | S754_zero _ => Some 0
  | S754_finite s m e =>
      Some (cond_Zopp s (if 0 <=? e then Zpos m * 2 ^ e else Zpos m / 2 ^ (- e)))
  | _ => None
  end.

Definition sf_pi : spec_float := sf_dec 53 1024 false 31415926535897932384626433832795 (-31).

Definition IEEE (L : libm) : arith := {|
  F := spec_float; D := spec_float;
  fadd := SFadd 24 128; fsub := SFsub 24 128; fmul := SFmul 24 128; fdiv := SFdiv 24 128;
  fopp := SFopp; fabsf := SFabs;
  flt := SFltb; fle := SFleb; feq := SFeqb;
  fofz := fun z => binary_normalize 24 128 z 0 false;
  ftoz := sf_trunc;
  f2d := sf_conv 53 1024; d2f := sf_conv 24 128;
  dadd := SFadd 53 1024; dsub := SFsub 53 1024; dmul := SFmul 53 1024; ddiv := SFdiv 53 1024;
  dopp := SFopp; dabs := SFabs; dlt := SFltb; dle := SFleb;
  ddec := sf_dec 53 1024;
  dhex := fun n m e => sf_signed n (binary_normalize 53 1024 m e false);
  dinf := S754_infinity; dnan := S754_nan;
  dpi := sf_pi;
  fsin := m_fsin L; fcos := m_fcos L; facos := m_facos L; fasin := m_fasin L;
  fatan2 := m_fatan2 L; fsqrt := SFsqrt 24 128;
  dsin := m_dsin L; dcos := m_dcos L; dacos := m_dacos L;
  dsqrt := SFsqrt 53 1024; dfmod := m_dfmod L; datan2 := m_datan2 L |}.

(** ** Facts about the exact instances *)
Lemma rltb_true x y : rltb x y = true <-> (x < y)%R.
Proof. unfold rltb; destruct (Rlt_dec x y); split; intros; auto; discriminate. Qed.
Lemma rltb_false x y : rltb x y = false <-> (y <= x)%R.
Proof. unfold rltb; destruct (Rlt_dec x y); split; intros; auto; try discriminate; lra. Qed.
Lemma rleb_true x y : rleb x y = true <-> (x <= y)%R.
Proof. unfold rleb; destruct (Rle_dec x y); split; intros; auto; discriminate. Qed.
Lemma rleb_false x y : rleb x y = false <-> (y < x)%R.
Proof. unfold rleb; destruct (Rle_dec x y); split; intros; auto; try discriminate; lra. Qed.
Lemma reqb_true x y : reqb x y = true <-> x = y.
Proof. unfold reqb; destruct (Req_EM_T x y); split; intros; auto; try discriminate; congruence. Qed.
Lemma reqb_false x y : reqb x y = false <-> x <> y.
Proof. unfold reqb; destruct (Req_EM_T x y); split; intros; auto; try discriminate; congruence. Qed.
Lemma reqb_refl x : reqb x x = true.
Proof. now apply reqb_true. Qed.

Lemma Int_part_bound x : (IZR (Int_part x) <= x < IZR (Int_part x) + 1)%R.
Proof. destruct (base_Int_part x); lra. Qed.

(** truncation of a non-negative number *)
Lemma rtrunc_pos x : (0 <= x)%R -> (IZR (rtrunc x) <= x < IZR (rtrunc x) + 1)%R /\ 0 <= rtrunc x.
Proof.
  intros H. unfold rtrunc. destruct (Rle_dec 0 x); [|lra].
  pose proof (Int_part_bound x). split; [lra|].
  assert (-1 < Int_part x) by (apply lt_IZR; lra). lia.
Qed.
Lemma rtrunc_neg x : (x <= 0)%R -> (IZR (rtrunc x) - 1 < x <= IZR (rtrunc x))%R /\ rtrunc x <= 0.
Proof.
  intros H. unfold rtrunc. destruct (Rle_dec 0 x) as [H0|H0].
  - assert (x = 0%R) by lra. subst x.
    pose proof (Int_part_bound 0).
    assert (-1 < Int_part 0) by (apply lt_IZR; lra).
    assert (Int_part 0 < 1) by (apply lt_IZR; lra).
    assert (Int_part 0 = 0) as -> by lia. split; [lra|lia].
  - pose proof (Int_part_bound (- x)). rewrite opp_IZR. split; [lra|].
    assert (-1 < Int_part (-x)) by (apply lt_IZR; lra). lia.
Qed.
Lemma rtrunc_IZR z : rtrunc (IZR z) = z.
Proof.
  destruct (Z_le_dec 0 z) as [H|H].
  - destruct (rtrunc_pos (IZR z)) as [[A B] _]; [now apply IZR_le|].
    rewrite <- plus_IZR in B. apply le_IZR in A. apply lt_IZR in B. lia.
  - destruct (rtrunc_neg (IZR z)) as [[A B] _]; [apply IZR_le; lia|].
    apply le_IZR in B. rewrite <- minus_IZR in A. apply lt_IZR in A. lia.
Qed.
(** truncation is monotone *)
Lemma rtrunc_mono x y : (x <= y)%R -> rtrunc x <= rtrunc y.
Proof.
  intros H. destruct (Rle_dec 0 x) as [Hx|Hx].
  - destruct (rtrunc_pos x Hx) as [[A B] _]. destruct (rtrunc_pos y) as [[C E] _]; [lra|].
    assert (IZR (rtrunc x) < IZR (rtrunc y) + 1)%R as K by lra.
    rewrite <- plus_IZR in K. apply lt_IZR in K. lia.
  - destruct (rtrunc_neg x) as [[A B] C]; [lra|].
    destruct (Rle_dec 0 y) as [Hy|Hy].
    + destruct (rtrunc_pos y Hy) as [_ G]. lia.
    + destruct (rtrunc_neg y) as [[E G] _]; [lra|].
      assert (IZR (rtrunc x) - 1 < IZR (rtrunc y))%R as K by lra.
      rewrite <- minus_IZR in K. apply lt_IZR in K. lia.
Qed.

Lemma rdec_pos m e : 0 < m -> (0 < rdec false m e)%R.
Proof.
  intros H. unfold rdec. apply IZR_lt in H.
  pose proof (powerRZ_lt 10 e ltac:(lra)). nra.
Qed.
Lemma rdec_int m : rdec false m 0 = IZR m.
Proof. unfold rdec. rewrite powerRZ_O. ring. Qed.
Lemma rdec_1 m : rdec false m (-1) = (IZR m / 10)%R.
Proof. unfold rdec, powerRZ. rewrite Pos2Nat.inj_1. field. Qed.
