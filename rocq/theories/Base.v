(** * Base: C++ values, undefined behaviour as an explicit outcome, byte arrays.

    Everything in this file is a general reading of C++ on the 32-bit target
    (Teensy, ARM): [unsigned] is 32 bit, [char] arrays are byte arrays.  Bytes are
    represented by their unsigned value in 0..255. *)
From Coq Require Export List ZArith Lia Bool.
Export ListNotations.
Open Scope Z_scope.

(** Why an execution stopped being defined. *)
Inductive fault :=
| OobRead        (* read outside an array *)
| OobWrite       (* write outside an array *)
| DivZero        (* integer division/modulo by zero *)
| SignedOverflow (* signed integer overflow (also inside atoi/atol) *)
| BadConv        (* float -> int conversion out of range / of NaN *)
| Uninit         (* use of an indeterminate value *)
| Diverge.       (* the loop bound chosen for the model was exhausted *)

(** Outcome of running a piece of code. *)
Inductive res (A : Type) :=
| Ok (a : A)
| Ub (f : fault).
Arguments Ok {A} a.
Arguments Ub {A} f.

Definition bind {A B} (x : res A) (f : A -> res B) : res B :=
  match x with Ok a => f a | Ub e => Ub e end.

Notation "'do' x <- e ; f" := (bind e (fun x => f))
  (at level 200, x pattern, e at level 100, f at level 200).

(** unsigned int / uint32_t arithmetic *)
Definition u32 (x : Z) : Z := x mod 4294967296.

Definition zlen {A} (l : list A) : Z := Z.of_nat (length l).
Arguments zlen : simpl never.

(** Array read with bounds check. *)
Definition zget {A} (l : list A) (i : Z) : res A :=
  if (0 <=? i) && (i <? zlen l) then
    match nth_error l (Z.to_nat i) with Some a => Ok a | None => Ub OobRead end
  else Ub OobRead.

(** Replace element number [n] (unchanged when out of range). *)
Fixpoint upd {A} (l : list A) (n : nat) (v : A) : list A :=
  match l, n with
  | [], _ => []
  | _ :: r, O => v :: r
  | a :: r, S m => a :: upd r m v
  end.

(** Array write with bounds check. *)
Definition zset {A} (l : list A) (i : Z) (v : A) : res (list A) :=
  if (0 <=? i) && (i <? zlen l) then Ok (upd l (Z.to_nat i) v) else Ub OobWrite.

(** ** Lemmas *)

(** split conjunctions only (does not unfold definitions) *)
Ltac splits := repeat match goal with |- _ /\ _ => split end.


Lemma zlen_nonneg {A} (l : list A) : 0 <= zlen l.
Proof. unfold zlen; lia. Qed.

Lemma zlen_nil {A} : zlen (@nil A) = 0.
Proof. reflexivity. Qed.

Lemma zlen_cons {A} (a : A) l : zlen (a :: l) = zlen l + 1.
Proof. unfold zlen; cbn [length]; lia. Qed.

Lemma zlen_app {A} (l m : list A) : zlen (l ++ m) = zlen l + zlen m.
Proof. unfold zlen; rewrite app_length; lia. Qed.

Lemma length_upd {A} (l : list A) n v : length (upd l n v) = length l.
Proof.
  revert n; induction l as [|a l IH]; intros [|n]; cbn; auto.
Qed.

Lemma zlen_upd {A} (l : list A) n v : zlen (upd l n v) = zlen l.
Proof. unfold zlen; now rewrite length_upd. Qed.

Lemma nth_upd_same {A} (l : list A) n v d :
  (n < length l)%nat -> nth n (upd l n v) d = v.
Proof.
  revert n; induction l as [|a l IH]; intros [|n] H; cbn in *; try lia; auto.
  apply IH; lia.
Qed.

Lemma nth_upd_other {A} (l : list A) n m v d :
  n <> m -> nth m (upd l n v) d = nth m l d.
Proof.
  revert n m; induction l as [|a l IH]; intros [|n] [|m] H; cbn; auto; try lia.
Qed.

Lemma nth_error_upd_same {A} (l : list A) n v :
  (n < length l)%nat -> nth_error (upd l n v) n = Some v.
Proof.
  revert n; induction l as [|a l IH]; intros [|n] H; cbn in *; try lia; auto.
  apply IH; lia.
Qed.

Lemma nth_error_upd_other {A} (l : list A) n m v :
  n <> m -> nth_error (upd l n v) m = nth_error l m.
Proof.
  revert n m; induction l as [|a l IH]; intros [|n] [|m] H; cbn; auto; try lia.
Qed.

Lemma zget_ok {A} (l : list A) i d :
  0 <= i < zlen l -> zget l i = Ok (nth (Z.to_nat i) l d).
Proof.
  intros H. unfold zget.
  replace ((0 <=? i) && (i <? zlen l)) with true
    by (symmetry; apply andb_true_iff; split; [apply Z.leb_le | apply Z.ltb_lt]; lia).
  destruct (nth_error l (Z.to_nat i)) as [a|] eqn:E.
  - f_equal. symmetry. now apply nth_error_nth.
  - apply nth_error_None in E. unfold zlen in H; lia.
Qed.

Lemma zset_ok {A} (l : list A) i v :
  0 <= i < zlen l -> zset l i v = Ok (upd l (Z.to_nat i) v).
Proof.
  intros H. unfold zset.
  replace ((0 <=? i) && (i <? zlen l)) with true
    by (symmetry; apply andb_true_iff; split; [apply Z.leb_le | apply Z.ltb_lt]; lia).
  reflexivity.
Qed.

Lemma zget_oob {A} (l : list A) i : i < 0 \/ zlen l <= i -> zget l i = Ub OobRead.
Proof.
  intros H. unfold zget.
  destruct ((0 <=? i) && (i <? zlen l)) eqn:E; auto.
  apply andb_true_iff in E as [E1 E2].
  apply Z.leb_le in E1; apply Z.ltb_lt in E2; lia.
Qed.

Lemma zset_oob {A} (l : list A) i v : i < 0 \/ zlen l <= i -> zset l i v = Ub OobWrite.
Proof.
  intros H. unfold zset.
  destruct ((0 <=? i) && (i <? zlen l)) eqn:E; auto.
  apply andb_true_iff in E as [E1 E2].
  apply Z.leb_le in E1; apply Z.ltb_lt in E2; lia.
Qed.

Lemma u32_small x : 0 <= x < 4294967296 -> u32 x = x.
Proof. intros H; unfold u32; now apply Z.mod_small. Qed.

Lemma u32_range x : 0 <= u32 x < 4294967296.
Proof. unfold u32; apply Z.mod_pos_bound; lia. Qed.

Lemma bind_ok {A B} (x : res A) (f : A -> res B) b :
  bind x f = Ok b -> exists a, x = Ok a /\ f a = Ok b.
Proof. destruct x as [a|e]; cbn; intros H; [eauto | discriminate]. Qed.

Lemma nth_firstn_skipn_upd {A} (l : list A) n v :
  (n < length l)%nat -> upd l n v = firstn n l ++ v :: skipn (S n) l.
Proof.
  revert n; induction l as [|a l IH]; intros [|n] H; cbn in *; try lia; auto.
  f_equal. apply IH; lia.
Qed.

Lemma nth_error_ext_eq {A} (l m : list A) :
  (forall i, nth_error l i = nth_error m i) -> l = m.
Proof.
  revert m; induction l as [|a l IH]; intros [|b m] H; auto.
  - specialize (H O); discriminate.
  - specialize (H O); discriminate.
  - pose proof (H O) as H0; cbn in H0; injection H0 as ->.
    f_equal. apply IH. intros i. exact (H (S i)).
Qed.
