(** * IoSpec: pins and conditions as the user sees them. *)
From Verif Require Import Base IoModel.
Open Scope Z_scope.

Inductive dir := DirInPulldown | DirInPullup | DirOut.
(** direction and driven output level of every physical pin *)
Definition pins := Z -> dir * bool.

Definition setdir (P : pins) (p : Z) (d : dir) : pins :=
  fun q => if q =? p then (d, snd (P q)) else P q.
Definition setlevel (P : pins) (p : Z) (b : bool) : pins :=
  fun q => if q =? p then (fst (P q), b) else P q.

Definition pin_effect (P : pins) (a : pinact) : pins :=
  match a with
  | PPulldown p => setdir P p DirInPulldown
  | PPullup p => setdir P p DirInPullup
  | POutput p => setdir P p DirOut
  | PHigh p => setlevel P p true
  | PLow p => setlevel P p false
  end.
Definition pin_effects (P : pins) (l : list pinact) : pins := fold_left pin_effect l P.

(** condition (p, st) is met when the level read is [b]; only 1 = high and 0 = low are
    conditions *)
Definition met (st : Z) (b : bool) : Prop := (st = 1 -> b = true) /\ (st = 0 -> b = false).

(** One call of a client of IOLogic. *)
Inductive iop :=
| IAdd (pin st : Z)
| IOut (pin st : Z)
| IDone (lv : nat -> Z -> bool)
| ITarget (pin : Z).

Definition io_step (pinMap : list Z) (s : iost) (o : iop) : res iost :=
  match o with
  | IAdd p st => do (_, s') <- io_addCondition pinMap s p st; Ok s'
  | IOut p st => do _ <- io_setOutput pinMap p st; Ok s
  | IDone lv => Ok (snd (io_isDone lv s))
  | ITarget p => do _ <- io_getTargetState pinMap s p; Ok s
  end.

Fixpoint io_run (pinMap : list Z) (s : iost) (os : list iop) : res iost :=
  match os with
  | [] => Ok s
  | o :: r => do s' <- io_step pinMap s o; io_run pinMap s' r
  end.

(** all pending conditions (physical pin, state) are met by the levels [lv] *)
Definition all_met (lv : nat -> Z -> bool) (pend : list (Z * Z)) : Prop :=
  forall k p st, nth_error pend k = Some (p, st) -> met st (lv k p).

(** The discipline a host has to keep: logical pins 0..9, and fewer than 10 conditions
    pending whenever one is added.  [pend] is the specification's own account of the
    pending conditions: an addition appends one, a poll that finds all of them met
    forgets them. *)
Fixpoint disciplined (pinMap : list Z) (pend : list (Z * Z)) (os : list iop) : Prop :=
  match os with
  | [] => True
  | IAdd p st :: r => 0 <= p < 10 /\ zlen pend < 10 /\
                      disciplined pinMap (pend ++ [(nth (Z.to_nat p) pinMap 0, st)]) r
  | IOut p st :: r => 0 <= p < 10 /\ disciplined pinMap pend r
  | ITarget p :: r => 0 <= p < 10 /\ disciplined pinMap pend r
  | IDone lv :: r => (all_met lv pend -> disciplined pinMap [] r) /\
                     (~ all_met lv pend -> disciplined pinMap pend r)
  end.
