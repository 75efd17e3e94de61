(** * IoModel: src/IOLogic.cpp, src/IOLogic.h (and the pin macros of src/fastRW.h) *)
From Verif Require Import Base.
Open Scope Z_scope.

(** Pin operations (fastRW.h:9-16, Arduino core). *)
Inductive pinact :=
| PPulldown (p : Z)  (* pinMode(p, INPUT_PULLDOWN) *)
| PPullup (p : Z)    (* pinMode(p, INPUT_PULLUP) *)
| POutput (p : Z)    (* pinMode(p, OUTPUT) *)
| PHigh (p : Z)      (* digitalHigh *)
| PLow (p : Z).      (* digitalLow *)

(** The used part of conditionBuffer (physical pin, state), IOLogic.h:25-26; entries at
    and beyond conditionBufferLength are never read by the code. *)
Definition iost := list (Z * Z).
Definition io_init : iost := [].

(** IOLogic.h:4 *)
Definition MAX_CONDITIONS : Z := 10.

(** IOLogic.cpp:12-25.  [pinMap] is the 10-entry table of the configuration. *)
Definition io_addCondition (pinMap : list Z) (s : iost) (pin state : Z)
  : res (list pinact * iost) :=
  do p <- zget pinMap pin;
  let acts := if state =? 1 then [PPulldown p] else [PPullup p] in
  if zlen s <? MAX_CONDITIONS then Ok (acts, s ++ [(p, state)]) else Ub OobWrite.

(** IOLogic.cpp:27-49 *)
Definition io_setOutput (pinMap : list Z) (pin state : Z) : res (list pinact) :=
  do p <- zget pinMap pin;
  Ok (POutput p :: (if state =? 1 then [PHigh p] else if state =? 0 then [PLow p] else [])).

(** the loop of isDone, IOLogic.cpp:55-84: [lv i p] is the level read from pin [p] when
    condition number [i] is examined; states other than 0/1 are skipped with a warning *)
Fixpoint io_check (lv : nat -> Z -> bool) (i : nat) (conds : list (Z * Z)) : bool :=
  match conds with
  | [] => true
  | (p, st) :: r =>
      if st =? 1 then (if negb (lv i p) then false else io_check lv (S i) r)
      else if st =? 0 then (if lv i p then false else io_check lv (S i) r)
      else io_check lv (S i) r
  end.

(** IOLogic.cpp:51-90 *)
Definition io_isDone (lv : nat -> Z -> bool) (s : iost) : bool * iost :=
  if zlen s =? 0 then (true, s)
  else if io_check lv O s then (true, []) else (false, s).

(** IOLogic.cpp:92-101 *)
Fixpoint io_findState (conds : list (Z * Z)) (p : Z) : Z :=
  match conds with
  | [] => 2
  | (q, st) :: r => if q =? p then st else io_findState r p
  end.
Definition io_getTargetState (pinMap : list Z) (s : iost) (pin : Z) : res Z :=
  do p <- zget pinMap pin; Ok (io_findState s p).
