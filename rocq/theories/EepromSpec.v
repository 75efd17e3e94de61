(** * EepromSpec: the message log a user expects, independent of the model. *)
From Verif Require Import Base.
Open Scope Z_scope.

(** A log is the list of its messages, oldest first. *)
Definition log := list (list Z).

(** Bytes the messages occupy: a length byte and the data, for each message. *)
Fixpoint used (l : log) : Z :=
  match l with [] => 0 | m :: l' => zlen m + 1 + used l' end.

(** EEPromStorage.h:9-14: |L|D|D|D|L|D|D|...|0| *)
Fixpoint image (l : log) : list Z :=
  match l with [] => [0] | m :: l' => (zlen m :: m) ++ image l' end.

(** Messages are 1..maxlen bytes long ([maxlen] = 255 with unsigned char, 127 with
    signed char). *)
Definition maxlen (sgn : bool) : Z := if sgn then 127 else 255.
Definition log_ok (sgn : bool) (l : log) : Prop :=
  Forall (fun m => 1 <= zlen m <= maxlen sgn) l.

(** A 2048-byte EEPROM holds the log [l]. *)
Definition holds (sgn : bool) (mem : list Z) (l : log) : Prop :=
  zlen mem = 2048 /\ log_ok sgn l /\ exists rest, mem = image l ++ rest.

(** The log after trying to append [m]: appended if log, message, its length byte and
    the end mark fit in 2048 bytes; refused otherwise.  An empty message leaves no
    trace. *)
Definition log_append (l : log) (m : list Z) : log :=
  match m with
  | [] => l
  | _ => if used l + zlen m + 2 <=? 2048 then l ++ [m] else l
  end.

(** The one case the code gets wrong: everything but the end mark fits. *)
Definition exact_fill (l : log) (m : list Z) : Prop := used l + zlen m + 1 = 2048.

(** A history of appends none of which hits that case. *)
Fixpoint no_exact_fill (l : log) (ms : list (list Z)) : Prop :=
  match ms with
  | [] => True
  | m :: ms' => ~ exact_fill l m /\ no_exact_fill (log_append l m) ms'
  end.
