(** * EepromModel: src/EEPromStorage.cpp, src/EEPromStorage.h

    The EEPROM is a list of 2048 bytes; reading or writing another address is an
    explicit fault.  (The EEPROM library is not part of the repository: nothing is
    assumed about what it does with such an address.)  [sgn] says whether plain [char]
    is signed: on the ARM target it is not ([sgn = false]), on the x86 test target it
    is.  Logger output is not modelled. *)
From Verif Require Import Base.
Open Scope Z_scope.

(** EEPromStorage.h:5 *)
Definition EEPROM_SIZE : Z := 2048.

(** EEPROM contents and the member messagePointer, EEPromStorage.h:61 *)
Record store := mkStore { emem : list Z; eptr : Z }.

(** value of a [char] holding byte [b] *)
Definition cval (sgn : bool) (b : Z) : Z := if sgn && (128 <=? b) then b - 256 else b.

(** EEPROM.read / EEPROM.write *)
Definition ee_read (mem : list Z) (a : Z) : res Z := zget mem a.
Definition ee_write (mem : list Z) (a v : Z) : res (list Z) := zset mem a v.

(** EEPromStorage.cpp:14-16, the loop that looks for the end of the log.  Each round
    advances by at least 1, so [fuel] = 2049 rounds are enough before an address
    outside the EEPROM is read. *)
Fixpoint ee_scan (fuel : nat) (mem : list Z) (p : Z) : res Z :=
  match fuel with
  | O => Ub Diverge
  | S k => do b <- ee_read mem p;
           if b =? 0 then Ok p else ee_scan k mem (u32 (p + (b + 1)))
  end.
Definition scan_fuel : nat := Z.to_nat 2049.

(** EEPromStorage.cpp:27-30: the writes of the data loop *)
Fixpoint ee_dataWrites (n : nat) (msg : list Z) (i p : Z) : res (list (Z * Z)) :=
  match n with
  | O => Ok []
  | S k => do c <- zget msg i;
           do ws <- ee_dataWrites k msg (i + 1) (u32 (p + 1));
           Ok ((p, c) :: ws)
  end.

(** EEPromStorage.cpp:9-32: the EEPROM writes of appendMessage, in program order;
    [None] = rejected with a log message.  All EEPROM reads come before the first
    write, so the list of writes is a function of the memory at the call.  [len] is
    the byte passed as [char length]. *)
Definition ee_appendWrites (sgn : bool) (mem msg : list Z) (len : Z)
  : res (option (list (Z * Z))) :=
  do p <- ee_scan scan_fuel mem 0;
  if EEPROM_SIZE <? u32 (p + cval sgn len + 1) then Ok None
  else
    let n := u32 (cval sgn len) in
    do ws <- ee_dataWrites (Z.to_nat n) msg 0 (u32 (p + 1));
    Ok (Some ((p, len) :: ws ++ [(u32 (p + 1 + n), 0)])).

Fixpoint ee_apply (mem : list Z) (ws : list (Z * Z)) : res (list Z) :=
  match ws with
  | [] => Ok mem
  | (a, v) :: r => do mem' <- ee_write mem a v; ee_apply mem' r
  end.

(** EEPromStorage.cpp:9-36.  Also returns the caller's array ([message[length] = 0],
    line 34). *)
Definition ee_appendMessage (sgn : bool) (s : store) (msg : list Z) (len : Z)
  : res (store * list Z) :=
  do w <- ee_appendWrites sgn (emem s) msg len;
  match w with
  | None => Ok (s, msg)
  | Some ws =>
      do mem' <- ee_apply (emem s) ws;
      do msg' <- zset msg (cval sgn len) 0;
      Ok (mkStore mem' (eptr s), msg')
  end.

(** power loss after [k] of the byte writes of appendMessage: the memory found at the
    next start *)
Definition ee_appendCrash (sgn : bool) (mem msg : list Z) (len : Z) (k : nat) : res (list Z) :=
  do w <- ee_appendWrites sgn mem msg len;
  match w with
  | None => Ok mem
  | Some ws => ee_apply mem (firstn k ws)
  end.

(** EEPromStorage.cpp:41-46: skip [n] messages; [None] = the end was found ("return 0") *)
Fixpoint ee_skip (n : nat) (mem : list Z) (p : Z) : res (option Z) :=
  match n with
  | O => Ok (Some p)
  | S k => do b <- ee_read mem p;
           if b =? 0 then Ok None else ee_skip k mem (u32 (p + (b + 1)))
  end.

(** EEPromStorage.cpp:54-56: copy into the caller's array of [bufsize] bytes *)
Fixpoint ee_copy (n : nat) (mem : list Z) (p i bufsize : Z) : res (list Z) :=
  match n with
  | O => Ok []
  | S k => do b <- ee_read mem (u32 (p + i));
           if i <? bufsize then do r <- ee_copy k mem p (i + 1) bufsize; Ok (b :: r)
           else Ub OobWrite
  end.

(** EEPromStorage.cpp:38-59.  Result: the returned length byte and the bytes stored
    into the caller's array. *)
Definition ee_getMessage (sgn : bool) (mem : list Z) (number bufsize : Z) : res (Z * list Z) :=
  do o <- ee_skip (Z.to_nat number) mem 0;
  match o with
  | None => Ok (0, [])
  | Some p =>
      do l <- ee_read mem p;
      do m <- ee_copy (Z.to_nat (u32 (cval sgn l))) mem (u32 (p + 1)) 0 bufsize;
      Ok (l, m)
  end.

(** EEPromStorage.cpp:61-67 (the range check only logs) *)
Definition ee_getByte (mem : list Z) (address : Z) : res Z := ee_read mem address.

(** EEPromStorage.cpp:69-78 *)
Fixpoint ee_count (fuel : nat) (mem : list Z) (p c : Z) : res Z :=
  match fuel with
  | O => Ub Diverge
  | S k => do b <- ee_read mem p;
           if b =? 0 then Ok c else ee_count k mem (u32 (p + (b + 1))) (c + 1)
  end.
Definition ee_getNumberOfMessages (mem : list Z) : res Z := ee_count scan_fuel mem 0 0.

(** EEPromStorage.cpp:84-90 *)
Definition ee_getNextMessage (sgn : bool) (s : store) (bufsize : Z) : res (Z * list Z * store) :=
  do n <- ee_getNumberOfMessages (emem s);
  let ptr := if n <=? eptr s then 1 else eptr s in
  do (l, m) <- ee_getMessage sgn (emem s) ptr bufsize;
  Ok (l, m, mkStore (emem s) (ptr + 1)).

(** EEPromStorage.cpp:92-95 *)
Definition ee_clear (s : store) : res store :=
  do mem' <- ee_write (emem s) 0 0; Ok (mkStore mem' 1).

(** EEPromStorage.h:21 (the EEPROM keeps its contents over a restart) *)
Definition ee_boot (mem : list Z) : store := mkStore mem 1.

(** ** Clients used in the statements *)

(** append several messages (each passed in an array with one spare byte, as line 34
    requires) *)
Fixpoint ee_appendAll (sgn : bool) (s : store) (ms : list (list Z)) : res store :=
  match ms with
  | [] => Ok s
  | m :: ms' => do (s', _) <- ee_appendMessage sgn s (m ++ [0]) (zlen m); ee_appendAll sgn s' ms'
  end.

(** [n] consecutive getNextMessage calls *)
Fixpoint ee_replay (sgn : bool) (n : nat) (s : store) (B : Z) : res (list (Z * list Z) * store) :=
  match n with
  | O => Ok ([], s)
  | S k => do (lm, s1) <- ee_getNextMessage sgn s B;
           do (r, s2) <- ee_replay sgn k s1 B; Ok (lm :: r, s2)
  end.
