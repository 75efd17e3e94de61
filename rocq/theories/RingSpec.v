(** * RingSpec: what a user expects of the buffer - a list of bytes, oldest first.
    Independent of the ring representation (only the names of the calls and of their
    results, [rop]/[rout], are shared). *)
From Verif Require Import Base RingModel.
Open Scope Z_scope.

(** the bytes before the first '!' *)
Fixpoint before_mark (q : list Z) : list Z :=
  match q with
  | [] => []
  | b :: q' => if b =? 33 then [] else b :: before_mark q'
  end.

(** what is left after removing everything up to and including the first '!' *)
Fixpoint after_mark (q : list Z) : list Z :=
  match q with
  | [] => []
  | b :: q' => if b =? 33 then q' else after_mark q'
  end.

(** [queue_call cap q o out q']: on a queue of capacity [cap] holding [q], call [o]
    may return [out] and leaves [q']. *)
Inductive queue_call (cap : Z) : list Z -> rop -> rout -> list Z -> Prop :=
| QPutOk q m : zlen q + (zlen m + 1) <= cap ->
    queue_call cap q (RPutBytes m) (OInt 1) (q ++ m ++ [33])
| QPutFull q m : ~ zlen q + (zlen m + 1) <= cap ->
    queue_call cap q (RPutBytes m) (OInt 0) q
(* putBytesInFront is not part of property C01; what the code does (the last byte of
   the message is lost) is recorded here so that histories may contain it *)
| QFrontOk q m : zlen q + (zlen m + 1) <= cap -> m <> [] ->
    queue_call cap q (RPutBytesInFront m) (OInt 1) (removelast m ++ [33] ++ q)
| QFrontFull q m : ~ zlen q + (zlen m + 1) <= cap ->
    queue_call cap q (RPutBytesInFront m) (OInt 0) q
| QGet b q : queue_call cap (b :: q) RGet (OInt b) q
| QGetEmpty : queue_call cap [] RGet (OInt 33) []
| QGetByte b q : queue_call cap (b :: q) RGetByte (OInt b) q
| QGetByteEmpty : queue_call cap [] RGetByte (OInt 33) []
| QGetMessage q n : queue_call cap q (RGetMessage n) (OMsg (before_mark q)) (after_mark q)
| QGetBack b q : queue_call cap (q ++ [b]) RGetFromBack (OInt b) q
| QGetBackEmpty : queue_call cap [] RGetFromBack (OInt 0) []
| QPeek q i b : nth_error q (Z.to_nat i) = Some b -> queue_call cap q (RPeek i) (OInt b) q
| QPeekBeyond q i b : zlen q <= i -> queue_call cap q (RPeek i) (OInt b) q
| QClear q : queue_call cap q RClear OUnit []
| QSize q : queue_call cap q RGetSize (OInt (zlen q)) q
| QCapacity q : queue_call cap q RGetCapacity (OInt cap) q.

Inductive queue_calls (cap : Z) : list Z -> list rop -> list rout -> list Z -> Prop :=
| QDone q : queue_calls cap q [] [] q
| QMore q o x q1 os xs q2 :
    queue_call cap q o x q1 -> queue_calls cap q1 os xs q2 ->
    queue_calls cap q (o :: os) (x :: xs) q2.

(** What the caller owes: message arrays of a realistic size (their length plus the
    capacity stays below 2^32), a non-empty message for putBytesInFront, a message
    array for getMessage that can hold the whole buffer and the '!', an unsigned
    index for peek. *)
Definition call_ok (cap : Z) (o : rop) : Prop :=
  match o with
  | RPutBytes m => zlen m + cap < 4294967296
  | RPutBytesInFront m => zlen m + cap < 4294967296 /\ m <> []
  | RGetMessage n => cap < n
  | RPeek i => 0 <= i < 4294967296
  | _ => True
  end.

(** ** Messages in and out (C03): the message stream seen by the user. *)

(** messages whose putBytes returned STATUS_OK *)
Fixpoint accepted (ops : list rop) (outs : list rout) : list (list Z) :=
  match ops, outs with
  | RPutBytes m :: os, OInt 1 :: xs => m :: accepted os xs
  | _ :: os, _ :: xs => accepted os xs
  | _, _ => []
  end.

(** messages returned by getMessage calls, with the buffer's size before each call
    obtained from the calls themselves: a getMessage that found the buffer empty
    (getSize = 0) is not a delivery. *)
Fixpoint delivered (ops : list rop) (outs : list rout) : list (list Z) :=
  match ops, outs with
  | RGetSize :: RGetMessage _ :: os, OInt n :: OMsg m :: xs =>
      if n =? 0 then delivered os xs else m :: delivered os xs
  | _ :: os, _ :: xs => delivered os xs
  | _, _ => []
  end.

(** the client protocol of C03: putBytes of '!'-free messages, and reads consisting
    of getSize followed by getMessage *)
Inductive msg_client (cap : Z) : list rop -> Prop :=
| MCnil : msg_client cap []
| MCput m os : ~ In 33 m -> zlen m + cap < 4294967296 -> msg_client cap os ->
    msg_client cap (RPutBytes m :: os)
| MCget n os : cap < n -> msg_client cap os ->
    msg_client cap (RGetSize :: RGetMessage n :: os).
