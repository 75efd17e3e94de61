(** * RingModel: src/RingBuffer.cpp *)
From Verif Require Import Base.
Open Scope Z_scope.

(** Members data/capacity/position/length, RingBuffer.h:78-82.  [rdata] is the
    malloc'ed block; its initial contents are indeterminate, so the constructor
    takes them as an arbitrary list.  (malloc is assumed to succeed.) *)
Record ring := mkRing { rdata : list Z; rcap : Z; rpos : Z; rlen : Z }.

(** RingBuffer.cpp:25,27,28 *)
Definition END : Z := 33.
Definition STATUS_OK : Z := 1.
Definition STATUS_FULL : Z := 0.

(** RingBuffer.cpp:31-36 *)
Definition ring_new (junk : list Z) : ring := mkRing junk (zlen junk) 0 0.

(** RingBuffer.cpp:42-45 *)
Definition ring_clear (r : ring) : ring := mkRing (rdata r) (rcap r) 0 0.

(** RingBuffer.cpp:47-49 *)
Definition ring_getSize (r : ring) : Z := rlen r.

(** RingBuffer.cpp:51-53 *)
Definition ring_getCapacity (r : ring) : Z := rcap r.

(** unsigned a % b *)
Definition umod (a b : Z) : res Z := if b =? 0 then Ub DivZero else Ok (a mod b).

(** RingBuffer.cpp:55-59 *)
Definition ring_peek (r : ring) (index : Z) : res Z :=
  do i <- umod (u32 (rpos r + index)) (rcap r);
  zget (rdata r) i.

(** RingBuffer.cpp:61-75 *)
Definition ring_put (r : ring) (c : Z) : res ring :=
  do i <- umod (u32 (rpos r + rlen r)) (rcap r);
  do d <- zset (rdata r) i c;
  Ok (mkRing d (rcap r) (rpos r) (u32 (rlen r + 1))).

(** the for loop of putBytes, RingBuffer.cpp:79-81 *)
Fixpoint ring_putAll (r : ring) (chars : list Z) : res ring :=
  match chars with
  | [] => Ok r
  | c :: cs => do r' <- ring_put r c; ring_putAll r' cs
  end.

(** RingBuffer.cpp:77-88.  [chars]/[charsLength] is one list (the callers pass a
    valid array of that length). *)
Definition ring_putBytes (r : ring) (chars : list Z) : res (Z * ring) :=
  if u32 (rlen r + zlen chars) <? rcap r then
    do r1 <- ring_putAll r chars;
    do r2 <- ring_put r1 END;
    Ok (STATUS_OK, r2)
  else Ok (STATUS_FULL, r).

(** RingBuffer.cpp:90-105 *)
Definition ring_putInFront (r : ring) (c : Z) : res ring :=
  do p <- (if rpos r =? 0 then Ok (u32 (rcap r - 1))
           else umod (rpos r - 1) (rcap r));
  do d <- zset (rdata r) p c;
  Ok (mkRing d (rcap r) p (u32 (rlen r + 1))).

(** the loop [while (i--) putInFront(chars[i])], RingBuffer.cpp:113-116, started
    with [i]; [fuel] only makes the recursion structural (the loop runs exactly [i]
    times, see [ring_putBytesInFront]). *)
Fixpoint ring_frontLoop (fuel : nat) (r : ring) (chars : list Z) (i : Z) : res ring :=
  if i =? 0 then Ok r else
  match fuel with
  | O => Ub Diverge
  | S k => do c <- zget chars (i - 1);
           do r' <- ring_putInFront r c;
           ring_frontLoop k r' chars (i - 1)
  end.

(** RingBuffer.cpp:107-123.  [charsLength - 1] is unsigned: for an empty message it
    is 2^32-1 and the first read chars[2^32-2] is out of bounds. *)
Definition ring_putBytesInFront (r : ring) (chars : list Z) : res (Z * ring) :=
  if u32 (rlen r + zlen chars) <? rcap r then
    do r1 <- ring_putInFront r END;
    do r2 <- ring_frontLoop (S (length chars)) r1 chars (u32 (zlen chars - 1));
    Ok (STATUS_OK, r2)
  else Ok (STATUS_FULL, r).

(** RingBuffer.cpp:125-138 (get) and 154-167 (getByte), identical bodies *)
Definition ring_getByte (r : ring) : res (Z * ring) :=
  if 0 <? rlen r then
    do b <- zget (rdata r) (rpos r);
    do p <- umod (u32 (rpos r + 1)) (rcap r);
    Ok (b, mkRing (rdata r) (rcap r) p (rlen r - 1))
  else Ok (END, r).

(** the do-while of getMessage, RingBuffer.cpp:145-149.  [n] is the local [length],
    [bufsize] the size of the caller's array; the result is the list of bytes written
    to it (END included).  Every round removes a byte or stops, so [rlen r + 1]
    rounds suffice ([fuel]). *)
Fixpoint ring_msgLoop (fuel : nat) (r : ring) (bufsize n : Z) : res (list Z * ring) :=
  match fuel with
  | O => Ub Diverge
  | S k =>
      do (b, r1) <- ring_getByte r;
      if n <? bufsize then
        if b =? END then Ok ([b], r1)
        else do (m, r2) <- ring_msgLoop k r1 bufsize (n + 1); Ok (b :: m, r2)
      else Ub OobWrite
  end.

(** RingBuffer.cpp:140-152.  Returns the message (the first [length] bytes; the
    written END is behind it). *)
Definition ring_getMessage (r : ring) (bufsize : Z) : res (list Z * ring) :=
  do (w, r') <- ring_msgLoop (S (Z.to_nat (rlen r))) r bufsize 0;
  Ok (removelast w, r').

(** RingBuffer.cpp:169-178 *)
Definition ring_getFromBack (r : ring) : res (Z * ring) :=
  if 0 <? rlen r then
    do i <- umod (u32 (u32 (rpos r + rlen r) - 1)) (rcap r);
    do b <- zget (rdata r) i;
    Ok (b, mkRing (rdata r) (rcap r) (rpos r) (rlen r - 1))
  else Ok (0, r).

(** ** One public call on the buffer *)
Inductive rop :=
| RPutBytes (m : list Z)
| RPutBytesInFront (m : list Z)
| RGet | RGetByte
| RGetMessage (bufsize : Z)
| RGetFromBack
| RPeek (index : Z)
| RClear | RGetSize | RGetCapacity.

Inductive rout :=
| OUnit
| OInt (n : Z)          (* int / char results *)
| OMsg (m : list Z).    (* getMessage: the bytes before END; the returned length is their number *)

Definition ring_step (r : ring) (o : rop) : res (rout * ring) :=
  match o with
  | RPutBytes m => do (s, r') <- ring_putBytes r m; Ok (OInt s, r')
  | RPutBytesInFront m => do (s, r') <- ring_putBytesInFront r m; Ok (OInt s, r')
  | RGet | RGetByte => do (b, r') <- ring_getByte r; Ok (OInt b, r')
  | RGetMessage n => do (m, r') <- ring_getMessage r n; Ok (OMsg m, r')
  | RGetFromBack => do (b, r') <- ring_getFromBack r; Ok (OInt b, r')
  | RPeek i => do b <- ring_peek r i; Ok (OInt b, r)
  | RClear => Ok (OUnit, ring_clear r)
  | RGetSize => Ok (OInt (ring_getSize r), r)
  | RGetCapacity => Ok (OInt (ring_getCapacity r), r)
  end.

Fixpoint ring_run (r : ring) (ops : list rop) : res (list rout * ring) :=
  match ops with
  | [] => Ok ([], r)
  | o :: os => do (x, r1) <- ring_step r o;
               do (xs, r2) <- ring_run r1 os;
               Ok (x :: xs, r2)
  end.
