(** * C01-C04: RingBuffer *)
From Verif Require Import Base RingModel RingSpec RingProofs.
Open Scope Z_scope.

(** C01.  For every capacity (1 .. 2^31-1, the range of the int results), every
    initial content of the malloc'ed block and every sequence of calls, no access
    leaves the storage and the results are those of a list queue. *)
Theorem C01_ring_is_bounded_fifo : forall junk ops,
  1 <= zlen junk < 2147483648 ->
  Forall (call_ok (zlen junk)) ops ->
  exists outs r' q', ring_run (ring_new junk) ops = Ok (outs, r') /\
    queue_calls (zlen junk) [] ops outs q' /\
    ring_getSize r' = zlen q' /\ zlen q' <= zlen junk.
Proof. exact ring_refines_queue. Qed.
Print Assumptions C01_ring_is_bounded_fifo.

Definition demo_ops : list rop :=
  [RPutBytes [65; 66]; RPutBytes [67]; RPutBytes [68]; RGetSize; RPeek 1; RGetMessage 9; RPutBytes [69; 70];
   RGetFromBack; RGetByte; RGet; RGetMessage 9; RGet; RGetFromBack].
Example C01_demo :
  Forall (call_ok 6) demo_ops /\
  exists r, ring_run (ring_new [0;0;0;0;0;0]) demo_ops =
    Ok ([OInt 1; OInt 1; OInt 0; OInt 5; OInt 66; OMsg [65; 66]; OInt 1; OInt 33; OInt 67; OInt 33;
         OMsg [69; 70]; OInt 33; OInt 0], r).
Proof.
  split; [repeat constructor; cbn; lia|]. eexists. vm_compute. reflexivity.
Qed.

(** C02.  In every reachable buffer, putBytes returns STATUS_OK iff the message and
    its '!' fit into capacity - size; a refused call changes nothing at all. *)
Theorem C02_putBytes_all_or_nothing : forall junk ops outs r m,
  1 <= zlen junk < 2147483648 -> Forall (call_ok (zlen junk)) ops ->
  ring_run (ring_new junk) ops = Ok (outs, r) ->
  zlen m + zlen junk < 4294967296 ->
  (zlen m + 1 <= ring_getCapacity r - ring_getSize r /\
   exists r', ring_putBytes r m = Ok (STATUS_OK, r') /\
              ring_getSize r' = ring_getSize r + (zlen m + 1) /\
              ring_getCapacity r' = ring_getCapacity r)
  \/ (~ zlen m + 1 <= ring_getCapacity r - ring_getSize r /\
      ring_putBytes r m = Ok (STATUS_FULL, r)).
Proof. exact ring_putBytes_allornothing. Qed.
Print Assumptions C02_putBytes_all_or_nothing.

Example C02_demo : exists r r', ring_run (ring_new [9;9;9;9]) [RPutBytes [65]] = Ok ([OInt 1], r) /\
  ring_putBytes r [1] = Ok (1, r') /\ ring_putBytes r [1; 2] = Ok (0, r).
Proof. do 2 eexists. split; [vm_compute; reflexivity|]. split; vm_compute; reflexivity. Qed.

(** C03.  Accepted messages are delivered in order, exactly once; what is still
    missing is exactly the undelivered rest, and it is empty once the buffer is. *)
Theorem C03_messages_in_order_exactly_once : forall junk ops,
  1 <= zlen junk < 2147483648 ->
  msg_client (zlen junk) ops ->
  exists outs r' rest,
    ring_run (ring_new junk) ops = Ok (outs, r') /\
    accepted ops outs = delivered ops outs ++ rest /\
    (ring_getSize r' = 0 -> rest = []).
Proof. exact ring_message_stream. Qed.
Print Assumptions C03_messages_in_order_exactly_once.

Definition demo_client : list rop :=
  [RPutBytes [65]; RPutBytes []; RPutBytes [66; 67]; RGetSize; RGetMessage 7; RPutBytes [68];
   RGetSize; RGetMessage 7; RGetSize; RGetMessage 7; RGetSize; RGetMessage 7].
Example C03_demo : msg_client 6 demo_client /\
  match ring_run (ring_new [0;0;0;0;0;0]) demo_client with
  | Ok (outs, r) => accepted demo_client outs = [[65]; []; [66; 67]; [68]] /\
                    delivered demo_client outs = [[65]; []; [66; 67]; [68]] /\ ring_getSize r = 0
  | Ub _ => False
  end.
Proof.
  split; [|vm_compute; repeat split].
  unfold demo_client.
  repeat first [apply MCnil | apply MCput; [cbn; lia | unfold zlen; cbn; lia |] | apply MCget; [lia|]].
Qed.

(** C04 is false of the code. *)
Theorem C04_front_message_refuted : exists junk m r1 got r2,
  ring_putBytesInFront (ring_new junk) m = Ok (STATUS_OK, r1) /\
  ring_getMessage r1 80 = Ok (got, r2) /\ got <> m.
Proof.
  exists [0;0;0;0;0;0], [65; 66; 67]. do 3 eexists.
  split; [vm_compute; reflexivity|]. split; [vm_compute; reflexivity|]. discriminate.
Qed.
Print Assumptions C04_front_message_refuted.

Theorem C04_front_empty_refuted : forall junk, 1 <= zlen junk < 2147483648 ->
  ring_putBytesInFront (ring_new junk) [] = Ub OobRead.
Proof.
  intros junk H. destruct (putInFront_spec (ring_new junk) END (RWf_new junk H)) as (r1 & E & _).
  { cbn; lia. }
  unfold ring_putBytesInFront.
  cbn [rlen ring_new rcap zlen length Z.of_nat].
  replace (u32 (0 + zlen (@nil Z))) with 0 by reflexivity.
  destruct (Z.ltb_spec 0 (zlen junk)); [|lia].
  rewrite E. reflexivity.
Qed.
Print Assumptions C04_front_empty_refuted.

(** What is true: the next message returned is m without its last byte, and then the
    previous contents are back.  Missing for C04: the last byte. *)
Theorem C04_front_message_partial : forall junk ops outs r m bufsize,
  1 <= zlen junk < 2147483648 -> Forall (call_ok (zlen junk)) ops ->
  ring_run (ring_new junk) ops = Ok (outs, r) ->
  zlen m + zlen junk < 4294967296 -> m <> [] -> ~ In 33 m -> zlen m <= bufsize ->
  zlen m + 1 <= ring_getCapacity r - ring_getSize r ->
  exists r1 r2,
    ring_putBytesInFront r m = Ok (STATUS_OK, r1) /\
    ring_getMessage r1 bufsize = Ok (removelast m, r2) /\
    ring_getSize r2 = ring_getSize r /\
    (forall i, 0 <= i < ring_getSize r -> ring_peek r2 i = ring_peek r i).
Proof. exact ring_front_actual. Qed.
Print Assumptions C04_front_message_partial.

Example C04_demo : exists r r1 r2, ring_run (ring_new [0;0;0;0;0;0;0;0]) [RPutBytes [70]] = Ok ([OInt 1], r) /\
  ring_putBytesInFront r [65; 66] = Ok (1, r1) /\ ring_getMessage r1 80 = Ok ([65], r2) /\
  ring_peek r2 0 = Ok 70.
Proof. do 3 eexists. split; [vm_compute; reflexivity|]. split; [vm_compute; reflexivity|].
  split; [vm_compute; reflexivity|]. vm_compute; reflexivity. Qed.
