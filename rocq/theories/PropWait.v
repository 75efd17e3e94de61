(** * C10, C11: WaitController.  Times are milliseconds of uptime. *)
From Verif Require Import Base WaitModel.
Open Scope Z_scope.

(** C10.  A wait of [ms] started at [t] is over exactly at the times later than
    t + ms, up to the clock's wrap. *)
Theorem C10_wait_lasts_exactly : forall t ms t',
  0 <= t -> 0 <= ms -> t + ms < 4294967296 -> t <= t' < 4294967296 ->
  (wait_isDone (wait_waitMs (millis t) ms) (millis t') = true <-> t + ms < t').
Proof.
  intros t ms t' H1 H2 H3 H4. unfold wait_isDone, wait_waitMs, millis.
  rewrite !u32_small by (rewrite ?u32_small by lia; lia). apply Z.ltb_lt.
Qed.
Print Assumptions C10_wait_lasts_exactly.

Theorem C10_initially_done : forall t, 0 < t < 4294967296 ->
  wait_isDone wait_init (millis t) = true.
Proof. intros t H. unfold wait_isDone, wait_init, millis. rewrite u32_small by lia. apply Z.ltb_lt; lia. Qed.
Print Assumptions C10_initially_done.

(** an earlier wait is forgotten: only the last waitMs counts (waitMs replaces the
    deadline, whatever it was) - by definition the new state ignores the old one. *)
Example C10_demo : wait_isDone (wait_waitMs (millis 1000) 250) (millis 1250) = false /\
                   wait_isDone (wait_waitMs (millis 1000) 250) (millis 1251) = true.
Proof. split; reflexivity. Qed.

(** C11 is false of the code.  (1) Every wait whose end lies beyond the wrap is over
    immediately. *)
Theorem C11_wait_across_wrap_refuted : forall t ms,
  0 <= t < 4294967296 -> 0 < ms < 4294967296 -> 4294967296 <= t + ms ->
  wait_isDone (wait_waitMs (millis t) ms) (millis t) = true.
Proof.
  intros t ms H1 H2 H3. unfold wait_isDone, wait_waitMs, millis.
  rewrite (u32_small t) by lia. apply Z.ltb_lt.
  unfold u32. replace (t + ms) with ((t + ms - 4294967296) + 1 * 4294967296) by ring.
  rewrite Z.mod_add by lia. rewrite Z.mod_small by lia. lia.
Qed.
Print Assumptions C11_wait_across_wrap_refuted.

Example C11_demo : 4294967296 <= 4294967000 + 1000 /\
  wait_isDone (wait_waitMs (millis 4294967000) 1000) (millis 4294967000) = true.
Proof. split; [lia | reflexivity]. Qed.

(** (2) A wait that ends exactly at 2^32 - 1 is never over, at any later time. *)
Theorem C11_wait_never_ends_refuted : forall t ms t',
  0 <= t -> 0 <= ms -> t + ms = 4294967295 ->
  wait_isDone (wait_waitMs (millis t) ms) (millis t') = false.
Proof.
  intros t ms t' H1 H2 H3. unfold wait_isDone, wait_waitMs, millis.
  rewrite (u32_small t) by lia. rewrite u32_small by lia. apply Z.ltb_ge.
  pose proof (u32_range t'). lia.
Qed.
Print Assumptions C11_wait_never_ends_refuted.

(** (3) A wait that is over is pending again after the wrap, until its old deadline has
    passed a second time. *)
Theorem C11_wait_revives_refuted : forall t ms t',
  0 <= t -> 0 <= ms -> t + ms < 4294967296 -> 4294967296 <= t' <= 4294967296 + t + ms ->
  wait_isDone (wait_waitMs (millis t) ms) (millis t') = false.
Proof.
  intros t ms t' H1 H2 H3 H4. unfold wait_isDone, wait_waitMs, millis.
  rewrite (u32_small t) by lia. rewrite u32_small by lia. apply Z.ltb_ge.
  unfold u32. replace t' with ((t' - 4294967296) + 1 * 4294967296) by ring.
  rewrite Z.mod_add by lia. rewrite Z.mod_small by lia. lia.
Qed.
Print Assumptions C11_wait_revives_refuted.

(** (4) Within one period of the clock, however many wraps ago the device was switched on, a wait lasts exactly as long as asked. *)
Theorem C11_between_wraps_partial : forall k t ms t',
  0 <= ms -> k * 4294967296 <= t -> t + ms < (k + 1) * 4294967296 -> t <= t' < (k + 1) * 4294967296 ->
  (wait_isDone (wait_waitMs (millis t) ms) (millis t') = true <-> t + ms < t').
Proof.
  intros k t ms t' H1 H2 H3 H4. unfold wait_isDone, wait_waitMs, millis.
  assert (E : forall x, k * 4294967296 <= x < (k + 1) * 4294967296 -> u32 x = x - k * 4294967296).
  { intros x Hx. unfold u32. replace x with ((x - k * 4294967296) + k * 4294967296) at 1 by ring. rewrite Z.mod_add by lia. apply Z.mod_small. lia. }
  rewrite (E t), (E t') by lia. rewrite u32_small by lia. rewrite Z.ltb_lt. lia.
Qed.
Print Assumptions C11_between_wraps_partial.
(** a wait of five seconds, in the ninth period (after more than a year) *)
Example C11_between_wraps_case : let t := 8 * 4294967296 + 77 in
  wait_isDone (wait_waitMs (millis t) 5000) (millis (t + 5000)) = false /\ wait_isDone (wait_waitMs (millis t) 5000) (millis (t + 5001)) = true.
Proof. split; reflexivity. Qed.
