(** * WaitModel: src/WaitController.h *)
From Verif Require Import Base.
Open Scope Z_scope.

(** the member waitUntil, WaitController.h:21 (unsigned long, 32 bit) *)
Definition waitst := Z.
Definition wait_init : waitst := 0.

(** WaitController.h:11-13; [now] is the value of millis() *)
Definition wait_waitMs (now ms : Z) : waitst := u32 (now + ms).

(** WaitController.h:15-17 *)
Definition wait_isDone (w : waitst) (now : Z) : bool := w <? now.

(** millis() after [t] ms of uptime *)
Definition millis (t : Z) : Z := u32 t.
