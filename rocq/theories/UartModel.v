(** * UartModel: the controller behind a serial port whose receive buffer is bounded.

    src/SerialIO.h:21-30 reads from the Arduino core's receive buffer, which has room for
    [cap] bytes (64 or so, depending on the board and the core); a byte that arrives when it is
    full is thrown away.  Everything else is SystemModel, whose buffer is unbounded. *)
From Verif Require Import Base Arith ServoModel RobotModel DeviceModel SystemModel.

Section Uart.
Context (A : arith).
Context (fwd : V6 (F A) -> V6 (F A)) (inv : V6 (F A) -> option (V6 (F A))).
Context (l2p p2l : V6 (F A) -> V6 (F A)) (limits : V6 (F A * F A)).
Context (pinMap : list Z) (print : D A -> list Z) (sgn : bool).
Context (cap : Z).

Definition uart_step (s : sys A) (x : stim) : res (sys A * list (sys_ev A)) :=
  match x with
  | SArrive c => if zlen (y_rx s) <? cap then sys_step A fwd inv l2p p2l limits pinMap print sgn s x else Ok (s, [])
  | _ => sys_step A fwd inv l2p p2l limits pinMap print sgn s x
  end.
Fixpoint uart_run (s : sys A) (l : list stim) : res (sys A * list (sys_ev A)) :=
  match l with
  | [] => Ok (s, [])
  | x :: r => do (s1, e1) <- uart_step s x; do (s2, e2) <- uart_run s1 r; Ok (s2, e1 ++ e2)
  end.
End Uart.
