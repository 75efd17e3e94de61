(** * FineSystem: the main loop of SystemModel with timer interrupts also inside RobotController::process().

    As SystemModel, but the two calls of RoboCon->process() (main.cpp:200, 211) are the ones of FineModel: before every access to a
    servo any number of interrupts may come, each 20 ms after the previous one (main.cpp:164, 175-188).  The additional axes' servos, which
    process() does not touch, are updated by the same interrupts.  The other calls of the main loop are not interrupted inside. *)
From Verif Require Import Base Arith ServoModel RobotModel RobotSpec IoModel WaitModel EepromModel MrilModel McpModel DeviceModel SystemModel FineModel.

Section FineSystem.
Context (A : arith).
Context (fwd : V6 (F A) -> V6 (F A)) (inv : V6 (F A) -> option (V6 (F A))).
Context (l2p p2l : V6 (F A) -> V6 (F A)) (limits : V6 (F A * F A)).
Context (pinMap : list Z) (print : D A -> list Z) (sgn : bool).

(** n interrupts for the additional axes *)
Fixpoint axes_ticks (n : nat) (l : list (servo A)) : res (list (servo A)) :=
  match n with O => Ok l | S m => do l1 <- tick_axes A l 20; axes_ticks m l1 end.
(** RoboCon->process() with [w] interrupts before its accesses: the device, what it did, the pulses of the joint servos *)
Definition fine_robot (d : device A) (w : list nat) : res (device A * list (dev_ev A) * list (V6 Z)) :=
  do (x, ps) <- fine_step A fwd inv l2p p2l limits (d_robot d) (OProcess, map (repeat 20) w);
  let (r, evs) := x in
  do l <- axes_ticks (list_sum w) (d_axes d);
  Ok (with_axes A (with_robot A d r) l, flat_map (robot_ev A print) evs, ps).

(** a stimulus, and the interrupts inside process() if the main loop is at it *)
Definition fstim : Type := stim * list nat.
Definition fsys_step (s : sys A) (x : fstim) : res (sys A * list (sys_ev A) * list (V6 Z)) :=
  match fst x, y_phase s with
  | STick, _ =>
      do (r, ps) <- fine_step A fwd inv l2p p2l limits (d_robot (y_dev s)) (OTick 20, []);
      do l <- axes_ticks 1 (d_axes (y_dev s));
      Ok (mkSys (with_axes A (with_robot A (y_dev s) (fst r)) l) (y_mcp s) (y_rx s) (y_phase s), [], ps)
  | SRun now lv, PRobot1 =>
      do (de, ps) <- fine_robot (y_dev s) (snd x);
      Ok (mkSys (fst de) (y_mcp s) (y_rx s) PRobot2, YLoop :: map YDev (snd de), ps)
  | SRun now lv, PRobot2 =>
      do (de, ps) <- fine_robot (y_dev s) (snd x);
      Ok (mkSys (fst de) (y_mcp s) (y_rx s) (PSerial 0), map YDev (snd de), ps)
  | y, _ => do (s1, e) <- sys_step A fwd inv l2p p2l limits pinMap print sgn s y; Ok (s1, e, [])
  end.
Fixpoint fsys_run (s : sys A) (l : list fstim) : res (sys A * list (sys_ev A) * list (V6 Z)) :=
  match l with
  | [] => Ok (s, [], [])
  | x :: r =>
      do (a, p1) <- fsys_step s x; let (s1, e1) := a in
      do (b, p2) <- fsys_run s1 r; let (s2, e2) := b in
      Ok (s2, e1 ++ e2, p1 ++ p2)
  end.
End FineSystem.
