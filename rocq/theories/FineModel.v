(** * FineModel: RobotController::process() with the timer interrupt between any two accesses to a servo.

    RobotModel runs process() without interruption.  Here updateServos() (main.cpp:175-188) may run
    any number of times before every read of a servo's angle and before every assignment to a
    servo's member: the only data shared by the interrupt and the main loop are the servos, so
    interrupts elsewhere in process() have the effect of one before the next access.  A servo's
    [float] and [unsigned] members are single words (atomic on the 32-bit target; getCurrentAngle
    switches interrupts off as well). *)
From Verif Require Import Base Arith ServoModel RobotModel RobotSpec.

Section Fine.
Context (A : arith).
Context (fwd : V6 (F A) -> V6 (F A)) (inv : V6 (F A) -> option (V6 (F A))).
Context (l2p p2l : V6 (F A) -> V6 (F A)) (limits : V6 (F A * F A)).
Notation robot := (robot A).
Notation servo := (servo A).
Notation rev := (RobotModel.rev A).

(** updateServos for the six servos: new states and the pulses written *)
Definition update6 (s : V6 servo) (dt : Z) : res (V6 servo * V6 Z) :=
  do (a, p0) <- servo_process A (v0 s) dt; do (b, p1) <- servo_process A (v1 s) dt;
  do (c, p2) <- servo_process A (v2 s) dt; do (d, p3) <- servo_process A (v3 s) dt;
  do (e, p4) <- servo_process A (v4 s) dt; do (f, p5) <- servo_process A (v5 s) dt;
  Ok (mk6 a b c d e f, mk6 p0 p1 p2 p3 p4 p5).

(** the controller, the interrupts still to come (each entry: those that fall before the next access,
    by the time since the previous one), the pulses written so far *)
Record fstate := mkF { f_r : robot; f_irq : list (list Z); f_log : list (V6 Z) }.
Definition P (X : Type) : Type := fstate -> res (X * fstate).
Definition ret {X} (x : X) : P X := fun st => Ok (x, st).
Definition andthen {X Y} (p : P X) (f : X -> P Y) : P Y := fun st => do (x, st') <- p st; f x st'.

Fixpoint irqs (ds : list Z) (st : fstate) : res fstate :=
  match ds with
  | [] => Ok st
  | d :: rest =>
      do (s, ps) <- update6 (r_servos (f_r st)) d;
      irqs rest (mkF (with_servos A (f_r st) s) (f_irq st) (f_log st ++ [ps]))
  end.
(** the interrupts before the next access *)
Definition pause : P unit := fun st =>
  match f_irq st with
  | [] => Ok (tt, st)
  | ds :: rest => do st' <- irqs ds (mkF (f_r st) rest (f_log st)); Ok (tt, st')
  end.
Definition look {X} (f : robot -> X) : P X := fun st => Ok (f (f_r st), st).
Definition modify (f : robot -> robot) : P unit := fun st => Ok (tt, mkF (f (f_r st)) (f_irq st) (f_log st)).
Definition lift {X} (x : res X) : P X := fun st => do y <- x; Ok (y, st).

Notation "x <~ p ; q" := (andthen p (fun x => q)) (at level 61, p at next level, right associativity).
Notation "p ;; q" := (andthen p (fun _ => q)) (at level 61, right associativity).

(** getCurrentAngle, VarSpeedServo.cpp:98-109 *)
Definition read_cur (i : Z) : P (F A) := pause ;; look (fun r => s_cur (at6 (r_servos r) i)).
Definition read_all : P (V6 (F A)) :=
  a <~ read_cur 0; b <~ read_cur 1; c <~ read_cur 2; d <~ read_cur 3; e <~ read_cur 4; f <~ read_cur 5; ret (mk6 a b c d e f).
(** getCurrentPose and getCurrentLogicalAngles, RobotController.cpp:104-123, 276-281 *)
Definition fine_pose : P (V6 (F A)) := a <~ read_all; ret (fwd (p2l a)).
Definition fine_angles : P (V6 (F A)) := a <~ read_all; ret (p2l a).
(** one assignment to a member of servo i *)
Definition write (i : Z) (f : servo -> servo) : P unit :=
  pause ;; modify (fun r => with_servos A r (set6 (r_servos r) i (f (at6 (r_servos r) i)))).

(** give up: getCurrentPose(targetPose); getCurrentLogicalAngles(targetAngles); state = IDLE
    (RobotController.cpp:665-669, 702-706, 720-724) *)
Definition fine_reject : P unit :=
  a <~ read_all; b <~ read_all;
  modify (fun r => with_state A (with_targets A r (p2l b) (fwd (p2l a))) IDLE).

(** RobotController.cpp:555-685 *)
Definition fine_plan : P (plan A * list rev) :=
  m <~ look r_method;
  match m with
  | P2P => r <~ look (fun r => r);
      (let time := d2f A (dmul A (f2d A (fdiv A (max_change A (r_startA r) (r_targetA r)) (r_maxvel r))) (RAD_TO_DEG A)) in
      ret (PMove (r_targetA r) time, [EvPrint time]))
  | LINEAR => r <~ look (fun r => r);
      (let s := r_startP r in let t := r_targetP r in
      let distance := dist3 A (fsub A (v0 t) (v0 s)) (fsub A (v1 t) (v1 s)) (fsub A (v2 t) (v2 s)) in
      let pose := waypoint A s t (r_cur r) (r_total r) in
      let time := fdiv A (fdiv A distance (fofz A (r_total r))) (r_maxvel r) in
      match inv pose with
      | Some a =>
          if near_singular A (v4 a)
          then x <~ read_cur 3; y <~ read_cur 5; ret (PMove (set6 (set6 a 3 x) 5 y) time, [EvInverse pose])
          else ret (PMove a time, [EvInverse pose])
      | None => ret (PReject, [EvInverse pose])
      end)
  | CIRCULAR => lift (Ub Uninit)
  end.

(** one round of the loop of lines 744-752: velocity, then the three assignments of setTargetRadAngle
    (VarSpeedServo.cpp:111-115) *)
Definition fine_command (j : Z) (t time : F A) : P rev :=
  c <~ read_cur j;
  (let v := fdiv A (fabsf A (fsub A t c)) time in
  write j (fun s => servo_set_vel A s v) ;;
  write j (set_target_1 A) ;; write j (set_target_2 A) ;; write j (fun s => set_target_3 A s t) ;;
  ret (EvServo j v t)).

(** lines 728-756 *)
Definition fine_go (t : V6 (F A)) (time : F A) : P (list rev) :=
  a <~ read_all;
  mv <~ look (fun r => map6 s_maxvel (r_servos r));
  (let mt := fold_left (fun m x => if flt A m x then x else m)
               (list6 (zip6 (fdiv A) (map6 (fabsf A) (zip6 (fsub A) t a)) mv)) time in
  if negb (feq A mt (fofz A 0)) then
    e0 <~ fine_command 0 (v0 t) mt; e1 <~ fine_command 1 (v1 t) mt; e2 <~ fine_command 2 (v2 t) mt;
    e3 <~ fine_command 3 (v3 t) mt; e4 <~ fine_command 4 (v4 t) mt; e5 <~ fine_command 5 (v5 t) mt;
    modify (fun r => with_state A r MOVING) ;; ret [e0; e1; e2; e3; e4; e5]
  else modify (fun r => with_state A r MOVING) ;; ret []).

(** case START_MOVE, lines 552-756 *)
Definition fine_start : P (list rev) :=
  modify (fun r => with_steps A r (u32 (r_cur r + 1)) (r_total r)) ;;
  pe <~ fine_plan;
  match fst pe with
  | PReject => fine_reject ;; ret (snd pe)
  | PMove tl time =>
      if outside A tl (map6 fst limits) (map6 snd limits) then fine_reject ;; ret (snd pe)
      else
        (let t := l2p tl in
        lo <~ look (fun r => map6 s_min (r_servos r)); hi <~ look (fun r => map6 s_max (r_servos r));
        if outside A t lo hi then fine_reject ;; ret (snd pe)
        else cmds <~ fine_go t time; ret (snd pe ++ cmds))
  end.

(** case PREPARE_MOVE, lines 401-550 *)
Definition fine_prepare : P (list rev) :=
  r <~ look (fun r => r);
  if r_trans r then ret []
  else
    modify (fun r => if r_achg r then with_targets A r (r_targetA r) (fwd (r_targetA r))
              else if r_pchg r then
                with_targets A r (match inv (r_targetP r) with Some a => a | None => r_targetA r end) (r_targetP r)
              else with_state A r IDLE) ;;
    if r_pchg r && r_achg r then modify (fun r => with_state A (with_flags A r false false) IDLE) ;; ret []
    else
      modify (fun r => with_flags A r false false) ;;
      a <~ read_all; b <~ read_all;
      modify (fun r => with_starts A r (p2l b) (fwd (p2l a))) ;;
      q <~ look (fun r => r);
      if angles_equal A (r_startA q) (r_targetA q) then modify (fun r => with_state A r IDLE) ;; ret []
      else
        n <~ lift (match r_method q with
                   | P2P => Ok 1
                   | LINEAR => linear_steps A (r_startP q) (r_targetP q)
                   | CIRCULAR => Ok (r_total q)
                   end);
        modify (fun r => with_state A (with_steps A r 0 n) START_MOVE) ;;
        fine_start.

(** lines 374-379: each servo is asked in turn *)
Definition fine_ask (i : Z) : P bool := pause ;; look (fun r => servo_at_target A (at6 (r_servos r) i)).
Definition fine_arrived : P bool :=
  a <~ fine_ask 0; b <~ fine_ask 1; c <~ fine_ask 2; d <~ fine_ask 3; e <~ fine_ask 4; f <~ fine_ask 5;
  ret (a && (b && (c && (d && (e && (f && true)))))).

(** process(), lines 358-758 *)
Definition fine_process : P (list rev) :=
  s <~ look r_state;
  match s with
  | IDLE => ret []
  | MOVING =>
      ok <~ fine_arrived;
      if ok then
        r <~ look (fun r => r);
        if r_cur r =? r_total r then modify (fun r => with_state A r IDLE) ;; ret []
        else modify (fun r => with_state A r START_MOVE) ;; fine_start
      else ret []
  | PREPARE_MOVE => fine_prepare
  | START_MOVE => fine_start
  end.

(** ** Histories: API calls and ticks as in RobotModel; a call of process() comes with the interrupts
    that fall into it (those left over come right after it).  The result: the controller, what it did,
    and every pulse width written. *)
Definition fop : Type := RobotModel.rop A * list (list Z).
Definition fine_step (r : robot) (o : fop) : res (robot * list rev * list (V6 Z)) :=
  match fst o with
  | OProcess =>
      do (e, st) <- fine_process (mkF r (snd o) []);
      do st' <- irqs (concat (f_irq st)) (mkF (f_r st) [] (f_log st));
      Ok (f_r st', e, f_log st')
  | OTick dt => do st <- irqs [dt] (mkF r [] []); Ok (f_r st, [], f_log st)
  | op => do (r', e) <- r_step A fwd inv l2p p2l limits r op; Ok (r', e, [])
  end.
Fixpoint fine_run (r : robot) (os : list fop) : res (robot * list rev * list (V6 Z)) :=
  match os with
  | [] => Ok (r, [], [])
  | o :: rest =>
      do (x, l1) <- fine_step r o; let (r1, e1) := x in
      do (y, l2) <- fine_run r1 rest; let (r2, e2) := y in
      Ok (r2, e1 ++ e2, l1 ++ l2)
  end.
End Fine.
