(** * RobotModel: src/RobotController.cpp, generic in the arithmetic, the kinematics, the
    joint coupling functions and the logical limits. *)
From Verif Require Import Base Arith ServoModel.

(** ** float[6] arrays *)
Record V6 (T : Type) := mk6 { v0 : T; v1 : T; v2 : T; v3 : T; v4 : T; v5 : T }.
Arguments mk6 {T}. Arguments v0 {T}. Arguments v1 {T}. Arguments v2 {T}.
Arguments v3 {T}. Arguments v4 {T}. Arguments v5 {T}.

Definition map6 {S T} (f : S -> T) (a : V6 S) : V6 T :=
  mk6 (f (v0 a)) (f (v1 a)) (f (v2 a)) (f (v3 a)) (f (v4 a)) (f (v5 a)).
Definition zip6 {S T U} (f : S -> T -> U) (a : V6 S) (b : V6 T) : V6 U :=
  mk6 (f (v0 a) (v0 b)) (f (v1 a) (v1 b)) (f (v2 a) (v2 b))
      (f (v3 a) (v3 b)) (f (v4 a) (v4 b)) (f (v5 a) (v5 b)).
(** for i = 0..5 *)
Definition list6 {T} (a : V6 T) : list T := [v0 a; v1 a; v2 a; v3 a; v4 a; v5 a].
(** a[i]; [d] when i is not 0..5 (callers check) *)
Definition get6 {T} (a : V6 T) (i : Z) (d : T) : T :=
  if i =? 0 then v0 a else if i =? 1 then v1 a else if i =? 2 then v2 a
  else if i =? 3 then v3 a else if i =? 4 then v4 a else if i =? 5 then v5 a else d.
(** a[i] = x *)
Definition set6 {T} (a : V6 T) (i : Z) (x : T) : V6 T :=
  mk6 (if i =? 0 then x else v0 a) (if i =? 1 then x else v1 a) (if i =? 2 then x else v2 a)
      (if i =? 3 then x else v3 a) (if i =? 4 then x else v4 a) (if i =? 5 then x else v5 a).

Inductive rstate := IDLE | MOVING | START_MOVE | PREPARE_MOVE.   (* RobotController.h:36 *)
Inductive rmethod := P2P | LINEAR | CIRCULAR.                    (* RobotController.h:35 *)

Section Robot.
Context (A : arith).
Context (fwd : V6 (F A) -> V6 (F A)).             (* Kinematic::forward *)
Context (inv : V6 (F A) -> option (V6 (F A))).    (* Kinematic::inverse; None = OUT_OF_RANGE,
                                                     the output array untouched *)
Context (l2p p2l : V6 (F A) -> V6 (F A)).         (* logicalToPhysicalAngles, physicalToLogicalAngles *)
Context (limits : V6 (F A * F A)).                (* logicalAngleLimits *)

(** Members of RobotController (RobotController.h:91-124) and the two static locals of
    process().  Not modelled: the orientation vectors and interpolationRotationAngle
    (written and read only inside one PREPARE_MOVE step), moveAsFarAsPossibleOnOutOfBound
    (never read); interpolationDistanceIncrement = 0.5 and
    interpolationOrientationAngleIncrement = 15 are constants (never reassigned). *)
Record robot := mkRobot {
  r_servos : V6 (servo A);
  r_startA : V6 (F A); r_targetA : V6 (F A);     (* startAngles, targetAngles *)
  r_startP : V6 (F A); r_targetP : V6 (F A);     (* startPose, targetPose *)
  r_achg : bool; r_pchg : bool;                  (* targetAnglesChanged, targetPoseChanged *)
  r_trans : bool;                                (* inTransaction *)
  r_state : rstate;
  r_maxvel : F A;
  r_method : rmethod;
  r_cur : Z; r_total : Z }.                      (* currentInterpolationStep, totalInterpolationSteps *)

(** what the outside sees of a step *)
Inductive rev :=
| EvPrint (x : F A)                     (* Serial.println(moveInTime), line 574 *)
| EvInverse (p : V6 (F A))              (* START_MOVE asks the kinematics for pose p *)
| EvServo (i : Z) (v a : F A).          (* servo i: setCurrentAngleVelocity(v); setTargetRadAngle(a) *)

Definition with_state (r : robot) (s : rstate) : robot :=
  mkRobot (r_servos r) (r_startA r) (r_targetA r) (r_startP r) (r_targetP r) (r_achg r) (r_pchg r)
          (r_trans r) s (r_maxvel r) (r_method r) (r_cur r) (r_total r).
Definition with_servos (r : robot) (x : V6 (servo A)) : robot :=
  mkRobot x (r_startA r) (r_targetA r) (r_startP r) (r_targetP r) (r_achg r) (r_pchg r)
          (r_trans r) (r_state r) (r_maxvel r) (r_method r) (r_cur r) (r_total r).
Definition with_targets (r : robot) (a p : V6 (F A)) : robot :=
  mkRobot (r_servos r) (r_startA r) a (r_startP r) p (r_achg r) (r_pchg r)
          (r_trans r) (r_state r) (r_maxvel r) (r_method r) (r_cur r) (r_total r).
Definition with_starts (r : robot) (a p : V6 (F A)) : robot :=
  mkRobot (r_servos r) a (r_targetA r) p (r_targetP r) (r_achg r) (r_pchg r)
          (r_trans r) (r_state r) (r_maxvel r) (r_method r) (r_cur r) (r_total r).
Definition with_flags (r : robot) (a p : bool) : robot :=
  mkRobot (r_servos r) (r_startA r) (r_targetA r) (r_startP r) (r_targetP r) a p
          (r_trans r) (r_state r) (r_maxvel r) (r_method r) (r_cur r) (r_total r).
Definition with_steps (r : robot) (c t : Z) : robot :=
  mkRobot (r_servos r) (r_startA r) (r_targetA r) (r_startP r) (r_targetP r) (r_achg r) (r_pchg r)
          (r_trans r) (r_state r) (r_maxvel r) (r_method r) c t.
Definition with_trans (r : robot) (b : bool) : robot :=
  mkRobot (r_servos r) (r_startA r) (r_targetA r) (r_startP r) (r_targetP r) (r_achg r) (r_pchg r)
          b (r_state r) (r_maxvel r) (r_method r) (r_cur r) (r_total r).
Definition with_maxvel (r : robot) (v : F A) : robot :=
  mkRobot (r_servos r) (r_startA r) (r_targetA r) (r_startP r) (r_targetP r) (r_achg r) (r_pchg r)
          (r_trans r) (r_state r) v (r_method r) (r_cur r) (r_total r).
Definition with_method (r : robot) (m : rmethod) : robot :=
  mkRobot (r_servos r) (r_startA r) (r_targetA r) (r_startP r) (r_targetP r) (r_achg r) (r_pchg r)
          (r_trans r) (r_state r) (r_maxvel r) m (r_cur r) (r_total r).

(** ** Constants *)
Definition f_dec (m e : Z) : F A := d2f A (ddec A false m e).
Definition RAD_TO_DEG : D A := ddec A false 57295779513082320876798154814105 (-30).  (* Arduino.h *)
Definition DEG_TO_RAD : D A := ddec A false 17453292519943295769236907684886 (-33).  (* Arduino.h *)

(** ** Getters *)
(** the six servos' current angles; RobotController.cpp:107-109, 277-279 *)
Definition servo_angles (r : robot) : V6 (F A) := map6 s_cur (r_servos r).
(** getCurrentLogicalAngles, RobotController.cpp:276-281 *)
Definition current_logical (r : robot) : V6 (F A) := p2l (servo_angles r).
(** getCurrentPose, RobotController.cpp:104-123 *)
Definition current_pose (r : robot) : V6 (F A) := fwd (current_logical r).
(** getCurrentPhysicalAngles, RobotController.cpp:327-330 *)
Definition current_physical (r : robot) : V6 (F A) := l2p (current_logical r).
(** getTargetPhysicalAngles, RobotController.cpp:340-343 *)
Definition target_physical (r : robot) : V6 (F A) := l2p (r_targetA r).
(** isMoving, RobotController.cpp:354-356 *)
Definition is_moving (r : robot) : bool := match r_state r with IDLE => false | _ => true end.

(** ** Constructor, RobotController.cpp:47-74 *)
Definition robot_new (servos : V6 (servo A)) : robot :=
  let z := fofz A 0 in let zero := mk6 z z z z z z in
  let r := mkRobot servos zero zero zero zero false false false IDLE (fofz A 70) P2P 0 0 in
  with_targets r (current_logical r) (current_pose r).

(** ** Setters *)
(** setTargetPose(position, value), RobotController.cpp:202-231 *)
Definition set_pose (r : robot) (i : Z) (x : F A) : robot :=
  with_state (with_flags (with_targets r (r_targetA r) (set6 (r_targetP r) i x)) (r_achg r) true) PREPARE_MOVE.
(** setTargetPose(x,y,z,a,b,c) and setTargetPose(pose), RobotController.cpp:163-200 *)
Definition set_pose6 (r : robot) (p : V6 (F A)) : robot :=
  with_state (with_flags (with_targets r (r_targetA r) p) (r_achg r) true) PREPARE_MOVE.
(** setTargetLogicalAngle, RobotController.cpp:305-311: the index is not checked *)
Definition set_angle (r : robot) (i : Z) (x : F A) : res robot :=
  if (0 <=? i) && (i <? 6) then
    Ok (with_state (with_flags (with_targets r (set6 (r_targetA r) i x) (r_targetP r)) true (r_pchg r)) PREPARE_MOVE)
  else Ub OobWrite.
(** setTargetLogicalAngles, RobotController.cpp:290-303 *)
Definition set_angles6 (r : robot) (a : V6 (F A)) : robot :=
  with_state (with_flags (with_targets r a (r_targetP r)) true (r_pchg r)) PREPARE_MOVE.
(** stop, RobotController.cpp:84-86 *)
Definition r_stop (r : robot) : robot := with_state r IDLE.

(** ** process *)
(** _anglesEqual, RobotController.cpp:769-776 *)
Definition angles_equal (a b : V6 (F A)) : bool :=
  forallb (fun x => negb (dle A (ddec A false 1 (-4)) (f2d A (fabsf A x)))) (list6 (zip6 (fsub A) a b)).

(** sqrt(pow(dx,2)+pow(dy,2)+pow(dz,2)) stored as float, lines 530 and 615 (pow(x,2) is x*x) *)
Definition dist3 (dx dy dz : F A) : F A :=
  let sq x := dmul A (f2d A x) (f2d A x) in
  d2f A (dsqrt A (dadd A (dadd A (sq dx) (sq dy)) (sq dz))).

(** a (1,0,0) vector rotated by the pose's angles, lines 487-508: cb*cc, cb*sc, -sb *)
Definition orient (p : V6 (F A)) : F A * F A * F A :=
  let cb := fcos A (v4 p) in let sb := fsin A (v4 p) in
  let cc := fcos A (v5 p) in let sc := fsin A (v5 p) in
  (fmul A cb cc, fmul A cb sc, fopp A sb).
(** NORM, lines 13-18: float vector divided by its double length *)
Definition norm3 (u : F A * F A * F A) : F A * F A * F A :=
  let '(x, y, z) := u in
  let len := f2d A (fsqrt A (fadd A (fadd A (fmul A x x) (fmul A y y)) (fmul A z z))) in
  (d2f A (ddiv A (f2d A x) len), d2f A (ddiv A (f2d A y) len), d2f A (ddiv A (f2d A z) len)).
(** interpolationRotationAngle, line 520 *)
Definition rotation_angle (start target : V6 (F A)) : F A :=
  let '(a0, a1, a2) := norm3 (orient start) in
  let '(b0, b1, b2) := norm3 (orient target) in
  facos A (fadd A (fadd A (fmul A a0 b0) (fmul A a1 b1)) (fmul A a2 b2)).

(** totalInterpolationSteps of a LINEAR move, lines 522-538 *)
Definition linear_steps (start target : V6 (F A)) : res Z :=
  let distance := dist3 (fsub A (v0 target) (v0 start)) (fsub A (v1 target) (v1 start))
                        (fsub A (v2 target) (v2 start)) in
  do ds <- to_int A (fadd A (fdiv A distance (f_dec 5 (-1))) (fofz A 1));
  do as_ <- to_int A (fadd A (fdiv A (rotation_angle start target) (fofz A 15)) (fofz A 1));
  Ok (u32 (if as_ <? ds then ds else as_)).

(** lines 665-669, 702-706 and 720-724: give up the move *)
Definition r_reject (r : robot) : robot :=
  with_state (with_targets r (current_logical r) (current_pose r)) IDLE.

(** max over the axes of |start - target|, lines 566-572 *)
Definition max_change (a b : V6 (F A)) : F A :=
  fold_left (fun m d => if flt A m d then d else m)
            (list6 (map6 (fabsf A) (zip6 (fsub A) a b))) (fofz A 0).

(** the k-th of n poses of a LINEAR move, lines 582-638: position start + (target - start)*(k/n),
    orientation of the target *)
Definition waypoint (start target : V6 (F A)) (k n : Z) : V6 (F A) :=
  let fraction := fdiv A (fofz A k) (fofz A n) in
  let at_ s t := fadd A s (fmul A (fsub A t s) fraction) in
  mk6 (at_ (v0 start) (v0 target)) (at_ (v1 start) (v1 target)) (at_ (v2 start) (v2 target))
      (v3 target) (v4 target) (v5 target).

(** lines 672-677: near the wrist singularity joints 3 and 5 keep the servos' angles *)
Definition near_singular (a : F A) : bool :=
  dlt A (dabs A (dsub A (f2d A a) (ddiv A (dpi A) (ddec A false 2 0)))) (ddec A false 5 (-2)).
Definition singularity (r : robot) (t : V6 (F A)) : V6 (F A) :=
  if near_singular (v4 t)
  then set6 (set6 t 3 (s_cur (v3 (r_servos r)))) 5 (s_cur (v5 (r_servos r)))
  else t.

(** lines 555-685: next target angles and move time, by movement method *)
Inductive plan :=
| PMove (t : V6 (F A)) (time : F A)
| PReject.
Definition r_plan (r : robot) : res (plan * list rev) :=
  match r_method r with
  | P2P =>
      let time := d2f A (dmul A (f2d A (fdiv A (max_change (r_startA r) (r_targetA r)) (r_maxvel r))) RAD_TO_DEG) in
      Ok (PMove (r_targetA r) time, [EvPrint time])
  | LINEAR =>
      let s := r_startP r in let t := r_targetP r in
      let distance := dist3 (fsub A (v0 t) (v0 s)) (fsub A (v1 t) (v1 s)) (fsub A (v2 t) (v2 s)) in
      let pose := waypoint s t (r_cur r) (r_total r) in
      let time := fdiv A (fdiv A distance (fofz A (r_total r))) (r_maxvel r) in
      match inv pose with
      | Some a => Ok (PMove (singularity r a) time, [EvInverse pose])
      | None => Ok (PReject, [EvInverse pose])
      end
  | CIRCULAR => Ub Uninit      (* tmpTargetAngles and moveInTime are never assigned *)
  end.

(** lines 695-708 and 713-726: some component outside [lo, hi] (a comparison with NaN is false) *)
Definition outside (t : V6 (F A)) (lo hi : V6 (F A)) : bool :=
  existsb (fun b => b) (list6 (zip6 orb (zip6 (flt A) t lo) (zip6 (flt A) hi t))).

(** |t - current| for each servo, lines 733 and 746 *)
Definition travel (r : robot) (t : V6 (F A)) : V6 (F A) :=
  map6 (fabsf A) (zip6 (fsub A) t (servo_angles r)).
(** lines 728-737: the time needed by the slowest servo, at least [time] *)
Definition min_time (r : robot) (t : V6 (F A)) (time : F A) : F A :=
  fold_left (fun m x => if flt A m x then x else m)
            (list6 (zip6 (fdiv A) (travel r t) (map6 s_maxvel (r_servos r)))) time.

(** lines 744-752 *)
Definition command_servos (r : robot) (t : V6 (F A)) (time : F A) : robot * list rev :=
  let vels := map6 (fun d => fdiv A d time) (travel r t) in
  (with_servos r (zip6 (fun s vt => servo_set_target A (servo_set_vel A s (fst vt)) (snd vt))
                       (r_servos r) (zip6 pair vels t)),
   [EvServo 0 (v0 vels) (v0 t); EvServo 1 (v1 vels) (v1 t); EvServo 2 (v2 vels) (v2 t);
    EvServo 3 (v3 vels) (v3 t); EvServo 4 (v4 vels) (v4 t); EvServo 5 (v5 vels) (v5 t)]).

(** case START_MOVE, lines 552-756 *)
Definition r_start_move (r0 : robot) : res (robot * list rev) :=
  let r := with_steps r0 (u32 (r_cur r0 + 1)) (r_total r0) in
  do (p, evs) <- r_plan r;
  match p with
  | PReject => Ok (r_reject r, evs)
  | PMove tl time =>
      if outside tl (map6 fst limits) (map6 snd limits) then Ok (r_reject r, evs)
      else
        let t := l2p tl in
        if outside t (map6 s_min (r_servos r)) (map6 s_max (r_servos r)) then Ok (r_reject r, evs)
        else
          let mt := min_time r t time in
          if negb (feq A mt (fofz A 0)) then
            let (r', cmds) := command_servos r t mt in
            Ok (with_state r' MOVING, evs ++ cmds)
          else Ok (with_state r MOVING, evs)
  end.

(** case PREPARE_MOVE, lines 401-550 *)
Definition r_prepare (r : robot) : res (robot * list rev) :=
  if r_trans r then Ok (r, [])
  else
    let r1 := if r_achg r then with_targets r (r_targetA r) (fwd (r_targetA r))
              else if r_pchg r then
                with_targets r (match inv (r_targetP r) with Some a => a | None => r_targetA r end) (r_targetP r)
              else with_state r IDLE in
    if r_pchg r && r_achg r then Ok (with_state (with_flags r1 false false) IDLE, [])
    else
      let r2 := with_flags r1 false false in
      let r3 := with_starts r2 (current_logical r2) (current_pose r2) in
      if angles_equal (r_startA r3) (r_targetA r3) then Ok (with_state r3 IDLE, [])
      else
        do n <- match r_method r3 with
                | P2P => Ok 1
                | LINEAR => linear_steps (r_startP r3) (r_targetP r3)
                | CIRCULAR => Ok (r_total r3)
                end;
        r_start_move (with_state (with_steps r3 0 n) START_MOVE).

(** all six servos at their target, lines 374-379 *)
Definition all_at_target (r : robot) : bool :=
  forallb (servo_at_target A) (list6 (r_servos r)).

(** process(), RobotController.cpp:358-758 *)
Definition r_process (r : robot) : res (robot * list rev) :=
  match r_state r with
  | IDLE => Ok (r, [])
  | MOVING =>
      if all_at_target r then
        if r_cur r =? r_total r then Ok (with_state r IDLE, [])
        else r_start_move (with_state r START_MOVE)
      else Ok (r, [])
  | PREPARE_MOVE => r_prepare r
  | START_MOVE => r_start_move r
  end.

(** one timer tick for the robot's servos, main.cpp:175-188 (servos 0-5); [dt] = 20 *)
Definition r_tick (r : robot) (dt : Z) : res robot :=
  let one s := do (s', _) <- servo_process A s dt; Ok s' in
  do a <- one (v0 (r_servos r)); do b <- one (v1 (r_servos r)); do c <- one (v2 (r_servos r));
  do d <- one (v3 (r_servos r)); do e <- one (v4 (r_servos r)); do f <- one (v5 (r_servos r));
  Ok (with_servos r (mk6 a b c d e f)).

(** ** Histories of API calls and ticks.  Simplification: a tick does not fall inside an
    API call (the race inside setTargetRadAngle is modelled in ServoModel). *)
Inductive rop :=
| OSetPose (i : Z) (x : F A) | OSetPose6 (p : V6 (F A))
| OSetAngle (i : Z) (x : F A) | OSetAngles (a : V6 (F A))
| OStart | OEnd | OStop | OVel (v : F A) | OMethod (m : rmethod)
| OProcess | OTick (dt : Z).

Definition r_step (r : robot) (o : rop) : res (robot * list rev) :=
  match o with
  | OSetPose i x => Ok (set_pose r i x, [])
  | OSetPose6 p => Ok (set_pose6 r p, [])
  | OSetAngle i x => do r' <- set_angle r i x; Ok (r', [])
  | OSetAngles a => Ok (set_angles6 r a, [])
  | OStart => Ok (with_trans r true, [])       (* startTransaction, 76-78 *)
  | OEnd => Ok (with_trans r false, [])        (* endTransaction, 80-82 *)
  | OStop => Ok (r_stop r, [])
  | OVel v => Ok (with_maxvel r v, [])         (* setMaxVelocity, 88-90 *)
  | OMethod m => Ok (with_method r m, [])      (* setMovementMethod, 96-98 *)
  | OProcess => r_process r
  | OTick dt => do r' <- r_tick r dt; Ok (r', [])
  end.

Fixpoint r_run (r : robot) (os : list rop) : res (robot * list rev) :=
  match os with
  | [] => Ok (r, [])
  | o :: rest =>
      do (r1, e1) <- r_step r o;
      do (r2, e2) <- r_run r1 rest;
      Ok (r2, e1 ++ e2)
  end.

(** servo commands in a trace: (axis, speed, angle) *)
Fixpoint servo_cmds (es : list rev) : list (Z * F A * F A) :=
  match es with
  | [] => []
  | EvServo i v a :: r => (i, v, a) :: servo_cmds r
  | _ :: r => servo_cmds r
  end.
(** poses asked of the kinematics by START_MOVE *)
Fixpoint waypoints (es : list rev) : list (V6 (F A)) :=
  match es with
  | [] => []
  | EvInverse p :: r => p :: waypoints r
  | _ :: r => waypoints r
  end.

End Robot.

Arguments r_servos {A}. Arguments r_startA {A}. Arguments r_targetA {A}. Arguments r_startP {A}.
Arguments r_targetP {A}. Arguments r_achg {A}. Arguments r_pchg {A}. Arguments r_trans {A}.
Arguments r_state {A}. Arguments r_maxvel {A}. Arguments r_method {A}. Arguments r_cur {A}.
Arguments r_total {A}.
Arguments EvPrint {A}. Arguments EvInverse {A}. Arguments EvServo {A}.
Arguments PMove {A}. Arguments PReject {A}.
Arguments OSetPose {A}. Arguments OSetPose6 {A}. Arguments OSetAngle {A}. Arguments OSetAngles {A}.
Arguments OStart {A}. Arguments OEnd {A}. Arguments OStop {A}. Arguments OVel {A}.
Arguments OMethod {A}. Arguments OProcess {A}. Arguments OTick {A}.
Arguments is_moving {A}. Arguments servo_cmds {A}. Arguments waypoints {A}.
