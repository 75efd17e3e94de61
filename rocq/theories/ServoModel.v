(** * ServoModel: src/VarSpeedServo.cpp, generic in the arithmetic. *)
From Verif Require Import Base Arith.

Section Servo.
Context (A : arith).

(** VarSpeedServo.h:59-87.  Not modelled: lastUpdate (written once, never read),
    outOfRange (never written after its initialisation to false), the Servo library
    object (its effect is the pulse width returned by [servo_move]). *)
Record servo := mkServo {
  s_pin : Z; s_virtual : bool; s_home : F A;
  s_minF : Z; s_maxF : Z;                 (* minFreq, maxFreq (unsigned int) *)
  s_elapsed : Z;                          (* unsigned long elapsedTime, 32 bit *)
  s_start : F A; s_cur : F A; s_target : F A;
  s_min : F A; s_max : F A;               (* minRadAngle, maxRadAngle *)
  s_vel : F A; s_maxvel : F A }.          (* currentAngleVelocity, maxAngleVelocity *)

Definition with_start (s : servo) (x : F A) : servo :=
  mkServo (s_pin s) (s_virtual s) (s_home s) (s_minF s) (s_maxF s) (s_elapsed s)
          x (s_cur s) (s_target s) (s_min s) (s_max s) (s_vel s) (s_maxvel s).
Definition with_elapsed (s : servo) (n : Z) : servo :=
  mkServo (s_pin s) (s_virtual s) (s_home s) (s_minF s) (s_maxF s) n
          (s_start s) (s_cur s) (s_target s) (s_min s) (s_max s) (s_vel s) (s_maxvel s).
Definition with_cur (s : servo) (x : F A) : servo :=
  mkServo (s_pin s) (s_virtual s) (s_home s) (s_minF s) (s_maxF s) (s_elapsed s)
          (s_start s) x (s_target s) (s_min s) (s_max s) (s_vel s) (s_maxvel s).
Definition with_target (s : servo) (x : F A) : servo :=
  mkServo (s_pin s) (s_virtual s) (s_home s) (s_minF s) (s_maxF s) (s_elapsed s)
          (s_start s) (s_cur s) x (s_min s) (s_max s) (s_vel s) (s_maxvel s).
Definition with_vel (s : servo) (x : F A) : servo :=
  mkServo (s_pin s) (s_virtual s) (s_home s) (s_minF s) (s_maxF s) (s_elapsed s)
          (s_start s) (s_cur s) (s_target s) (s_min s) (s_max s) x (s_maxvel s).

(** conversion float -> int (32 bit), then to unsigned: out of range is undefined *)
Definition to_int (x : F A) : res Z :=
  match ftoz A x with
  | Some n => if (-2147483648 <=? n) && (n <=? 2147483647) then Ok n else Ub BadConv
  | None => Ub BadConv
  end.

(** VarSpeedServo.cpp:183-186, map_float *)
Definition map_float (x in_min in_max out_min out_max : F A) : F A :=
  fadd A (fdiv A (fmul A (fsub A x in_min) (fsub A out_max out_min)) (fsub A in_max in_min)) out_min.

(** VarSpeedServo.cpp:173-181, move(): the pulse width computed; it is written to the
    servo output unless the servo is virtual *)
Definition servo_move (s : servo) : res Z :=
  do n <- to_int (map_float (s_cur s) (s_min s) (s_max s) (fofz A (s_minF s)) (fofz A (s_maxF s)));
  Ok (u32 n).

(** what reaches the pin, line 178 *)
Definition servo_written (s : servo) (pulse : Z) : option Z :=
  if s_virtual s then None else Some pulse.

(** VarSpeedServo.cpp:16-58, the constructor (object state and the pulse written) *)
Definition servo_new (pin : Z) (maxvel : F A) (minF maxF : Z) (mn mx home : F A) : res (servo * Z) :=
  let s := mkServo pin (pin <? 0) home minF maxF 0 home home home mn mx maxvel maxvel in
  do p <- servo_move s; Ok (s, p).

(** VarSpeedServo.cpp:111-115, setTargetRadAngle: three statements, not atomic with
    respect to the timer interrupt *)
Definition set_target_1 (s : servo) : servo := with_start s (s_cur s).
Definition set_target_2 (s : servo) : servo := with_elapsed s 0.
Definition set_target_3 (s : servo) (a : F A) : servo := with_target s a.
Definition servo_set_target (s : servo) (a : F A) : servo :=
  set_target_3 (set_target_2 (set_target_1 s)) a.

(** VarSpeedServo.cpp:125-133, setCurrentAngleVelocity *)
Definition servo_set_vel (s : servo) (v : F A) : servo :=
  if flt A (s_maxvel s) v then with_vel s (s_maxvel s)
  else if fle A v (fofz A 0) then with_vel s (d2f A (ddec A false 1 (-1)))
  else with_vel s v.

(** VarSpeedServo.cpp:145-149: float deltaAngle = velocity * elapsedTime / 1000.0
    (float product, double quotient, stored as float) *)
Definition servo_delta (s : servo) : F A :=
  d2f A (ddiv A (f2d A (fmul A (s_vel s) (fofz A (s_elapsed s)))) (ddec A false 1000 0)).

(** VarSpeedServo.cpp:143-163, the angle update of process() *)
Definition servo_advance (s0 : servo) (dt : Z) : servo :=
  let s := with_elapsed s0 (u32 (s_elapsed s0 + dt)) in
  let delta := servo_delta s in
  if flt A (fabsf A (fsub A (s_target s) (s_start s))) (fabsf A delta)
  then with_start (with_cur s (s_target s)) (s_target s)
  else if flt A (s_start s) (s_target s)
       then with_cur s (fadd A (s_start s) delta)
       else with_cur s (fsub A (s_start s) delta).

(** VarSpeedServo.cpp:143-167, process(): new state and the pulse width returned *)
Definition servo_process (s : servo) (dt : Z) : res (servo * Z) :=
  let s' := servo_advance s dt in
  do p <- servo_move s'; Ok (s', p).

(** VarSpeedServo.cpp:169-171, atTargetAngle *)
Definition servo_at_target (s : servo) : bool :=
  dlt A (f2d A (fabsf A (fsub A (s_cur s) (s_target s)))) (ddec A false 1 (-6)).

(** VarSpeedServo.cpp:68-75, setAngleLimits (the warning is only logged) *)
Definition servo_set_limits (s : servo) (mn mx : F A) : servo :=
  mkServo (s_pin s) (s_virtual s) (s_home s) (s_minF s) (s_maxF s) (s_elapsed s)
          (s_start s) (s_cur s) (s_target s) mn mx (s_vel s) (s_maxvel s).
(** VarSpeedServo.cpp:85-88, setCalibrationFreq *)
Definition servo_set_calibration (s : servo) (mn mx : Z) : servo :=
  mkServo (s_pin s) (s_virtual s) (s_home s) mn mx (s_elapsed s)
          (s_start s) (s_cur s) (s_target s) (s_min s) (s_max s) (s_vel s) (s_maxvel s).

(** ** Histories: API calls and timer ticks.  The three statements of
    setTargetRadAngle are separate events, so that a tick may fall between them. *)
Inductive sop :=
| STick (dt : Z)          (* process(dt), called by the timer interrupt *)
| SVel (v : F A)          (* setCurrentAngleVelocity(v) *)
| SStmt1 | SStmt2 | SStmt3 (a : F A).   (* the statements of setTargetRadAngle(a) *)

Definition sop_step (s : servo) (o : sop) : res servo :=
  match o with
  | STick dt => do (s', _) <- servo_process s dt; Ok s'
  | SVel v => Ok (servo_set_vel s v)
  | SStmt1 => Ok (set_target_1 s)
  | SStmt2 => Ok (set_target_2 s)
  | SStmt3 a => Ok (set_target_3 s a)
  end.

Fixpoint sop_run (s : servo) (os : list sop) : res servo :=
  match os with
  | [] => Ok s
  | o :: r => do s' <- sop_step s o; sop_run s' r
  end.

(** setTargetRadAngle(a) without interruption *)
Definition STarget (a : F A) : list sop := [SStmt1; SStmt2; SStmt3 a].
Definition ticks (dts : list Z) : list sop := map STick dts.

Lemma sop_run_app s l m : sop_run s (l ++ m) = do s' <- sop_run s l; sop_run s' m.
Proof.
  revert s; induction l as [|o l IH]; intros s; cbn; [reflexivity|].
  destruct (sop_step s o); cbn; auto.
Qed.
Lemma sop_run_target s a : sop_run s (STarget a) = Ok (servo_set_target s a).
Proof. reflexivity. Qed.

End Servo.

Arguments s_pin {A}. Arguments s_virtual {A}. Arguments s_home {A}.
Arguments s_minF {A}. Arguments s_maxF {A}. Arguments s_elapsed {A}.
Arguments s_start {A}. Arguments s_cur {A}. Arguments s_target {A}.
Arguments s_min {A}. Arguments s_max {A}. Arguments s_vel {A}. Arguments s_maxvel {A}.
Arguments STick {A}. Arguments SVel {A}. Arguments SStmt1 {A}. Arguments SStmt2 {A}.
Arguments SStmt3 {A}.
