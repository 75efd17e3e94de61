(** * CalibModel: examples/CalibrateServos.h, the calibration program of the README
    (section "Servo Calibration"), generic in the arithmetic.  main.cpp:1-6 builds it
    instead of the controller when EXAMPLES is defined; it drives the same
    VarSpeedServo objects. *)
From Verif Require Import Base Arith ServoModel RobotModel KinModel ConfigModel.

Section Calib.
Context (A : arith).
Notation float := (F A).
Notation double := (D A).

(** conversion float -> unsigned int: undefined outside 0 .. 2^32-1 *)
Definition to_uint (x : float) : res Z :=
  match ftoz A x with
  | Some n => if (0 <=? n) && (n <=? 4294967295) then Ok n else Ub BadConv
  | None => Ub BadConv
  end.

(** one row of tmpServoConfig (lines 24-31): pin, current pulse, calibrated pulses,
    the angles they stand for.  The column indices in the code are all constants or
    (setmode == X ? a : b), so a row is a record; the row index is a variable, and
    accesses to the table are checked ([zget], [zset]). *)
Record row := mkRow { r_pin : float; r_cur : float; r_f0 : float; r_f1 : float; r_a0 : float; r_a1 : float }.
Definition with_rcur (r : row) (x : float) := mkRow (r_pin r) x (r_f0 r) (r_f1 r) (r_a0 r) (r_a1 r).
Definition with_rf0 (r : row) (x : float) := mkRow (r_pin r) (r_cur r) x (r_f1 r) (r_a0 r) (r_a1 r).
Definition with_rf1 (r : row) (x : float) := mkRow (r_pin r) (r_cur r) (r_f0 r) x (r_a0 r) (r_a1 r).
Definition with_ra0 (r : row) (x : float) := mkRow (r_pin r) (r_cur r) (r_f0 r) (r_f1 r) x (r_a1 r).
Definition with_ra1 (r : row) (x : float) := mkRow (r_pin r) (r_cur r) (r_f0 r) (r_f1 r) (r_a0 r) x.

(** lines 75-76 *)
Inductive setmode := FREQ_MIN | FREQ_MAX | ANGLE_MIN | ANGLE_MAX | MOVE.

(** what can be observed: a pulse handed to servo i's writeMicroseconds, and the lines
    printed (their numbers; the formatting of floats is the serial library's) *)
Inductive cev :=
| CPulse (i : Z) (us : Z)
| CMoving (angle : float)                                  (* line 139 *)
| CError (i : Z)                                           (* VarSpeedServo.cpp:31-37, 69-71: min angle > max angle *)
| CHelp                                                    (* lines 95-131 *)
| CConfig (rows : list (float * float * double * double))  (* lines 238-265 *)
| CStatus (m : setmode) (value : double) (servo : Z) (angle : double).  (* lines 333-362 *)

(** the variables of lines 12-31 and 67-79 that are ever read: tmpServoConfig, servos,
    selectedServo, setmode, MODE ([c_test]: MODE == TEST).  targetAnglePointer, count,
    currentFrequency, currentAngles are never used; frequency is only ever assigned to
    itself (line 363, constrain), increment is the constant 1. *)
Record calib := mkCalib {
  c_tab : list row; c_servos : list (servo A); c_sel : Z; c_set : setmode; c_test : bool }.

Definition with_tab (c : calib) t := mkCalib t (c_servos c) (c_sel c) (c_set c) (c_test c).
Definition with_servos (c : calib) s := mkCalib (c_tab c) s (c_sel c) (c_set c) (c_test c).
Definition with_sel (c : calib) i := mkCalib (c_tab c) (c_servos c) i (c_set c) (c_test c).
Definition with_set (c : calib) m := mkCalib (c_tab c) (c_servos c) (c_sel c) m (c_test c).
Definition with_test (c : calib) b := mkCalib (c_tab c) (c_servos c) (c_sel c) (c_set c) b.

(** VarSpeedServo.cpp:117-119, setFreqency(long): the float argument is converted first *)
Definition set_frequency (c : calib) (i : Z) (x : float) : res (list cev) :=
  do n <- to_int A x;
  do s <- zget (c_servos c) i;
  Ok (if s_virtual s then [] else [CPulse i n]).

(** lines 138-145, moveToAngle; 10000 ms at 100 rad/s *)
Definition move_to_angle (c : calib) (i : Z) (angle : float) : res (calib * list cev) :=
  do s <- zget (c_servos c) i;
  do (s', p) <- servo_process A (servo_set_target A s angle) 10000;
  do ss <- zset (c_servos c) i s';
  do r <- zget (c_tab c) i;
  do t <- zset (c_tab c) i (with_rcur r (fofz A p));
  Ok (with_servos (with_tab c t) ss,
      CMoving angle :: (if s_virtual s then [] else [CPulse i p])).

(** lines 171-189: t and z, pressed twice, drive the servo to the calibrated pulse *)
Definition drive_to (c : calib) (pulse : row -> float) : res (calib * list cev) :=
  do r <- zget (c_tab c) (c_sel c);
  let r' := with_rcur r (pulse r) in
  do t <- zset (c_tab c) (c_sel c) r';
  do ev <- set_frequency c (c_sel c) (r_cur r');
  Ok (with_tab c t, ev).

(** lines 238-265: what p prints *)
Definition printed_row (r : row) : float * float * double * double :=
  (r_f0 r, r_f1 r, dmul A (f2d A (r_a0 r)) (RAD_TO_DEG A), dmul A (f2d A (r_a1 r)) (RAD_TO_DEG A)).

Definition is_min (m : setmode) : bool := match m with FREQ_MIN => true | _ => false end.
Definition is_max (m : setmode) : bool := match m with FREQ_MAX => true | _ => false end.

(** lines 156-274: the first switch of loop(), on the byte received; [true]: changed.
    h 104, e 101, r 114, t 116, z 122, n 110, 0-5 48-53, q 113, a 97, d 100, p 112,
    m 109 (lines 81-93). *)
Definition on_key (c : calib) (k : Z) : res (calib * list cev * bool) :=
  if k =? 104 then Ok (c, [CHelp], false)
  else if k =? 101 then Ok (with_set c ANGLE_MIN, [], true)
  else if k =? 114 then Ok (with_set c ANGLE_MAX, [], true)
  else if k =? 116 then
    do (c', ev) <- (if is_min (c_set c) then drive_to c r_f0 else Ok (c, []));
    Ok (with_set c' FREQ_MIN, ev, true)
  else if k =? 122 then
    do (c', ev) <- (if is_max (c_set c) then drive_to c r_f1 else Ok (c, []));
    Ok (with_set c' FREQ_MAX, ev, true)
  else if k =? 110 then Ok (with_set c MOVE, [], true)
  else if (48 <=? k) && (k <=? 53) then Ok (with_sel c (k - 48), [], true)
  else if k =? 113 then do (c', ev) <- move_to_angle c (c_sel c) (fofz A 0); Ok (c', ev, true)
  else if k =? 97 then
    do r <- zget (c_tab c) (c_sel c);
    do (c', ev) <- move_to_angle c (c_sel c) (r_a0 r); Ok (c', ev, true)
  else if k =? 100 then
    do r <- zget (c_tab c) (c_sel c);
    do (c', ev) <- move_to_angle c (c_sel c) (r_a1 r); Ok (c', ev, true)
  else if k =? 112 then Ok (c, [CConfig (map printed_row (c_tab c))], false)
  else if k =? 109 then Ok (with_test c (negb (c_test c)), [], false)
  else Ok (c, [], false).

(** lines 280-294: w and s in the angle modes.  float += double *)
Definition nudge_angle (c : calib) (up : bool) : res (calib * list cev) :=
  do r <- zget (c_tab c) (c_sel c);
  let step := fun x : float => d2f A ((if up then dadd A else dsub A) (f2d A x) (DEG_TO_RAD A)) in
  let r' := match c_set c with ANGLE_MIN => with_ra0 r (step (r_a0 r)) | _ => with_ra1 r (step (r_a1 r)) end in
  do t <- zset (c_tab c) (c_sel c) r';
  do s <- zget (c_servos c) (c_sel c);
  do ss <- zset (c_servos c) (c_sel c) (servo_set_limits A s (r_a0 r') (r_a1 r'));
  Ok (with_servos (with_tab c t) ss, if flt A (r_a1 r') (r_a0 r') then [CError (c_sel c)] else []).

(** lines 296-316: w and s in the pulse modes: the calibrated pulse becomes the current
    one plus or minus one, and the servo is driven there *)
Definition nudge_pulse (c : calib) (up : bool) : res (calib * list cev) :=
  do r <- zget (c_tab c) (c_sel c);
  let x := (if up then fadd A else fsub A) (r_cur r) (fofz A 1) in
  let r' := with_rcur (if is_min (c_set c) then with_rf0 r x else with_rf1 r x) x in
  do t <- zset (c_tab c) (c_sel c) r';
  do ev <- set_frequency c (c_sel c) (r_cur r');
  do f0 <- to_uint (r_f0 r');
  do f1 <- to_uint (r_f1 r');
  do s <- zget (c_servos c) (c_sel c);
  do ss <- zset (c_servos c) (c_sel c) (servo_set_calibration A s f0 f1);
  Ok (with_servos (with_tab c t) ss, ev).

(** lines 318-329: w and s in the mode n *)
Definition nudge_move (c : calib) (up : bool) : res (calib * list cev) :=
  do r <- zget (c_tab c) (c_sel c);
  let r' := with_rcur r ((if up then fadd A else fsub A) (r_cur r) (fofz A 10)) in
  do t <- zset (c_tab c) (c_sel c) r';
  do ev <- set_frequency c (c_sel c) (r_cur r');
  Ok (with_tab c t, ev).

(** lines 279-330: the switch on setmode; w 119, s 115 *)
Definition on_nudge (c : calib) (k : Z) : res (calib * list cev * bool) :=
  if (k =? 119) || (k =? 115) then
    do (c', ev) <- match c_set c with
                   | ANGLE_MIN | ANGLE_MAX => nudge_angle c (k =? 119)
                   | FREQ_MIN | FREQ_MAX => nudge_pulse c (k =? 119)
                   | MOVE => nudge_move c (k =? 119)
                   end;
    Ok (c', ev, true)
  else Ok (c, [], false).

(** lines 133-136 (map_float, the same text as the servo's) and 333-362: the status line *)
Definition status (c : calib) : res (list cev) :=
  do r <- zget (c_tab c) (c_sel c);
  let value := match c_set c with
               | ANGLE_MIN => dmul A (f2d A (r_a0 r)) (RAD_TO_DEG A)
               | ANGLE_MAX => dmul A (f2d A (r_a1 r)) (RAD_TO_DEG A)
               | FREQ_MIN => f2d A (r_f0 r)
               | FREQ_MAX => f2d A (r_f1 r)
               | MOVE => f2d A (r_cur r)
               end in
  Ok [CStatus (c_set c) value (c_sel c)
        (dmul A (f2d A (map_float A (r_cur r) (r_f0 r) (r_f1 r) (r_a0 r) (r_a1 r))) (RAD_TO_DEG A))].

(** lines 147-408, one call of loop() with the byte k received (k = 0: none) *)
Definition calib_step (c : calib) (k : Z) : res (calib * list cev) :=
  do (c1, ev1, ch1) <- on_key c k;
  if c_test c1 then Ok (c1, ev1)
  else
    do (c2, ev2, ch2) <- on_nudge c1 k;
    do ev3 <- (if ch1 || ch2 then status c2 else Ok []);
    Ok (c2, ev1 ++ ev2 ++ ev3).

Fixpoint calib_run (c : calib) (ks : list Z) : res (calib * list cev) :=
  match ks with
  | [] => Ok (c, [])
  | k :: r => do (c1, ev1) <- calib_step c k; do (c2, ev2) <- calib_run c1 r; Ok (c2, ev1 ++ ev2)
  end.

(** ** setup(), lines 33-65, from the columns 0 and 2-5 of servoConfig *)
Record cfg := mkCfg { g_pin : float; g_f0 : float; g_f1 : float; g_a0 : float; g_a1 : float }.

(** lines 44-49 *)
Definition row_of (g : cfg) : row := mkRow (g_pin g) (fofz A 1500) (g_f0 g) (g_f1 g) (g_a0 g) (g_a1 g).
(** lines 53-64: the object made for row i, and the pulses it sends *)
Definition setup_servo (i : Z) (r : row) : res (servo A * list cev) :=
  do pin <- to_int A (r_pin r);
  do f0 <- to_uint (r_f0 r);
  do f1 <- to_uint (r_f1 r);
  do (s, p) <- servo_new A pin (fofz A 100) f0 f1 (r_a0 r) (r_a1 r) (fofz A 0);
  Ok (s, (if flt A (r_a1 r) (r_a0 r) then [CError i; CError i] else []) ++
         (if s_virtual s then [] else [CPulse i p; CPulse i 1500])).
Fixpoint setup_servos (i : Z) (rs : list row) : res (list (servo A) * list cev) :=
  match rs with
  | [] => Ok ([], [])
  | r :: q => do (s, ev) <- setup_servo i r; do (ss, evs) <- setup_servos (i + 1) q; Ok (s :: ss, ev ++ evs)
  end.
Definition calib_setup (g : list cfg) : res (calib * list cev) :=
  let t := map row_of g in
  do (ss, ev) <- setup_servos 0 t;
  Ok (mkCalib t ss 0 MOVE false, CHelp :: ev).

(** config/servodata.h:9-16 with config/servoports.h:4-9 *)
Definition servodata : list cfg :=
  let g p f0 f1 a0 a1 := mkCfg (fofz A p) (fofz A f0) (fofz A f1) (deg A a0) (deg A a1) in
  [ g 3 852 2091 (-90) 90; g 4 710 1780 (-70) 90; g 5 2099 571 (-89) 134;
    g 6 650 2370 (-90) 75; g 9 2370 860 (-127) 14; g 10 2290 570 (-75) 86 ].

End Calib.

Arguments r_pin {A}. Arguments r_cur {A}. Arguments r_f0 {A}. Arguments r_f1 {A}. Arguments r_a0 {A}. Arguments r_a1 {A}.
Arguments c_tab {A}. Arguments c_servos {A}. Arguments c_sel {A}. Arguments c_set {A}. Arguments c_test {A}.
Arguments CPulse {A}. Arguments CMoving {A}. Arguments CHelp {A}. Arguments CError {A}. Arguments CConfig {A}. Arguments CStatus {A}.
Arguments g_pin {A}. Arguments g_f0 {A}. Arguments g_f1 {A}. Arguments g_a0 {A}. Arguments g_a1 {A}.
