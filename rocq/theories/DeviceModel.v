(** * DeviceModel: what the calls made by the MRIL parser do to the other components
    (motion controller, additional axes, inputs/outputs, wait, reply texts). *)
From Verif Require Import Base Arith ServoModel RobotModel IoModel WaitModel MrilModel.

(** ** Texts *)
(** String(int), String(unsigned): decimal digits *)
Fixpoint uint_chars (u : Decimal.uint) : list Z :=
  match u with
  | Decimal.Nil => []
  | Decimal.D0 r => 48 :: uint_chars r | Decimal.D1 r => 49 :: uint_chars r
  | Decimal.D2 r => 50 :: uint_chars r | Decimal.D3 r => 51 :: uint_chars r
  | Decimal.D4 r => 52 :: uint_chars r | Decimal.D5 r => 53 :: uint_chars r
  | Decimal.D6 r => 54 :: uint_chars r | Decimal.D7 r => 55 :: uint_chars r
  | Decimal.D8 r => 56 :: uint_chars r | Decimal.D9 r => 57 :: uint_chars r
  end.
Definition int_chars (n : Z) : list Z :=
  match Z.to_int n with
  | Decimal.Pos u => uint_chars u
  | Decimal.Neg u => 45 :: uint_chars u
  end.
(** "comment-breaking" *)
Definition comment_breaking : list Z := [99; 111; 109; 109; 101; 110; 116; 45; 98; 114; 101; 97; 107; 105; 110; 103].

Section Device.
Context (A : arith).
Context (fwd : V6 (F A) -> V6 (F A)) (inv : V6 (F A) -> option (V6 (F A))).
Context (l2p p2l : V6 (F A) -> V6 (F A)) (limits : V6 (F A * F A)).
Context (pinMap : list Z).
Context (print : D A -> list Z).   (* String(double) and Serial.print(double): two decimals *)

(** everything the MRIL parser acts on, and its own members *)
Record device := mkDev {
  d_robot : robot A;           (* RobotController *)
  d_axes : list (servo A);     (* AdditionalAxisController::servos[2] *)
  d_io : iost;                 (* IOLogic *)
  d_wait : waitst;             (* WaitController *)
  d_mril : mril }.             (* commandNumber, done *)

Definition with_robot (d : device) (r : robot A) : device := mkDev r (d_axes d) (d_io d) (d_wait d) (d_mril d).
Definition with_axes (d : device) (x : list (servo A)) : device := mkDev (d_robot d) x (d_io d) (d_wait d) (d_mril d).
Definition with_io (d : device) (x : iost) : device := mkDev (d_robot d) (d_axes d) x (d_wait d) (d_mril d).
Definition with_wait (d : device) (x : waitst) : device := mkDev (d_robot d) (d_axes d) (d_io d) x (d_mril d).
Definition with_mril (d : device) (x : mril) : device := mkDev (d_robot d) (d_axes d) (d_io d) (d_wait d) x.

(** what the outside sees *)
Inductive dev_ev :=
| DSend (text : list Z)          (* MRCPR::sendMessage(text) *)
| DPrint (text : list Z)         (* Serial.println(text) *)
| DPin (p : pinact)              (* pin operation *)
| DServo (i : Z) (v a : F A)     (* motion controller: speed and target of servo i *)
| DAxis (i : Z) (a : F A)        (* target of additional axis i *)
| DAxisVel (v : F A).            (* speed of both additional axes *)

(** the double read by atof *)
Definition num_double (n : numv) : D A :=
  match n with
  | NDec s m e => ddec A s m e
  | NHex s m e => dhex A s m e
  | NInf s => dinf A s
  | NNan => dnan A
  end.
(** "float value = atof(..)" (MRILParser.cpp:130, 194, 228), then the argument passed to a
    float parameter: value (202), value * DEG_TO_RAD (208, 239), value / 180.0 * PI (237) *)
Definition arg_float (a : arg) : F A :=
  let value n := f2d A (d2f A (num_double n)) in
  match a with
  | Plain n => d2f A (num_double n)
  | DegToRad n => d2f A (dmul A (value n) (DEG_TO_RAD A))
  | Over180Pi n => d2f A (dmul A (ddiv A (value n) (ddec A false 180 0)) (dpi A))
  end.

(** one item of the reply, MRILParser.cpp:98, 125, 178, 184, 221-227 *)
Definition method_code (m : rmethod) : Z := match m with P2P => 0 | LINEAR => 1 | CIRCULAR => 2 end.
Definition read_item (d : device) (r : ritem) : res (list Z) :=
  let deg (x : F A) := print (dmul A (f2d A x) (RAD_TO_DEG A)) in
  match r with
  | RMethod => Ok (77 :: int_chars (method_code (r_method (d_robot d))))
  | RVelocity => Ok (86 :: print (f2d A (r_maxvel (d_robot d))))
  | RPose sym i =>
      let x := get6 (current_pose A fwd p2l (d_robot d)) i (fofz A 0) in
      Ok (sym :: (if i <? 3 then print (f2d A x) else deg x))
  | RAngle i => Ok (82 :: int_chars i ++ deg (get6 (current_logical A p2l (d_robot d)) i (fofz A 0)))
  | RAxis opt i => do s <- zget (d_axes d) i; Ok (82 :: int_chars opt ++ deg (s_cur s))
  end.

(** one call made by parse; [buf] is responseBuffer, [now] is millis() *)
Definition exec_act (now : Z) (d : device) (buf : list Z) (a : act) : res (device * list Z * list dev_ev) :=
  match a with
  | AStart => Ok (with_robot d (with_trans A (d_robot d) true), buf, [])
  | AEnd => Ok (with_robot d (with_trans A (d_robot d) false), buf, [])
  | AMethod m => Ok (with_robot d (with_method A (d_robot d) (if m =? 0 then P2P else LINEAR)), buf, [])
  | AVelocity v => Ok (with_robot d (with_maxvel A (d_robot d) (d2f A (num_double v))), buf, [])
  | AAxisVelocity v =>      (* AdditionalAxisController.h:22-26 *)
      let x := d2f A (num_double v) in
      Ok (with_axes d (map (fun s => servo_set_vel A s x) (d_axes d)), buf, [DAxisVel x])
  | APose i x => Ok (with_robot d (set_pose A (d_robot d) i (arg_float x)), buf, [])
  | AAngle i x => do r <- set_angle A (d_robot d) i (arg_float x); Ok (with_robot d r, buf, [])
  | AAxis i x =>            (* AdditionalAxisController.h:14-16 *)
      do s <- zget (d_axes d) i;
      do l <- zset (d_axes d) i (servo_set_target A s (arg_float x));
      Ok (with_axes d l, buf, [DAxis i (arg_float x)])
  | ACondition pin st =>
      do (ps, io) <- io_addCondition pinMap (d_io d) pin st; Ok (with_io d io, buf, map DPin ps)
  | AOutput pin st => do ps <- io_setOutput pinMap pin st; Ok (d, buf, map DPin ps)
  | AWait ms => Ok (with_wait d (wait_waitMs now ms), buf, [])
  | AAck0 n => Ok (d, buf, [DSend (78 :: 48 :: int_chars n)])
  | ARead r => do t <- read_item d r; Ok (d, buf ++ t, [])
  | AReply None => Ok (d, buf, [DSend buf])
  | AReply (Some n) => Ok (d, buf, [DSend (78 :: 49 :: int_chars n ++ 32 :: buf)])
  | ABreakPrint => Ok (d, buf, [DPrint comment_breaking])
  end.
Fixpoint exec_acts (now : Z) (d : device) (buf : list Z) (l : list act) : res (device * list Z * list dev_ev) :=
  match l with
  | [] => Ok (d, buf, [])
  | a :: r =>
      do (d1, buf1, e1) <- exec_act now d buf a;
      do (d2, buf2, e2) <- exec_acts now d1 buf1 r;
      Ok (d2, buf2, e1 ++ e2)
  end.

(** MRILParser::parse, MRILParser.cpp:24-325.  Simplification: millis() has one value during
    the call. *)
Definition dev_parse (now : Z) (d : device) (text : list Z) : res (device * list dev_ev) :=
  do (acts, num) <- mril_parse text;
  do (d1, _, evs) <- exec_acts now d [] acts;
  Ok (with_mril d1 (mril_assign (d_mril d1) num), evs).

(** MRILParser::process, MRILParser.cpp:327-339; && stops at the first false.  [lv] are the
    input levels seen by IOLogic::isDone, which forgets its conditions when they are met. *)
Definition dev_poll (now : Z) (lv : nat -> Z -> bool) (d : device) : device * list dev_ev :=
  let (iod, io) := io_isDone lv (d_io d) in
  let alldone := iod && negb (is_moving (d_robot d)) && wait_isDone (d_wait d) now in
  let (m, n) := mril_poll (d_mril d) alldone in
  (with_mril (with_io d io) m, match n with Some k => [DSend (78 :: 49 :: int_chars k)] | None => [] end).

(** RobotController::process, as seen from outside *)
Definition robot_ev (e : rev A) : list dev_ev :=
  match e with
  | EvPrint x => [DPrint (print (f2d A x))]
  | EvInverse _ => []
  | EvServo i v a => [DServo i v a]
  end.
Definition dev_robot (d : device) : res (device * list dev_ev) :=
  do (r, evs) <- r_process A fwd inv l2p p2l limits (d_robot d);
  Ok (with_robot d r, flat_map robot_ev evs).

(** timer interrupt, main.cpp:175-188: all eight servos *)
Fixpoint tick_axes (l : list (servo A)) (dt : Z) : res (list (servo A)) :=
  match l with
  | [] => Ok []
  | s :: r => do (s1, _) <- servo_process A s dt; do r1 <- tick_axes r dt; Ok (s1 :: r1)
  end.
Definition dev_tick (d : device) : res device :=
  do r <- r_tick A (d_robot d) 20;
  do l <- tick_axes (d_axes d) 20;
  Ok (with_axes (with_robot d r) l).

(** setup(), main.cpp:72-165 *)
Definition dev_boot (servos : V6 (servo A)) (axs : list (servo A)) : device :=
  mkDev (with_maxvel A (with_method A (robot_new A fwd p2l servos) LINEAR) (fofz A 10)) axs io_init wait_init mril_init.

End Device.
Arguments d_robot {A}. Arguments d_axes {A}. Arguments d_io {A}. Arguments d_wait {A}. Arguments d_mril {A}.
Arguments DSend {A}. Arguments DPrint {A}. Arguments DPin {A}. Arguments DServo {A}. Arguments DAxis {A}. Arguments DAxisVel {A}.
