(** * SystemModel: src/main.cpp - the main loop, the timer interrupt and the serial port,
    connecting all components.

    The main loop is cut into phases; arriving bytes and timer interrupts can come between any
    two phases.  Simplifications: one call of a component is atomic (the race inside
    VarSpeedServo is modelled in ServoModel); renderDisplay (main.cpp:204-207, modelled in DisplayModel) and the
    out-of-range warnings (main.cpp:219-227, suppressed by LOG_LEVEL 1) change no state and are
    left out; the receive buffer of the serial port is unbounded. *)
From Verif Require Import Base Arith ServoModel RobotModel IoModel WaitModel EepromModel MrilModel McpModel DeviceModel.

Section System.
Context (A : arith).
Context (fwd : V6 (F A) -> V6 (F A)) (inv : V6 (F A) -> option (V6 (F A))).
Context (l2p p2l : V6 (F A) -> V6 (F A)) (limits : V6 (F A * F A)).
Context (pinMap : list Z) (print : D A -> list Z) (sgn : bool).

(** where the main loop is; main.cpp:191-216 *)
Inductive phase :=
| PRobot1            (* RoboCon->process(), line 200 *)
| PRobot2            (* RoboCon->process(), line 211 *)
| PSerial (k : Z)    (* Serialio.process(), line 212; k bytes read in this call *)
| PMril              (* Mrilparser->process(), line 213 *)
| PMcp.              (* Mrcpparser->process(), line 214 *)

Record sys := mkSys {
  y_dev : device A;
  y_mcp : cstate;        (* MRCPParser, RingBuffer, EEPromStorage *)
  y_rx : list Z;         (* bytes received, not yet read *)
  y_phase : phase }.

(** what happens next *)
Inductive stim :=
| SArrive (c : Z)                          (* the serial port receives a byte *)
| STick                                    (* timer interrupt *)
| SRun (now : Z) (lv : nat -> Z -> bool).  (* the main loop goes on; millis() and input levels *)

(** trace *)
Inductive sys_ev :=
| YLoop                                (* a new iteration of loop() *)
| YMcp (e : cev) (acts : list mact)    (* parseChar or process of the protocol parser *)
| YExec (text : list Z)                (* MRILParser::parse(text) *)
| YPoll (done : bool)                  (* MRILParser::process, the new value of done *)
| YDev (e : dev_ev A).                 (* seen from outside *)

(** SerialIO.h:9 *)
Definition READ_BYTES : Z := 30.

(** the calls of the protocol parser: sendMessage("B" + n) and MRILParser::parse *)
Definition sys_act (now : Z) (d : device A) (a : mact) : res (device A * list sys_ev) :=
  match a with
  | MSendFree n => Ok (d, [YDev (DSend (66 :: int_chars n))])     (* MRCPParser.cpp:197-199 *)
  | MParse t => do (d1, e) <- dev_parse A fwd p2l pinMap print now d t; Ok (d1, YExec t :: map YDev e)
  end.
Fixpoint sys_acts (now : Z) (d : device A) (l : list mact) : res (device A * list sys_ev) :=
  match l with
  | [] => Ok (d, [])
  | a :: r => do (d1, e1) <- sys_act now d a; do (d2, e2) <- sys_acts now d1 r; Ok (d2, e1 ++ e2)
  end.

(** one step of the protocol parser *)
Definition sys_mcp (now : Z) (s : sys) (e : cev) (rx : list Z) (p : phase) : res (sys * list sys_ev) :=
  do (m, acts) <- c_step sgn (y_mcp s) e;
  do (d, evs) <- sys_acts now (y_dev s) acts;
  Ok (mkSys d m rx p, YMcp e acts :: evs).

(** the main loop goes on with its next phase *)
Definition sys_main (now : Z) (lv : nat -> Z -> bool) (s : sys) : res (sys * list sys_ev) :=
  match y_phase s with
  | PRobot1 =>
      do (d, e) <- dev_robot A fwd inv l2p p2l limits print (y_dev s);
      Ok (mkSys d (y_mcp s) (y_rx s) PRobot2, YLoop :: map YDev e)
  | PRobot2 =>
      do (d, e) <- dev_robot A fwd inv l2p p2l limits print (y_dev s);
      Ok (mkSys d (y_mcp s) (y_rx s) (PSerial 0), map YDev e)
  | PSerial k =>     (* SerialIO.h:21-30 *)
      match y_rx s with
      | c :: rx => if k <? READ_BYTES then sys_mcp now s (CChar c) rx (PSerial (k + 1))
                   else Ok (mkSys (y_dev s) (y_mcp s) (y_rx s) PMril, [])
      | [] => Ok (mkSys (y_dev s) (y_mcp s) (y_rx s) PMril, [])
      end
  | PMril =>
      let (d, e) := dev_poll A now lv (y_dev s) in
      Ok (mkSys d (y_mcp s) (y_rx s) PMcp, YPoll (mdone (d_mril d)) :: map YDev e)
  | PMcp => sys_mcp now s (CPoll (mdone (d_mril (y_dev s)))) (y_rx s) PRobot1
  end.

Definition sys_step (s : sys) (x : stim) : res (sys * list sys_ev) :=
  match x with
  | SArrive c => Ok (mkSys (y_dev s) (y_mcp s) (y_rx s ++ [c]) (y_phase s), [])
  | STick => do d <- dev_tick A (y_dev s); Ok (mkSys d (y_mcp s) (y_rx s) (y_phase s), [])
  | SRun now lv => sys_main now lv s
  end.
Fixpoint sys_run (s : sys) (l : list stim) : res (sys * list sys_ev) :=
  match l with
  | [] => Ok (s, [])
  | x :: r => do (s1, e1) <- sys_step s x; do (s2, e2) <- sys_run s1 r; Ok (s2, e1 ++ e2)
  end.

(** setup(), main.cpp:72-165; [junk]: contents of uninitialised memory, [mem]: the EEPROM *)
Definition sys_boot (servos : V6 (servo A)) (axs : list (servo A)) (junk mem : list Z) : res sys :=
  do m <- c_boot junk mem;
  Ok (mkSys (dev_boot A fwd p2l servos axs) m [] PRobot1).

(** bytes written to the serial port: MRCPR.h:24-28 and SerialIO.h:44-55 for messages,
    Serial.println for the rest *)
Definition out_bytes (e : sys_ev) : list Z :=
  match e with
  | YDev (DSend t) => 58 :: t ++ [13; 10]
  | YDev (DPrint t) => t ++ [13; 10]
  | _ => []
  end.
End System.
Arguments y_dev {A}. Arguments y_mcp {A}. Arguments y_rx {A}. Arguments y_phase {A}.
Arguments YLoop {A}. Arguments YMcp {A}. Arguments YExec {A}. Arguments YPoll {A}. Arguments YDev {A}.
Arguments mkSys {A}. Arguments out_bytes {A}.
