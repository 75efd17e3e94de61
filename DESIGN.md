# Formal model of glumb/mrc in Rocq/Coq 8.16.1

## Approach

The firmware is modelled function by function as total, computable Gallina
functions (`rocq/theories/*Model.v`), with **undefined behaviour as an explicit
outcome** (`Ub reason`: out-of-bounds read or write, uninitialised data, float-to-int
conversion out of range, endless scan), never assumed away.  Each definition cites the
file and lines it models.  Specifications live in separate small files (`*Spec.v`) that do
not mention the model's helpers; proofs live in the other files; the property theorems
are in `Prop*.v`, each followed by `Print Assumptions` and by an `Example` showing a
concrete, non-trivial case that meets its hypotheses.

A property that is false of the code is kept in the list with its full English statement;
`MANIFEST.json` then says `partial`, with `_refuted` theorems (that the code violates it,
where possible for a whole class of states and not just one witness, together with a
reachability example) and `_partial` theorems (the exact part that is true).

Layers (bottom up):

| layer | source | model |
|---|---|---|
| bytes, 32-bit wrap, UB outcome | C++ semantics | `Base.v` |
| RingBuffer | src/RingBuffer.cpp | `RingModel.v` (bytes + ring indices, `mod 2^32`) |
| EEPromStorage | src/EEPromStorage.cpp | `EepromModel.v` (2048 byte array, list of byte writes => crash points) |
| WaitController, IOLogic | src/WaitController.h, src/IOLogic.cpp | `WaitModel.v`, `IoModel.v` |
| MRCP framing + dispatch | src/MRCPParser.cpp | `McpModel.v` |
| MRIL text -> API calls | src/MRILParser.cpp | `MrilModel.v` (emits the list of API calls; atoi/atof on text) |
| float arithmetic | C++ float/double | `Arith.v`: record of operations; instances `RA` (exact reals), `NRA` (reals with NaN), `IEEE L` (binary32/64 of Coq's SpecFloat, libm `L` abstract) |
| VarSpeedServo | src/VarSpeedServo.cpp | `ServoModel.v`, generic in the arithmetic; statements of setTargetRadAngle split for the interrupt race |
| RobotController | src/RobotController.cpp | `RobotModel.v`, generic in arithmetic, kinematics and coupling |
| Kinematic | src/Kinematic.cpp | `KinModel.v`, generic in arithmetic |
| configurations | config/mp-robot-kit.h, mp-robot-d.h, servodata.h | `ConfigModel.v`; the servo table and limits of mp-robot-d in `PropArmD.v` |
| machine driven by MRIL: replies, acknowledgements, additional axes | src/MRILParser.cpp, AdditionalAxisController.h, MRCPR.h | `DeviceModel.v` |
| main loop, timer, serial port | src/main.cpp, SerialIO.h | `SystemModel.v`: arriving bytes, timer ticks and main-loop steps in any order, clock and input levels arbitrary |
| serial port with a bounded receive buffer | SerialIO.h, Arduino core | `UartModel.v` |
| calibration program | examples/CalibrateServos.h, config/servodata.h, servoports.h | `CalibModel.v`: `setup` and one call of `loop` per byte received, generic in the arithmetic, with the servos of `ServoModel` |

## Per property: what is modelled, how it is proved

* **C01** RingBuffer is a bounded byte FIFO (proved). `RingModel`: array, capacity, position, length, every index modulo 2^32 and bounds-checked; refinement to a list queue, one simulation lemma per operation, induction over the history. Refinement of the ring to a list queue for every history; caller obligations in RingSpec.call_ok.
* **C02** putBytes is all-or-nothing and predictable from the reported free space (proved). `RingModel`: array, capacity, position, length, every index modulo 2^32 and bounds-checked; refinement to a list queue, one simulation lemma per operation, induction over the history. For every reachable buffer.
* **C03** Queued messages come out unmodified, in order, exactly once (proved). `RingModel`: array, capacity, position, length, every index modulo 2^32 and bounds-checked; refinement to a list queue, one simulation lemma per operation, induction over the history. For every interleaving of putBytes and getMessage.
* **C04** putBytesInFront makes its message the next one returned (partial). `RingModel`; witness and the exact behaviour. False of the code: the last byte is lost and an empty message reads out of bounds; the exact behaviour is proved.
* **C05** EEPROM message store is a faithful append log (proved). `EepromModel`: memory as a byte list, predicate `encodes` for a well-formed log; append is a list of byte writes, a crash is a prefix of it. Every history of appends after clear (exact-fill case excluded, see C06).
* **C06** appendMessage either appends or leaves the EEPROM untouched, and never writes outside it (partial). `EepromModel`: memory as a byte list, predicate `encodes` for a well-formed log; append is a list of byte writes, a crash is a prefix of it. Frame property proved outside the exact-fill case; in that case the code always writes at address 2048. getByte reads back every byte of every stored message.
* **C07** Power loss during appendMessage never damages stored messages (proved). `EepromModel`: memory as a byte list, predicate `encodes` for a well-formed log; append is a list of byte writes, a crash is a prefix of it. Crash point = any prefix of the byte writes.
* **C08** EEPROM replay cycles through every stored message (partial). `EepromModel`: memory as a byte list, predicate `encodes` for a well-formed log; append is a list of byte writes, a crash is a prefix of it. False of the code: message 0 is skipped; the exact cycle of messages 1..n-1 is proved, also for the whole controller on every schedule.
* **C09** Scanning the EEPROM terminates and stays inside it (partial). `EepromModel`: memory as a byte list, predicate `encodes` for a well-formed log; append is a list of byte writes, a crash is a prefix of it. Proved for EEPROMs holding a log; a factory-fresh EEPROM is read out of bounds.
* **C10** A D<ms> wait lasts at least ms milliseconds and then ends (proved). `WaitModel`: 32-bit clock; arithmetic modulo 2^32. 
* **C11** Waiting works across the 49.7-day millis() wrap (partial). `WaitModel`: 32-bit clock; arithmetic modulo 2^32. False of the code; true between two wraps, however many lie before; three families of counterexamples, each proved for every instance.
* **C12** Input conditions: done exactly when all hold at once, then forgotten (proved). `IoModel`: pending list, pin table and pin environment; per-call theorems and induction over histories. 
* **C13** setOutput drives exactly the mapped pin to the requested level (proved). `IoModel`: pending list, pin table and pin environment; per-call theorems and induction over histories. 
* **C14** Condition and pin tables are never accessed out of bounds (partial). `IoModel`: pending list, pin table and pin environment; per-call theorems and induction over histories. Safe exactly under the host discipline; the code has no bounds checks.
* **C15** Framing: each carriage return delivers exactly the cleaned frame before it (proved). `McpModel`: one-character step function with the frame buffer; refinement to a stream splitter, a queue and a log, by induction over the stream. Per byte and per frame; the quirk with ':' inside a comment is C16.
* **C16** Comments never change what is executed (partial). `McpModel`: one-character step function with the frame buffer; refinement to a stream splitter, a queue and a log, by induction over the stream. True for comments without ':'; for every comment with ':' the code drops the command.
* **C17** The receive buffer is never overrun, whatever arrives on the wire (partial). `McpModel`: one-character step function with the frame buffer; refinement to a stream splitter, a queue and a log, by induction over the stream. Exact characterisation of the streams that are received safely; all others overrun the buffer.
* **C18** Lower case and upper case input are equivalent (proved). `McpModel`: one-character step function with the frame buffer; refinement to a stream splitter, a queue and a log, by induction over the stream. 
* **C19** Command dispatch: B, E, Q, W and default do what the protocol says and nothing else (proved). `McpModel`: one-character step function with the frame buffer; refinement to a stream splitter, a queue and a log, by induction over the stream. All cases, over every state that holds a queue and a log.
* **C20** MRIL text is split into commands and each is executed once, in order (proved). `MrilModel`: scanner with its 20-byte buffer, atoi/atof on text; induction over the text. Every sequence of commands / every text cut at capital letters.
* **C21** Numbers in commands reach the robot unchanged (proved). `MrilModel`: scanner with its 20-byte buffer, atoi/atof on text; induction over the text. The decimal number read is exact; its rounding to float is the C library's.
* **C22** No MRIL instruction can overrun the command buffer or index outside the device tables (partial). `MrilModel`: scanner with its 20-byte buffer, atoi/atof on text; induction over the text. False of the code; proved: the exact condition on text and machine state under which parse ends without fault, and the fault of each violation.
* **C23** Characters MRIL does not know are ignored (partial). `MrilModel`: scanner with its 20-byte buffer, atoi/atof on text; induction over the text. True only when the unknown character is followed by a character inside the command; the two other positions lose or glue commands, for every command.
* **C24** Read-only instructions change nothing (proved). `DeviceModel`: all components a MRIL instruction reaches; induction over commands, polls and ticks. Whole machine state is the same record before and after; the reply is given explicitly (number formatting abstract).
* **C25** A numbered write command is acknowledged exactly once (proved). `DeviceModel`: all components a MRIL instruction reaches; induction over commands, polls and ticks. For every interleaving of motion-controller steps, timer ticks and polls after the instruction.
* **C26** Queue mode: instructions are executed strictly one after the other, in arrival order (proved). `SystemModel`: arriving bytes, ticks and main-loop steps as a list of stimuli; invariants by induction over every list. Whole system (main loop, timer, serial port), every schedule, as long as the queue is never full (instructions arriving at a full queue are dropped, C19).
* **C27** The queue never overruns the instruction buffer (proved). `McpModel`: one-character step function with the frame buffer; refinement to a stream splitter, a queue and a log, by induction over the stream. Over any number of power cycles; refinement of the whole protocol parser to a queue + log specification.
* **C28** A servo moves monotonically to its target, never overshoots, and stays there (proved). `ServoModel` in exact arithmetic, closed form of the position by induction over ticks; in IEEE arithmetic by error bounds (`FloatBridge` relates Coq's SpecFloat operations to Flocq's rounding, `ServoFloat`, `PropFloat`, `PropFloatSpeed`); statement-level interleaving for the race. Exact arithmetic: every tick sequence, closed form of the position.  Binary32/64 arithmetic with rounding: the same up to M/4000000 rad (M bounds the limits), exact arrival at latest one millionth of the duration late.
* **C29** Servo speed is always positive and never above the configured maximum (proved). `ServoModel` in exact arithmetic, closed form of the position by induction over ticks; in IEEE arithmetic by error bounds (`FloatBridge` relates Coq's SpecFloat operations to Flocq's rounding, `ServoFloat`, `PropFloat`, `PropFloatSpeed`); statement-level interleaving for the race. In exact arithmetic for every sequence of requests and in IEEE binary32 for every non-NaN request.
* **C30** Pulse width stays inside the calibration interval (proved). `ServoModel` in exact arithmetic, closed form of the position by induction over ticks; in IEEE arithmetic by error bounds (`FloatBridge` relates Coq's SpecFloat operations to Flocq's rounding, `ServoFloat`, `PropFloat`, `PropFloatSpeed`); statement-level interleaving for the race. Exact arithmetic; with rounding inside the calibration, one microsecond less at most, and monotone; the servos of the shipped kit meet the hypotheses.
* **C31** No tick moves a servo by more than speed * tick length (partial). `ServoModel` in exact arithmetic, closed form of the position by induction over ticks; in IEEE arithmetic by error bounds (`FloatBridge` relates Coq's SpecFloat operations to Flocq's rounding, `ServoFloat`, `PropFloat`, `PropFloatSpeed`); statement-level interleaving for the race. Proved for every history of ticks and uninterrupted moves; two families of counterexamples, for every servo. With the floats of the device: for the whole controller, whatever is received, every timer interrupt that does not fall into a call moves every joint by at most its maximum speed times 20 ms plus M/400000 rad, and nothing else moves it; for the kit 0.10473 rad. Missing: interrupts inside the calls (refuted).
* **C32** No servo is ever commanded outside its limits (proved). `RobotModel` for every arithmetic; induction over histories of API calls, process() and ticks; C32 also with rounding errors (`PropFloat`: any history without NaN; `PropFloatMoves`: joint moves never command NaN and never fault). All-or-none and never outside for any arithmetic (IEEE included); in exact arithmetic over every history of calls and ticks the servos stay inside; both also for the whole controller, whatever arrives on the serial port. With rounding (binary32/64) the servos stay within M/4000000 rad of the limits over every history in which no NaN is commanded, and joint moves with finite targets never command one; the NaN hole is C32_nan_refuted.
* **C33** Transactions are atomic (proved). `RobotModel` for every arithmetic; induction over histories of API calls, process() and ticks; C32 also with rounding errors (`PropFloat`: any history without NaN; `PropFloatMoves`: joint moves never command NaN and never fault). Any arithmetic, any calls inside the transaction.
* **C34** Mixing pose and joint targets in one transaction moves nothing (proved). `RobotModel` for every arithmetic; induction over histories of API calls, process() and ticks; C32 also with rounding errors (`PropFloat`: any history without NaN; `PropFloatMoves`: joint moves never command NaN and never fault). Any arithmetic.
* **C35** Point-to-point moves: all joints arrive together and no joint exceeds its own maximum speed (proved). `RobotModel` + `ServoModel` in exact arithmetic; joint moves (C35, C37) and straight moves (C36) also in IEEE arithmetic with error bounds (`PropFloatSync`, `PropFloatLinear`). Exact arithmetic: closed form of every joint's path, the duration is the least that the programmed speed and the servos' maximum speeds allow, and every legal target is executed. In the binary32/binary64 arithmetic of the device: every joint within d/100000 + 2 microradians of the ideal common path, the duration within 1/100000 of the ideal one; for the kit after every history of joint moves; a legal target with a joint at least 0.0002 rad away is executed.
* **C36** Linear moves visit equally spaced points of the straight segment and end at the target (proved). `RobotModel` + `ServoModel` in exact arithmetic; joint moves (C35, C37) and straight moves (C36) also in IEEE arithmetic with error bounds (`PropFloatSync`, `PropFloatLinear`). Exact arithmetic, every schedule of polls and ticks; in the arithmetic of the device every way point within a millionth of the coordinates, the steps at most 0.5 + 10^-6 units (coordinates up to 10^6, an acosf that gives a number in [0,4] or none).
* **C37** Every accepted move ends (proved). `RobotModel` + `ServoModel` in exact arithmetic; joint moves (C35, C37) and straight moves (C36) also in IEEE arithmetic with error bounds (`PropFloatSync`, `PropFloatLinear`). Exact arithmetic. For joint moves also in the IEEE arithmetic of the device (last part of C35_kit_ieee): 1/100000 after the duration of the move the next poll finds the arm at rest.
* **C38** After stop() the controller issues no commands (proved). `RobotModel` for every arithmetic; induction over histories of API calls, process() and ticks; C32 also with rounding errors (`PropFloat`: any history without NaN; `PropFloatMoves`: joint moves never command NaN and never fault). The controller is silent after stop(); the servos run on, for every commanded move.
* **C39** An unreachable pose never moves the robot towards a wrong place (partial). `RobotModel` + `ServoModel` in exact arithmetic; joint moves (C35, C37) and straight moves (C36) also in IEEE arithmetic with error bounds (`PropFloatSync`, `PropFloatLinear`). False of the code when an earlier joint target is still stored; true at rest and for every single waypoint.
* **C40** Logical and physical joint angles convert back and forth without loss (proved). `ConfigModel` in exact arithmetic with NaN; law of cosines. Both shipped configurations: the difference coupling of mp-robot-kit and the four-bar linkage of mp-robot-d, in exact arithmetic with NaN; the kit also in IEEE arithmetic (joint 2 to 2*10^-5 rad, the others bit for bit).
* **C41** Forward kinematics is a rigid chain (proved). `KinModel` in exact arithmetic (with NaN for inverse); the matrix products are compared with an independent rigid-body specification by trigonometric identities.  C41 and C43 also in IEEE arithmetic: `KinFloat` propagates an error bound through each operation of calculateCoordinates (`PropKinFloat`, `PropKinOrient`). Exactly in exact arithmetic, every geometry and joint vector; in IEEE arithmetic with a sin and cos accurate to 2^-22 every joint coordinate is within M/10000 of the exact chain, M the largest link component (0.0013 cm for the kit).
* **C42** Turning the base joint turns the whole robot (proved). `KinModel` in exact arithmetic (with NaN for inverse); the matrix products are compared with an independent rigid-body specification by trigonometric identities.  C41 and C43 also in IEEE arithmetic: `KinFloat` propagates an error bound through each operation of calculateCoordinates (`PropKinFloat`, `PropKinOrient`). Exact arithmetic; positions of all joints and the tool's orientation.
* **C43** Reported orientation is the tool's orientation (proved). `KinModel` in exact arithmetic (with NaN for inverse); the matrix products are compared with an independent rigid-body specification by trigonometric identities.  C41 and C43 also in IEEE arithmetic: `KinFloat` propagates an error bound through each operation of calculateCoordinates (`PropKinFloat`, `PropKinOrient`). Exactly in exact arithmetic, including gimbal lock; in IEEE arithmetic the matrix to 1/30000 always, the reported angles to 1/250 per component of the orientation when the tool axis is not within 8 degrees of gimbal lock (near it the two extracted angles are separately ill-conditioned; not covered).
* **C44** Inverse kinematics is correct: forward(inverse(p)) = p (partial). `KinModel` in exact arithmetic (with NaN for inverse); the matrix products are compared with an independent rigid-body specification by trigonometric identities.  C41 and C43 also in IEEE arithmetic: `KinFloat` propagates an error bound through each operation of calculateCoordinates (`PropKinFloat`, `PropKinOrient`). True for every geometry with a forearm along +x and a tool along -z (as in both shipped configurations). The documented constraints alone are not enough (the result is off by twice the tool length), and at the wrist singularity the rotation about the tool axis is ignored.
* **C45** inverse reports failure without touching its output (proved). `KinModel` in exact arithmetic (with NaN for inverse); the matrix products are compared with an independent rigid-body specification by trigonometric identities.  C41 and C43 also in IEEE arithmetic: `KinFloat` propagates an error bound through each operation of calculateCoordinates (`PropKinFloat`, `PropKinOrient`). The first in any arithmetic, the second in exact arithmetic with NaN, the third in IEEE arithmetic for every geometry and pose, NaN and infinities included, with any math library whose acos, atan2 and fmod stay in their ranges.
* **C46** Everything the controller sends is a well-formed frame (partial). `SystemModel`: arriving bytes, ticks and main-loop steps as a list of stimuli; invariants by induction over every list. False of the code: every P2P move writes a raw line.  Proved: a host that keeps the lines starting with ':' gets exactly the messages, whatever the logger writes in between; without the letter M the output is exactly the frames.
* **C47** Serial input is neither lost, duplicated nor reordered (proved). `SystemModel`: arriving bytes, ticks and main-loop steps as a list of stimuli; invariants by induction over every list. Every schedule, with a bound on the steps of the main loop until a byte is read; the 64-byte hardware buffer of the UART is outside the model (unbounded).
* **C48** A conforming host can never make the firmware misbehave (proved). `SystemModel`: arriving bytes, ticks and main-loop steps as a list of stimuli; invariants by induction over every list. Any arithmetic and kinematics, every schedule; the only other fault, float-to-int conversion of a too large number, is not a memory access.
* **C49** Acknowledgements arrive in order, one per queued numbered instruction (proved). `SystemModel`: arriving bytes, ticks and main-loop steps as a list of stimuli; invariants by induction over every list. Whole system, every schedule.
* **C50** The host cannot inject non-numbers (partial). `MrilModel`: scanner with its 20-byte buffer, atoi/atof on text; induction over the text. True for texts without '+' and ','; with them NaN and infinity can be injected on every coordinate.
* **C51** The last requested target wins (partial). `RobotModel` for every arithmetic; induction over histories of API calls, process() and ticks; C32 also with rounding errors (`PropFloat`: any history without NaN; `PropFloatMoves`: joint moves never command NaN and never fault). True whenever the controller issues commands; a target equal to the current position is dropped.
* **C52** Every pose the arm can take in front of it is accepted by inverse (proved). `KinModel` in exact arithmetic (with NaN for inverse); the matrix products are compared with an independent rigid-body specification by trigonometric identities.  C41 and C43 also in IEEE arithmetic: `KinFloat` propagates an error bound through each operation of calculateCoordinates (`PropKinFloat`, `PropKinOrient`). Exact arithmetic with NaN.
* **C53** The arm goes to the pose it was sent to (proved). `RobotModel`, `KinModel` and `ConfigModel` composed, exact arithmetic. Exact arithmetic; composition of the motion controller, the kinematics and the servos.
* **C54** Only instructions that were sent or stored are executed (proved). `SystemModel`: arriving bytes, ticks and main-loop steps as a list of stimuli; invariants by induction over every list. Whole system, every schedule, every host that keeps to the frame format.
* **C55** A host that counts bytes never loses an instruction (proved). `SystemModel`: arriving bytes, ticks and main-loop steps as a list of stimuli; invariants by induction over every list. Whole system, every schedule; the credit is counted by what was sent and what was started (each start is reported to the host by a B message).
* **C56** The queue does not stall (proved). `SystemModel`: arriving bytes, ticks and main-loop steps as a list of stimuli; invariants by induction over every list. Whole system, every schedule.
* **C57** Finished means arrived (partial). `SystemModel` in exact arithmetic: invariant relating servos, planned moves and the finished flag; safety invariant for every fault.  C57 and C58 also in IEEE arithmetic (`SystemArrive`, `PropFloatArrive`, `PropFloatAxes`).  C59 in IEEE arithmetic for point-to-point hosts: `SystemDefined` (any arithmetic: parts that keep an invariant and do not fail under it make a system that runs), instantiated in `PropFloatHost`; `KinBounded` bounds the angles of the inverse kinematic. False of the code with E frames; proved without them, on every schedule of less than 49.7 days (the servos' millisecond counters wrap), in exact arithmetic, and in IEEE arithmetic (10^-6 rad plus M/4000000) unless a NaN is commanded; for point-to-point hosts no NaN is commanded.
* **C58** Additional axes (partial). `SystemModel` in exact arithmetic: invariant relating servos, planned moves and the finished flag; safety invariant for every fault.  C57 and C58 also in IEEE arithmetic (`SystemArrive`, `PropFloatArrive`, `PropFloatAxes`).  C59 in IEEE arithmetic for point-to-point hosts: `SystemDefined` (any arithmetic: parts that keep an invariant and do not fail under it make a system that runs), instantiated in `PropFloatHost`; `KinBounded` bounds the angles of the inverse kinematic. False of the code: targets are not checked and arrival is not awaited.  Proved for hosts that command only targets inside the limits, in exact and in IEEE arithmetic.
* **C59** No undefined behaviour for a moderate host (proved). `SystemModel` in exact arithmetic: invariant relating servos, planned moves and the finished flag; safety invariant for every fault.  C57 and C58 also in IEEE arithmetic (`SystemArrive`, `PropFloatArrive`, `PropFloatAxes`).  C59 in IEEE arithmetic for point-to-point hosts: `SystemDefined` (any arithmetic: parts that keep an invariant and do not fail under it make a system that runs), instantiated in `PropFloatHost`; `KinBounded` bounds the angles of the inverse kinematic. Whole system, every schedule.  C59_no_fault in exact arithmetic (with floats C61, C62 are counterexamples to the same claim, both with linear moves); in IEEE arithmetic for hosts that move point to point only, with any servo table, and for the kit with its own kinematics.
* **C60** Immediate instructions and the running one (partial). `DeviceModel`, every arithmetic, every schedule of polls, ticks and controller steps after the instruction. True for immediate read instructions; false for every immediate write instruction.
* **C61** Any speed can be set (partial). `RobotModel` in IEEE arithmetic with an abstract math library, propagation of NaN; exact arithmetic for the true part. False of the code: with V0 every accepted LINEAR move that only turns the tool gives all servos the speed NaN, and the next tick is undefined, for every robot and kinematics (IEEE floats).  For positive speeds: C59 (exact arithmetic).
* **C62** Straight moves that keep the orientation (partial). `RobotModel` in IEEE arithmetic with an abstract math library, propagation of NaN; exact arithmetic for the true part. True in exact arithmetic; false with IEEE floats: with the tool turned down by 45 degrees planning is undefined, for every robot, kinematics, position and correct math library.
* **C63** An instruction sets what it names and nothing else (proved). `DeviceModel.exec_act` against a fold over the commands of an instruction; induction over commands, over the actions of a step and over the run of the whole controller.  The distance between stored and written number: `DecFloat` (decimal literals are correctly rounded) and the error bounds of `FloatBridge` (`PropFloatText`). Which value: every arithmetic; the specification (latest, written, method_given, pose_given, ...) is at the top of PropSettings.v.  How close the stored value is to the decimal number in the text: IEEE arithmetic.
* **C64** The kit carries out exactly the joint targets of its working range (proved). `ConfigModel.kit_*` under `RobotModel`, exact arithmetic; the working range is written with the numbers of the table, acceptance by `C35_legal_target_is_executed`, refusal by computing the rejected step.  In IEEE arithmetic from the digits written by the host (`PropFloatKit`): the conversion is monotone and exact on the configured integers. Acceptance and refusal, and the shafts' ranges, in exact arithmetic with the table's numbers written out in the specification; that no command names an angle outside its servo's range in every arithmetic, IEEE included.  C64_working_range_ieee: acceptance and refusal in the device's arithmetic for the decimal numbers the host writes, exact at the limits of each joint, with a margin of 0.0001 degrees where joints 1 and 2 are taken together (0.4 and 134.6 degrees, exactly 135 together, are refused: C64_kit_ieee_cases) and outside the range.
* **C65** The display shows the state, and drawing it is always defined (proved). `DisplayModel.render` over a sequence of views of `SystemModel` states; invariants of the runs (servo ranges, protocol state) give definedness, the picture is specified independently in PropDisplay. Exact arithmetic; and with the floats of the device (C65_picture_ieee, C65_kit_ieee for the shipped arm): defined, and every line, bar and box where the exact picture has it up to one pixel, if sin and cos are accurate to 2^-22 and no NaN has been commanded.  Each read of renderDisplay has its own state, seen at any moment of the schedule.  String(float,1) is a parameter; clipping is left to the display library.
* **C66** The limits hold whatever interrupts fall into process() (proved). `FineModel`: process() as a program whose accesses to the servos are separated by any interrupts; a Hoare logic over it (FineProofs) keeps the servo invariants at every access; without interrupts it equals `RobotModel`; the races by computation in IEEE arithmetic; `FineSystem` puts this process() into the main loop. For the motion controller and for the whole controller (C66_system_*: any bytes, any schedule).  Commands in every arithmetic; shafts, pulses and definedness in exact arithmetic, and in IEEE arithmetic to M/4000000 rad and 1 us unless a NaN is commanded.  Interrupts are placed between the accesses to the servos, the only data shared with the interrupt.
* **C67** Finished means arrived, whatever interrupts fall into process() (partial). `FineModel`: process() as a program whose accesses to the servos are separated by any interrupts; a Hoare logic over it (FineProofs) keeps the servo invariants at every access; without interrupts it equals `RobotModel`; the races by computation in IEEE arithmetic; `FineSystem` puts this process() into the main loop. False of the code: an interrupt between the first two statements of setTargetRadAngle throws a moving servo towards its old target; if it lands on the new one, process() reports the move finished before the servo is taken back.  True if an interrupt comes between the commands and the next call of process() (exact arithmetic).
* **C68** A reported position is one the robot had (partial). `FineModel`: process() as a program whose accesses to the servos are separated by any interrupts; a Hoare logic over it (FineProofs) keeps the servo invariants at every access; without interrupts it equals `RobotModel`; the races by computation in IEEE arithmetic; `FineSystem` puts this process() into the main loop. False of the code: the six joints are read one after the other with interrupts on, so an interrupt between two reads gives a position the robot never had.  Proved: each joint's angle was that joint's angle at some moment of the call (every arithmetic); in exact arithmetic it lies between the angles before and after the call.
* **C69** Teach-in: an answer can be sent back (proved). `DeviceModel` in IEEE arithmetic, composing C24 (what is answered) and C63 (what a text sets, and how close): error bounds through degrees, the printed decimals and back (`PropTeach`). IEEE arithmetic.  String(double) is a parameter with a stated accuracy (C69_two_places: rounding to two decimals has it with 1/200); quantities read are numbers, angles up to 100 rad, the rest up to 99999, always so for the kit's joints (C69_kit_joints).  A reading of infinity or NaN is not covered, nor the method CIRCULAR, which no command sets.
* **C70** The start screen shows the arm (partial). `StartModel`: `displayRobotGeometry`, in IEEE arithmetic with the conversions to int, int16 and unsigned int as the C++ standard has them (undefined out of range); a planar arm has height 0, so the scale is 64/width or infinite (`PropStart`). False of the code: for every arm in the x-z plane, and so for both shipped ones, all lines are drawn on row 32, one below the last row of the 128x32 screen; for a column (no reach sideways) the scale is 20/0 and the conversion to a pixel is undefined.  Proved: for every planar arm that reaches to the right the start is defined, and the lines are the arm to scale, on that row.  On the pixels (C70_screen_refuted, C70_screen_shipped): after setup exactly the word STARTING is lit, of the arm nothing.
* **C71** Drawing stays inside the frame, ends, and lights exactly the shapes (partial). `GfxModel`: the vendored Adafruit_GFX and Adafruit_SSD1306 as mrc uses them, down to bytes and masks of the frame buffer (font table in `GfxFont`, generated from glcdfont.c); `GfxProofs` gives each operation its set of pixels (`adds`), for lines Bresenham's error as an invariant; C71_pixels composes them over any sequence, C72 with the picture of C65. Nothing is ever accessed outside (no restriction).  Ending is false of the code: the loop counters are int16_t, so a line or a filled rectangle that reaches coordinate 32767 never ends (C71_hang_refuted: exactly these).  The pixels are proved for lines whose ends are less than 32768 apart in each direction, rectangles that do not reach that coordinate, and texts that fit in their line (a longer one wraps, C72).
* **C72** What the state is, the pixels show (partial). `GfxModel`: the vendored Adafruit_GFX and Adafruit_SSD1306 as mrc uses them, down to bytes and masks of the frame buffer (font table in `GfxFont`, generated from glcdfont.c); `GfxProofs` gives each operation its set of pixels (`adds`), for lines Bresenham's error as an invariant; C71_pixels composes them over any sequence, C72 with the picture of C65. Composition of C65, C71 and C73, in exact arithmetic and (last part of C65_picture_ieee) with the floats of the device.  Restricted to counters of stored instructions up to 999 and a speed printed in at most 15 characters; false beyond: a text of ten or more characters at column 72 goes on at the left border, over the arm (C72_long_text_refuted).
* **C73** The frame reaches the screen unchanged (proved). `GfxModel`: the vendored Adafruit_GFX and Adafruit_SSD1306 as mrc uses them, down to bytes and masks of the frame buffer (font table in `GfxFont`, generated from glcdfont.c); `GfxProofs` gives each operation its set of pixels (`adds`), for lines Bresenham's error as an invariant; C71_pixels composes them over any sequence, C72 with the picture of C65. The transmissions after the addressing commands; the I2C bus itself is not modelled.
* **C74** The calibration program never leaves its tables, and every key is defined (partial). `CalibModel`: `setup`/`loop` of `examples/CalibrateServos.h` on the servo model; `CalibProofs` reduces a key to its effect on one row and one servo (`row_step`), an invariant (table and servo objects agree) over all histories; moves under the facts about the arithmetic listed in `CalibMoves`, discharged for exact reals and for IEEE floats (`PropCalibMove`); counterexamples on the shipped table by computation in IEEE arithmetic. Nothing is accessed outside (no restriction, every arithmetic).  Defined is false of the code: with w and s the pulse can be driven below zero and recording it converts a negative float to unsigned int (C74_negative_refuted, on the shipped table).  Proved while the selected row is plausible (pulses 1..32000 us, 0 between the angles), in exact and IEEE arithmetic.
* **C75** What p prints is what the servos do (proved). `CalibModel`: `setup`/`loop` of `examples/CalibrateServos.h` on the servo model; `CalibProofs` reduces a key to its effect on one row and one servo (`row_step`), an invariant (table and servo objects agree) over all histories; moves under the facts about the arithmetic listed in `CalibMoves`, discharged for exact reals and for IEEE floats (`PropCalibMove`); counterexamples on the shipped table by computation in IEEE arithmetic. Every arithmetic; printing of numbers to decimals is C79.
* **C76** A key changes what it says and nothing else (proved). `CalibModel`: `setup`/`loop` of `examples/CalibrateServos.h` on the servo model; `CalibProofs` reduces a key to its effect on one row and one servo (`row_step`), an invariant (table and servo objects agree) over all histories; moves under the facts about the arithmetic listed in `CalibMoves`, discharged for exact reals and for IEEE floats (`PropCalibMove`); counterexamples on the shipped table by computation in IEEE arithmetic. C76_adjust in exact arithmetic (one degree up to 10^-20, the product of the constants DEG_TO_RAD and RAD_TO_DEG), the others in every arithmetic.
* **C77** Calibrating keeps the pulses within the program's limits (partial). `CalibModel`: `setup`/`loop` of `examples/CalibrateServos.h` on the servo model; `CalibProofs` reduces a key to its effect on one row and one servo (`row_step`), an invariant (table and servo objects agree) over all histories; moves under the facts about the arithmetic listed in `CalibMoves`, discharged for exact reals and for IEEE floats (`PropCalibMove`); counterexamples on the shipped table by computation in IEEE arithmetic. False of the code: the limits are applied to a variable that is not used, w drives the servo as far as one likes.  Proved: never more than 10 us outside the range in which the table stays, and on histories without w and s within the range of the table up to 1 us; the shipped table as a case.
* **C78** a, d and q move to the calibrated minimum, maximum and to zero (partial). `CalibModel`: `setup`/`loop` of `examples/CalibrateServos.h` on the servo model; `CalibProofs` reduces a key to its effect on one row and one servo (`row_step`), an invariant (table and servo objects agree) over all histories; moves under the facts about the arithmetic listed in `CalibMoves`, discharged for exact reals and for IEEE floats (`PropCalibMove`); counterexamples on the shipped table by computation in IEEE arithmetic. True in exact arithmetic.  With the floats of the device a is exact, d can stop one microsecond short (C78_maximum_refuted: sixth servo of the shipped table, maximum angle decreased by five degrees), q is within 1.1 us of the line.
* **C79** The printed decimals suffice (proved). `CalibModel`: `setup`/`loop` of `examples/CalibrateServos.h` on the servo model; `CalibProofs` reduces a key to its effect on one row and one servo (`row_step`), an invariant (table and servo objects agree) over all histories; moves under the facts about the arithmetic listed in `CalibMoves`, discharged for exact reals and for IEEE floats (`PropCalibMove`); counterexamples on the shipped table by computation in IEEE arithmetic. Exact arithmetic; any rounding within 0.005 degrees, any servo with at most 8000 us per radian (the shipped ones have less than 800).
* **C80** Angles are printed in degrees (partial). `CalibModel`: `setup`/`loop` of `examples/CalibrateServos.h` on the servo model; `CalibProofs` reduces a key to its effect on one row and one servo (`row_step`), an invariant (table and servo objects agree) over all histories; moves under the facts about the arithmetic listed in `CalibMoves`, discharged for exact reals and for IEEE floats (`PropCalibMove`); counterexamples on the shipped table by computation in IEEE arithmetic. The status line: proved, exact arithmetic.  The line 'moving to angle: x degree' prints radians (C80_moving_refuted).
* **C81** The arm with the four-bar linkage carries out exactly the joint targets of its working range (proved). `PropArmD`: the tables of mp-robot-d.h and servodata.h under `RobotModel`, exact arithmetic, as for C64; the linkage is specified by its geometry (`bar`: the rod fits and the crank is not folded over), and `C81_bar` shows that the code's two arc cosines are its only solution.  `Crank`: two servos commanded to arrive together stay in step at every tick, so the difference of their angles stays between its values at the commands. Exact arithmetic (C81_commands_in_range: every arithmetic).  C81_bar: the code's angle is the one solution of the linkage for joint angles between -30 and 60 degrees, wider than the limits.  C81_crank: over every history the crank stays where the linkage can be computed backwards, because the servos move in step (Crank.v), also when a move is interrupted by the next.
* **C82** No byte is lost in the serial port's receive buffer (proved). `UartModel`: `SystemModel` with a receive buffer of `cap` bytes that drops what finds it full; a leaky bucket (arrivals less 30 per iteration) bounds the fill level at every phase of the loop. Every arithmetic, faulting runs included (C82_as_if_unbounded).  C82_overrun: what is lost without the condition, e.g. while the display is drawn.  All theorems about the whole controller (C26, C46-C49, ...) carry over to a paced host through C82_as_if_unbounded.
* **C83** The log holds exactly the messages of the enabled levels (proved). `LoggerModel`: all of Logger.cpp except the UNIT_TEST branch, with the preprocessor's decisions as a configuration and the readings of micros() as arguments; induction over the history of calls, the interleaving with the controller's output reduces to C46; the stopwatch by an invariant on the two static counters modulo 2^32. Every configuration of the preprocessor.  The level of a warning is spelled WARING.  C83_unterminated: a char pointer without NUL is read beyond its memory exactly if the message is shown.
* **C84** Messages marked as test are always logged (partial). `LoggerModel`: all of Logger.cpp except the UNIT_TEST branch, with the preprocessor's decisions as a configuration and the readings of micros() as arguments; induction over the history of calls, the interleaving with the controller's output reduces to C46; the stopwatch by an invariant on the two static counters modulo 2^32. False of the code in every configuration: the wrappers are compiled out below the level, so the mark never changes anything and at level 0 nothing is printed.
* **C85** The stopwatch does not count its own printing (proved). `LoggerModel`: all of Logger.cpp except the UNIT_TEST branch, with the preprocessor's decisions as a configuration and the readings of micros() as arguments; induction over the history of calls, the interleaving with the controller's output reduces to C46; the stopwatch by an invariant on the two static counters modulo 2^32. The readings of micros() are arguments of the call; with DEBUG off nothing is printed.

Where a theorem speaks of `RA` its claim is about exact real arithmetic: rounding of
float/double is not in it.  Theorems generic in the arithmetic (`forall A : arith`) cover
IEEE floats with NaN and infinities as well.  In `RA` x/0 has a (meaningless) value; the
places where the code divides are: pulse mapping (angle range, positive by hypothesis),
number of steps (>= 1), speed (positive by hypothesis, C61 otherwise), planned time (tested
for 0 by the code), vector lengths (1, or `NRA`, where x/0 is NaN).

## Trusted base

* Coq 8.16.1 kernel (`coqc`, including its `vm_compute` conversion for the examples and some
  concrete evaluations).  No axioms of our own, no `Admitted`, no kernel check switched off, no
  functors or module types.
* What `Print Assumptions` lists for each theorem of `MANIFEST.json` (generated by
  `tools/axioms.py`):

  * **closed under the global context (no axioms)**: `C01_ring_is_bounded_fifo`, `C02_putBytes_all_or_nothing`, `C03_messages_in_order_exactly_once`, `C04_front_message_refuted`, `C04_front_empty_refuted`, `C04_front_message_partial`, `C05_store_is_append_log`, `C05_nothing_dropped_while_it_fits`, `C06_append_frame_partial`, `C06_write_in_range_refuted`, `C06_bytes_read_back`, `C07_power_loss_keeps_old_messages`, `C07_atomic_visibility_refuted`, `C07_scan_after_crash_refuted`, `C08_replay_all_refuted`, `C08_replay_cycle_partial`, `C08_replay_in_order_partial`, `C09_scans_stay_inside_partial`, `C09_arbitrary_contents_refuted`, `C10_wait_lasts_exactly`, `C10_initially_done`, `C11_wait_across_wrap_refuted`, `C11_wait_never_ends_refuted`, `C11_wait_revives_refuted`, `C11_between_wraps_partial`, `C12_done_iff_all_met`, `C12_add_condition`, `C13_setOutput_drives_only_its_pin`, `C14_disciplined_use_is_safe_partial`, `C14_no_bounds_checks_refuted`, `C15_each_call`, `C15_frames_are_delivered_clean`, `C16_comment_is_ignored_partial`, `C16_comment_with_colon_refuted`, `C17_receive_safe_iff_partial`, `C17_long_frame_refuted`, `C18_case_insensitive`, `C18_case_insensitive_component`, `C19_dispatch`, `C19_boot_state`, `C20_commands_in_order`, `C20_split_at_letters`, `C21_numbers_unchanged`, `C21_integers_unchanged`, `C22_safe_iff_partial`, `C22_commands_safe_iff_partial`, `C22_memory_unsafe_refuted`, `C22_faults_refuted`, `C23_unknown_inside_number_partial`, `C23_trailing_unknown_refuted`, `C23_glue_refuted`, `C23_exponent_refuted`, `C23_hexadecimal_refuted`, `C24_reads_change_nothing`, `C24_numbered_reads_change_nothing`, `C24_outside_transaction`, `C24_reads_only_read`, `C25_acknowledged_when_finished`, `C25_acknowledged_exactly_once`, `C26_started_in_arrival_order`, `C26_started_when_finished`, `C26_queue_is_fifo`, `C26_busy_poll_takes_nothing`, `C27_component_refines_spec`, `C27_never_overruns`, `C29_speed_in_range_ieee`, `C29_nan_is_stored`, `C30_pin`, `C32_all_or_none`, `C32_never_outside`, `C32_system_never_outside`, `C32_nan_refuted`, `C33_nothing_moves_inside`, `C33_commit_pose`, `C33_commit_angles`, `C34_mixed_targets_move_nothing`, `C35_target_physical`, `C38_quiet_after_stop`, `C38_servos_do_not_stop_refuted`, `C39_at_rest_partial`, `C39_waypoint_partial`, `C39_p2p_goes_elsewhere_refuted`, `C39_linear_drives_off_refuted`, `C40_other_joints`, `C45_output_only_on_success`, `C46_host_recovers_messages_partial`, `C46_frames_only_partial`, `C46_raw_line_refuted`, `C47_serial_input`, `C47_every_byte_is_read`, `C48_conforming_host_is_safe`, `C49_acknowledgements_alternate`, `C49_acknowledged_in_arrival_order`, `C50_values_are_numbers_partial`, `C50_non_number_refuted`, `C51_current_position_ignored_refuted`, `C54_only_received_instructions`, `C55_flow_control`, `C56_next_is_started`, `C57_emergency_refuted`, `C58_target_unchecked_refuted`, `C58_not_awaited_refuted`, `C60_reads_keep_acknowledgement_partial`, `C60_acknowledgement_lost_refuted`, `C60_acknowledgement_replaced_refuted`, `C61_zero_speed_refuted`, `C62_keep_orientation_refuted`, `C63_instruction`, `C63_controller`, `C64_commands_in_range`, `C66_commands_inside`, `C66_without_interrupts`, `C66_system_commands_inside`, `C66_system_without_interrupts`, `C67_race_refuted`, `C68_pose_partial`, `C68_angles_partial`, `C68_torn_read_refuted`, `C70_column_refuted`, `C71_never_outside`, `C71_ends_partial`, `C71_hang_refuted`, `C71_pixels`, `C72_long_text_refuted`, `C73_sent`, `C74_never_outside`, `C74_negative_refuted`, `C75_printed`, `C75_same_pulses`, `C76_only_selected`, `C76_config_kept`, `C76_selects`, `C78_recorded`, `C78_maximum_refuted`, `C81_commands_in_range`, `C82_as_if_unbounded`, `C82_nothing_lost`, `C82_thirty_per_iteration`, `C82_overrun`, `C83_log`, `C83_shipped`, `C83_unterminated`, `C83_host`, `C84_test_mark_refuted`, `C85_stopwatch`
  
  * **`ClassicalDedekindReals.sig_forall_dec`, `FunctionalExtensionality.functional_extensionality_dep`**: `C30_kit_calibrated_ieee`, `C69_two_places`
  
  * **`ClassicalDedekindReals.sig_forall_dec`, `ClassicalDedekindReals.sig_not_dec`, `FunctionalExtensionality.functional_extensionality_dep`**: `C36_spacing`
  
  * **`ClassicalDedekindReals.sig_forall_dec`, `ClassicalDedekindReals.sig_not_dec`, `Classical_Prop.classic`, `FunctionalExtensionality.functional_extensionality_dep`**: `C28_monotone_to_target`, `C28_stays_at_target`, `C28_motion_is_defined`, `C28_motion_ieee`, `C28_stays_ieee`, `C29_speed_in_range`, `C29_request_in_range_is_used`, `C30_pulse_in_calibration`, `C30_pulse_monotone`, `C30_pulse_ieee`, `C30_pulse_monotone_ieee`, `C30_recalibrated`, `C31_tick_speed_limit_partial`, `C31_speed_change_during_move_refuted`, `C31_interrupt_race_refuted`, `C31_tick_speed_limit_ieee_partial`, `C31_system_speed_limit_ieee_partial`, `C31_kit_ieee_partial`, `C32_servos_stay_inside`, `C32_system_servos_inside`, `C32_servo_stays_inside_ieee`, `C32_system_servos_inside_ieee`, `C32_kit_ieee`, `C32_joint_moves_ieee`, `C32_kit_joint_moves_ieee`, `C35_synchronised`, `C35_legal_target_is_executed`, `C35_synchronised_ieee`, `C35_kit_ieee`, `C35_legal_target_is_executed_ieee`, `C36_straight_line`, `C36_possible_move_is_started`, `C36_straight_line_ieee`, `C37_linear_move_ends`, `C37_p2p_move_ends`, `C37_servos_arrive`, `C38_runs_on_refuted`, `C40_kit`, `C40_kit_current_physical`, `C40_d_logical`, `C40_d_within_limits`, `C40_d_physical`, `C40_d_current_physical`, `C40_kit_no_nan`, `C40_kit_ieee`, `C40_kit_current_physical_ieee`, `C41_rigid_chain`, `C41_position_is_tip`, `C41_zero_pose`, `C41_ieee_joints`, `C41_ieee_position`, `C41_ieee_rigid_chain`, `C41_kit_position`, `C42_turning_the_base`, `C42_turning_the_base_pose`, `C43_reported_orientation`, `C43_orthonormal`, `C43_angle_ranges`, `C43_forward_total`, `C43_ieee_matrix`, `C43_ieee_orientation`, `C44_inverse_then_forward_partial`, `C44_forward_inverse_is_identity`, `C44_upward_tool_refuted`, `C44_singular_ignores_rotation`, `C44_singular_rotation_refuted`, `C45_ok_iff_reachable`, `C45_finite_or_out_of_range_ieee`, `C51_new_command_wins_partial`, `C52_every_front_pose_is_accepted`, `C53_plannable_iff_reachable`, `C53_step_reaches_waypoint`, `C53_p2p_reaches_pose`, `C53_p2p_legal_pose_is_executed`, `C53_kit`, `C57_finished_means_arrived_partial`, `C57_finished_means_arrived_ieee_partial`, `C57_point_to_point_ieee_partial`, `C57_kit_ieee_partial`, `C58_axes_stay_inside_partial`, `C58_axes_stay_inside_ieee_partial`, `C58_driven_out_refuted`, `C59_no_fault`, `C59_point_to_point_ieee`, `C59_kit_ieee`, `C62_keep_orientation_partial`, `C63_written_ieee`, `C63_radians_ieee`, `C63_axis_radians_ieee`, `C64_working_range`, `C64_shafts_stay_in_range`, `C64_pulses`, `C64_gripper`, `C64_working_range_ieee`, `C65_picture`, `C65_bars_inside`, `C65_column`, `C65_picture_ieee`, `C65_kit_ieee`, `C66_shafts_inside`, `C66_interrupts_harmless`, `C66_shafts_inside_ieee`, `C66_tick_defined_ieee`, `C66_kit_ieee`, `C66_system_shafts_inside`, `C66_kit_system_ieee`, `C67_finished_partial`, `C68_between_partial`, `C69_answer_is_an_instruction`, `C69_answer_restores`, `C69_kit_joints`, `C70_nothing_visible_refuted`, `C70_defined_partial`, `C70_shipped`, `C70_screen_refuted`, `C70_screen_shipped`, `C72_on_the_screen_partial`, `C74_defined_partial`, `C74_defined_ieee_partial`, `C76_adjust`, `C77_no_limit_refuted`, `C77_no_limit_ieee_refuted`, `C77_within_partial`, `C77_within_ieee_partial`, `C77_without_ws_partial`, `C77_without_ws_ieee_partial`, `C77_shipped_ieee_partial`, `C78_moves_exact`, `C78_moves_ieee_partial`, `C79_rounded_exact`, `C80_status`, `C80_after_move`, `C80_moving_refuted`, `C81_working_range`, `C81_bar`, `C81_crank`, `C81_shafts_stay_in_range`, `C81_pulses`

* The reading of the C++ source: every model definition cites its source lines and says
  where it simplifies.  The compiler, the hardware and the Arduino core are trusted to do
  what the source says (`int`/`unsigned long` 32 bits as on the Teensy target, `float` binary32,
  `double` binary64).

## Not modelled

* Where the firmware calls the logger and with which texts: C46 covers the log as arbitrary lines in the output.  `Logger.cpp/h` itself is `LoggerModel` (C83-C85), without the UNIT_TEST branch; the delays it adds are not connected to the schedule, which is arbitrary.
* Of the display library (vendored in lib/: Adafruit GFX, SSD1306) the parts mrc does not use: rotation other than 0, other colours than WHITE, other text sizes and fonts, circles, bitmaps, scrolling; `begin` and the addressing commands of `display`; the I2C bus.  `GfxModel` models the rest at 128x32 pixels, the library's default.  A pointer computed past the end of the frame buffer but not used (drawFastVLineInternal) is not counted as a fault.  The formatting of the speed on the display is a parameter.
* `handleSerialCommand.h` (legacy, not included by any compiled file), `examples/` other than `CalibrateServos.h` (Servos.h, RobotController.h, serial.cpp), `main_test.cpp`.
* In `CalibrateServos.h`: the text of the help, the formatting of the printed numbers, delays, the timing of `loop`.
* malloc failure; the EEPROM library itself (reads outside the 2048 bytes are `Ub`).
* The accuracy of libm (sin, cos, acos, atan2 are exact in `RA`, arbitrary in `IEEE L`; C41, C43 and C62 state
  the accuracy they need); the formatting of floats in replies (`print`, arbitrary).
* atoi overflow is `Ub` (undefined by the C standard; newlib wraps).
* The UART's receive buffer is an unbounded queue in `SystemModel`; `UartModel` (C82) bounds it.  Its transmit buffer and the time a transmission takes are not modelled.
* Interrupts inside component calls, except RobotController::process (`FineModel`, C66, C67: an
  interrupt between any two accesses to the servos) and the servo's own calls (C31, C32 for one servo);
  elsewhere a timer tick falls between two steps of the main loop.
* Wall-clock timing: the schedule of ticks and main-loop steps is arbitrary.
