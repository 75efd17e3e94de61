# Formal model of glumb/mrc in Rocq/Coq 8.16.1

## Approach

The firmware is modelled function by function as total, computable Gallina
functions (`rocq/theories/*Model.v`), with **undefined behaviour as an explicit
outcome** (`Ub reason`: out-of-bounds read or write, uninitialised data, float-to-int
conversion out of range, endless scan), never assumed away.  Each definition cites the
file and lines it models.  Specifications live in separate small files (`*Spec.v`) that do
not mention the model's helpers; proofs live in the other files; the property theorems
are in `Prop*.v`, each followed by `Print Assumptions` and by an `Example` showing a
concrete, non-trivial case that meets its hypotheses.

A property that is false of the code is kept in the list with its full English statement;
`MANIFEST.json` then says `partial`, with `_refuted` theorems (that the code violates it,
where possible for a whole class of states and not just one witness, together with a
reachability example) and `_partial` theorems (the exact part that is true).

Layers (bottom up):

| layer | source | model |
|---|---|---|
| bytes, 32-bit wrap, UB outcome | C++ semantics | `Base.v` |
| RingBuffer | src/RingBuffer.cpp | `RingModel.v` (bytes + ring indices, `mod 2^32`) |
| EEPromStorage | src/EEPromStorage.cpp | `EepromModel.v` (2048 byte array, list of byte writes => crash points) |
| WaitController, IOLogic | src/WaitController.h, src/IOLogic.cpp | `WaitModel.v`, `IoModel.v` |
| MRCP framing + dispatch | src/MRCPParser.cpp | `McpModel.v` |
| MRIL text -> API calls | src/MRILParser.cpp | `MrilModel.v` (emits the list of API calls; atoi/atof on text) |
| float arithmetic | C++ float/double | `Arith.v`: record of operations; instances `RA` (exact reals), `NRA` (reals with NaN), `IEEE L` (binary32/64 of Coq's SpecFloat, libm `L` abstract) |
| VarSpeedServo | src/VarSpeedServo.cpp | `ServoModel.v`, generic in the arithmetic; statements of setTargetRadAngle split for the interrupt race |
| RobotController | src/RobotController.cpp | `RobotModel.v`, generic in arithmetic, kinematics and coupling |
| Kinematic | src/Kinematic.cpp | `KinModel.v`, generic in arithmetic |
| configurations | config/mp-robot-kit.h, mp-robot-d.h, servodata.h | `ConfigModel.v`; the servo table and limits of mp-robot-d in `PropArmD.v` |
| machine driven by MRIL: replies, acknowledgements, additional axes | src/MRILParser.cpp, AdditionalAxisController.h, MRCPR.h | `DeviceModel.v` |
| main loop, timer, serial port | src/main.cpp, SerialIO.h | `SystemModel.v`: arriving bytes, timer ticks and main-loop steps in any order, clock and input levels arbitrary |
| serial port with a bounded receive buffer | SerialIO.h, Arduino core | `UartModel.v` |
| calibration program | examples/CalibrateServos.h, config/servodata.h, servoports.h | `CalibModel.v`: `setup` and one call of `loop` per byte received, generic in the arithmetic, with the servos of `ServoModel` |
