how = {
"C01 C02 C03": "`RingModel`: array, capacity, position, length, every index modulo 2^32 and bounds-checked; refinement to a list queue, one simulation lemma per operation, induction over the history.",
"C04": "`RingModel`; witness and the exact behaviour.",
"C05 C06 C07 C08 C09": "`EepromModel`: memory as a byte list, predicate `encodes` for a well-formed log; append is a list of byte writes, a crash is a prefix of it.",
"C10 C11": "`WaitModel`: 32-bit clock; arithmetic modulo 2^32.",
"C12 C13 C14": "`IoModel`: pending list, pin table and pin environment; per-call theorems and induction over histories.",
"C15 C16 C17 C18 C19 C27": "`McpModel`: one-character step function with the frame buffer; refinement to a stream splitter, a queue and a log, by induction over the stream.",
"C20 C21 C22 C23 C50": "`MrilModel`: scanner with its 20-byte buffer, atoi/atof on text; induction over the text.",
"C24 C25": "`DeviceModel`: all components a MRIL instruction reaches; induction over commands, polls and ticks.",
"C26 C46 C47 C48 C49 C54 C55 C56": "`SystemModel`: arriving bytes, ticks and main-loop steps as a list of stimuli; invariants by induction over every list.",
"C28 C29 C30 C31": "`ServoModel` in exact arithmetic, closed form of the position by induction over ticks; in IEEE arithmetic by error bounds (`FloatBridge` relates Coq's SpecFloat operations to Flocq's rounding, `ServoFloat`, `PropFloat`, `PropFloatSpeed`); statement-level interleaving for the race.",
"C32 C33 C34 C38 C51": "`RobotModel` for every arithmetic; induction over histories of API calls, process() and ticks; C32 also with rounding errors (`PropFloat`: any history without NaN; `PropFloatMoves`: joint moves never command NaN and never fault).",
"C35 C36 C37 C39": "`RobotModel` + `ServoModel` in exact arithmetic; joint moves (C35, C37) and straight moves (C36) also in IEEE arithmetic with error bounds (`PropFloatSync`, `PropFloatLinear`).",
"C40": "`ConfigModel` in exact arithmetic with NaN; law of cosines.",
"C41 C42 C43 C44 C45 C52": "`KinModel` in exact arithmetic (with NaN for inverse); the matrix products are compared with an independent rigid-body specification by trigonometric identities.  C41 and C43 also in IEEE arithmetic: `KinFloat` propagates an error bound through each operation of calculateCoordinates (`PropKinFloat`, `PropKinOrient`).",
"C53": "`RobotModel`, `KinModel` and `ConfigModel` composed, exact arithmetic.",
"C57 C58 C59": "`SystemModel` in exact arithmetic: invariant relating servos, planned moves and the finished flag; safety invariant for every fault.  C57 and C58 also in IEEE arithmetic (`SystemArrive`, `PropFloatArrive`, `PropFloatAxes`).  C59 in IEEE arithmetic for point-to-point hosts: `SystemDefined` (any arithmetic: parts that keep an invariant and do not fail under it make a system that runs), instantiated in `PropFloatHost`; `KinBounded` bounds the angles of the inverse kinematic.",
"C60": "`DeviceModel`, every arithmetic, every schedule of polls, ticks and controller steps after the instruction.",
"C63": "`DeviceModel.exec_act` against a fold over the commands of an instruction; induction over commands, over the actions of a step and over the run of the whole controller.  The distance between stored and written number: `DecFloat` (decimal literals are correctly rounded) and the error bounds of `FloatBridge` (`PropFloatText`).",
"C64": "`ConfigModel.kit_*` under `RobotModel`, exact arithmetic; the working range is written with the numbers of the table, acceptance by `C35_legal_target_is_executed`, refusal by computing the rejected step.  In IEEE arithmetic from the digits written by the host (`PropFloatKit`): the conversion is monotone and exact on the configured integers.",
"C66 C67 C68": "`FineModel`: process() as a program whose accesses to the servos are separated by any interrupts; a Hoare logic over it (FineProofs) keeps the servo invariants at every access; without interrupts it equals `RobotModel`; the races by computation in IEEE arithmetic; `FineSystem` puts this process() into the main loop.",
"C65": "`DisplayModel.render` over a sequence of views of `SystemModel` states; invariants of the runs (servo ranges, protocol state) give definedness, the picture is specified independently in PropDisplay.",
"C61 C62": "`RobotModel` in IEEE arithmetic with an abstract math library, propagation of NaN; exact arithmetic for the true part.",
"C70": "`StartModel`: `displayRobotGeometry`, in IEEE arithmetic with the conversions to int, int16 and unsigned int as the C++ standard has them (undefined out of range); a planar arm has height 0, so the scale is 64/width or infinite (`PropStart`).",
"C69": "`DeviceModel` in IEEE arithmetic, composing C24 (what is answered) and C63 (what a text sets, and how close): error bounds through degrees, the printed decimals and back (`PropTeach`).",
"C71 C72 C73": "`GfxModel`: the vendored Adafruit_GFX and Adafruit_SSD1306 as mrc uses them, down to bytes and masks of the frame buffer (font table in `GfxFont`, generated from glcdfont.c); `GfxProofs` gives each operation its set of pixels (`adds`), for lines Bresenham's error as an invariant; C71_pixels composes them over any sequence, C72 with the picture of C65.",
"C74 C75 C76 C77 C78 C79 C80": "`CalibModel`: `setup`/`loop` of `examples/CalibrateServos.h` on the servo model; `CalibProofs` reduces a key to its effect on one row and one servo (`row_step`), an invariant (table and servo objects agree) over all histories; moves under the facts about the arithmetic listed in `CalibMoves`, discharged for exact reals and for IEEE floats (`PropCalibMove`); counterexamples on the shipped table by computation in IEEE arithmetic.",
"C81": "`PropArmD`: the tables of mp-robot-d.h and servodata.h under `RobotModel`, exact arithmetic, as for C64; the linkage is specified by its geometry (`bar`: the rod fits and the crank is not folded over), and `C81_bar` shows that the code's two arc cosines are its only solution.  `Crank`: two servos commanded to arrive together stay in step at every tick, so the difference of their angles stays between its values at the commands.",
"C83 C84 C85": "`LoggerModel`: all of Logger.cpp except the UNIT_TEST branch, with the preprocessor's decisions as a configuration and the readings of micros() as arguments; induction over the history of calls, the interleaving with the controller's output reduces to C46; the stopwatch by an invariant on the two static counters modulo 2^32.",
"C82": "`UartModel`: `SystemModel` with a receive buffer of `cap` bytes that drops what finds it full; a leaky bucket (arrivals less 30 per iteration) bounds the fill level at every phase of the loop.",
}
