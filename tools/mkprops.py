import json
P=[]
def p(id,title,statement,quantifier,why,anchors):
    P.append(dict(id=id,title=title,statement=statement,quantifier=quantifier,why_tests_cant=why,anchors=anchors))
RB="src/RingBuffer.cpp"
p("C01","RingBuffer is a bounded byte FIFO",
 "Whatever sequence of public calls is made on a RingBuffer (putBytes, get/getByte, getMessage, getFromBack, peek, clear, getSize, getCapacity), every returned value is the one a plain list-of-bytes queue of the same capacity would return: putBytes appends the bytes followed by '!' or does nothing, getByte removes the oldest byte ('!' when empty), getMessage removes everything up to and including the next '!', getFromBack removes the newest byte (0 when empty), peek(i) reads the i-th oldest, and no access leaves the allocated storage.",
 "every capacity from 1 to 2^31, every initial heap content, every finite call sequence with arbitrary bytes and lengths",
 "wrap-around of position/length interacts with every earlier call; a test can only sample some positions of the ring",
 [RB+": RingBuffer::putBytes, get, getByte, getMessage, getFromBack, peek, clear, getSize, getCapacity"])
p("C02","putBytes is all-or-nothing and predictable from the reported free space",
 "putBytes(m, n) returns STATUS_OK exactly when n + 1 <= capacity - size (the number the 'B' command reports), and then the size grows by exactly n+1; otherwise it returns STATUS_FULL and no observable of the buffer changes.",
 "every buffer state reachable by any call history and every message length up to 2^31",
 "needs every fill level and every length, including the exact boundary, at every ring position",
 [RB+": RingBuffer::putBytes","src/MRCPParser.cpp: MRCPParser::sendFreeBufferSize"])
p("C03","Queued messages come out unmodified, in order, exactly once",
 "If accepted putBytes calls (with messages that contain no '!') are interleaved in any way with getMessage calls, the sequence of non-default messages returned by getMessage is a prefix of the sequence of accepted messages, and once the buffer is drained it is the whole sequence.",
 "every interleaving of puts and gets, every message content without '!', every capacity",
 "ordering and exactly-once over unbounded histories with wrap-around",
 [RB+": RingBuffer::putBytes, getMessage","src/MRCPParser.cpp: MRCPParser::process"])
p("C04","putBytesInFront makes its message the next one returned",
 "After putBytesInFront(m, n) returns STATUS_OK, the next getMessage returns m, and afterwards the previous contents are unchanged. (The code violates this: the last byte of m is dropped, and n = 0 runs off the array.)",
 "every buffer state and every message",
 "no unit test calls it; the exact effect for all lengths (including 0 and 1) is a universally quantified statement",
 [RB+": RingBuffer::putBytesInFront, putInFront"])
EE="src/EEPromStorage.cpp"
p("C05","EEPROM message store is a faithful append log",
 "After clear() and any sequence of appendMessage calls (none of which fills the EEPROM to the last byte, see C06), getNumberOfMessages() is the number of non-empty messages that fitted, getMessage(i) returns the i-th of them with its length, and getMessage(i) returns length 0 for i >= the count.",
 "every EEPROM prior content, every sequence of messages of length 1..127 that fits",
 "round trip over all contents and all fill levels",
 [EE+": appendMessage, getMessage, getNumberOfMessages, clear"])
p("C06","appendMessage either appends or leaves the EEPROM untouched, and never writes outside it",
 "An appendMessage that does not fit changes no EEPROM byte; one that fits changes no byte of any earlier message; no call writes at an address >= 2048. (The code violates the last clause by one byte when the message exactly fills the EEPROM.)",
 "every stored log and every message length",
 "the exact boundary at 2048 bytes has to be hit for every possible arrangement of earlier messages",
 [EE+": appendMessage","src/EEPromStorage.h: EEPROM_SIZE"])
p("C07","Power loss during appendMessage never damages stored messages",
 "If power is lost after any number of the EEPROM byte writes of appendMessage, every message stored before the call is still returned unchanged by getMessage with the same number. (All-or-nothing visibility of the new message is NOT guaranteed by the code.)",
 "every crash point inside every appendMessage call, every prior log",
 "a test cannot cut power between two byte writes",
 [EE+": appendMessage"])
p("C08","EEPROM replay cycles through every stored message",
 "Repeated getNextMessage calls on a store with n >= 1 messages return all stored messages in order, cyclically. (The code violates this: message number 0 is never returned, and a single stored message is never returned at all; what is true is that messages 1..n-1 are cycled.)",
 "every stored log, every number of calls, also while messages are appended in between",
 "cyclic behaviour over an unbounded number of calls",
 [EE+": getNextMessage","src/EEPromStorage.h: messagePointer"])
p("C09","Scanning the EEPROM terminates and stays inside it",
 "getNumberOfMessages, getMessage and appendMessage finish and read only addresses < 2048 whenever the EEPROM holds a log written by this class. (For arbitrary EEPROM contents - e.g. a factory-fresh all-0xFF chip - they read outside it.)",
 "every well-formed log; refuted for arbitrary contents",
 "depends on every byte of the EEPROM",
 [EE+": appendMessage, getMessage, getNumberOfMessages"])
p("C10","A D<ms> wait lasts at least ms milliseconds and then ends",
 "After waitMs(ms) at time t, isDone() is false at every time up to and including t+ms and true at every later time, as long as t+ms and the later times stay below 2^32 ms; before any wait, isDone() is true at every time except 0.",
 "every start time, duration and polling time without clock wrap",
 "every pair of times",
 ["src/WaitController.h: waitMs, isDone"])
p("C11","Waiting works across the 49.7-day millis() wrap",
 "waitMs(ms) at any time t is not done within the next ms milliseconds and is done later, also when the 32-bit millisecond clock wraps. (The code violates this in both directions: a wait that crosses the wrap can end at once, and a deadline of 2^32-1 never ends.)",
 "every start time modulo 2^32 and every duration",
 "needs the clock at the wrap, 49.7 days after power-up",
 ["src/WaitController.h: waitMs, isDone"])
p("C12","Input conditions: done exactly when all hold at once, then forgotten",
 "With at most 10 pending conditions, isDone() returns true exactly when every pending condition with state 0/1 matches the level read from its mapped pin in that very call; when it returns true the pending set is emptied, when it returns false it is unchanged.",
 "every pin map, every set of conditions, every history of pin levels and polls",
 "all combinations of conditions and pin histories",
 ["src/IOLogic.cpp: addCondition, isDone"])
p("C13","setOutput drives exactly the mapped pin to the requested level",
 "setOutput(p, s) for p in 0..9 configures only physical pin pinMap[p] as output and drives it high for s=1, low for s=0, leaves its level alone for any other s, touches no other pin and no pending condition.",
 "every pin map, logical pin, state value, previous pin state",
 "all pins and states",
 ["src/IOLogic.cpp: setOutput"])
p("C14","Condition and pin tables are never accessed out of bounds",
 "addCondition, setOutput and getTargetState are memory safe for logical pins 0..9 as long as fewer than 10 conditions are pending when one is added. (Without that host-side discipline the code is not safe: the 11th pending condition and any pin >= 10 are out-of-bounds accesses.)",
 "every call history",
 "over histories of calls of any length",
 ["src/IOLogic.cpp: addCondition, setOutput, getTargetState","src/IOLogic.h: conditionBuffer, pinMap"])
MC="src/MRCPParser.cpp"
p("C15","Framing: each carriage return delivers exactly the cleaned frame before it",
 "For any incoming byte stream whose frames are at most 78 payload characters, the i-th carriage return causes exactly one command dispatch, whose text is the frame's characters since the last ':' (or since the previous carriage return), upper-cased, with everything outside A-Z 0-9 + , - . removed and everything after '#' or '(' removed; nothing is dispatched between carriage returns.",
 "every byte stream, however it is split over calls",
 "all byte streams and all resynchronisation points",
 [MC+": parseChar"])
p("C16","Comments never change what is executed",
 "Inserting a comment '#...' or '(...' before a carriage return does not change the dispatched command, for any comment text without carriage return. (The code violates this when the comment contains ':': the command is then discarded.)",
 "every command and every comment text",
 "all comment texts",
 [MC+": parseChar"])
p("C17","The receive buffer is never overrun, whatever arrives on the wire",
 "No incoming byte stream makes the parser write outside its 80-byte input buffer; frames longer than the buffer are discarded. (The code violates this: a frame of 79 or more payload characters writes out of bounds; safety is proved exactly for streams whose frames have at most 78.)",
 "every byte stream",
 "memory safety over all inputs",
 [MC+": parseChar","src/MRCPParser.h: INPUT_BUFFER_SIZE"])
p("C18","Lower case and upper case input are equivalent",
 "Replacing any lower-case letters of an incoming stream by upper-case ones changes nothing observable.",
 "every byte stream and every subset of letters changed",
 "all streams",
 [MC+": parseChar, toUpper"])
p("C19","Command dispatch: B, E, Q, W and default do what the protocol says and nothing else",
 "A dispatched command 'B...' only reports free space; 'E<mril>' only executes <mril> immediately and changes neither mode nor queue; 'Q' alone empties the queue; 'Q<mril>' and any other text append to the queue and select queue mode; 'W' alone erases the EEPROM log; 'W<mril>' appends to the EEPROM log and selects EEPROM mode; an empty command does nothing.",
 "every command text and every prior state",
 "all texts and states, including what must not change",
 [MC+": parseCommand"])
ML="src/MRILParser.cpp"
p("C20","MRIL text is split into commands and each is executed once, in order",
 "For an instruction that is a concatenation of commands, each a letter followed by digits, '.' and '-' (at most 19 characters), parse performs exactly the API calls of the individual commands, in textual order, between startTransaction and endTransaction.",
 "every instruction of well-formed commands",
 "all command sequences",
 [ML+": MRILParser::parse"])
p("C21","Numbers in commands reach the robot unchanged",
 "For every decimal number printed with an optional minus sign and optional fraction, X/Y/Z/A/B/C/R/V/D/N/M followed by that text passes exactly that number to the corresponding setter (angles converted from degrees).",
 "every decimal number that fits in the command buffer",
 "all numerals",
 [ML+": MRILParser::parse"])
p("C22","No MRIL instruction can overrun the command buffer or index outside the device tables",
 "parse is memory safe for every instruction text. (The code violates this: commands longer than 19 characters overrun the 20-byte command buffer, R8, R9, R without digit, I/O without digit index out of bounds, and an eleventh pending condition overruns its table; proved instead is the exact condition under which an instruction is safe.)",
 "every instruction text",
 "memory safety over all inputs",
 [ML+": MRILParser::parse","src/MRILParser.h: MRIL_COMMAND_SIZE","src/AdditionalAxisController.h"])
p("C23","Characters MRIL does not know are ignored",
 "Removing '+' and ',' (accepted by the framing layer, unknown to MRIL) from an instruction does not change what is executed. (The code violates this: an unknown character before the next letter or at the end glues or drops commands.)",
 "every instruction text",
 "all texts",
 [ML+": MRILParser::parse"])
p("C24","Read-only instructions change nothing",
 "An instruction consisting of read commands (bare letters M, V, X..C, or R<digit>) leaves targets, velocities, movement method, outputs, conditions, waits and the pending command number unchanged and sends exactly one reply listing the values in textual order.",
 "every read-only instruction and every machine state",
 "all instructions and states",
 [ML+": MRILParser::parse"])
p("C25","A numbered write command is acknowledged exactly once",
 "Executing an instruction N<n>... with n > 0 that ends in a write command sends N0<n> at once, and N1<n> exactly once: at the first poll at which inputs, motion and wait are all done, and never before.",
 "every instruction, every later schedule of polls and device states, as long as no other instruction is executed in between",
 "all schedules of completion",
 [ML+": MRILParser::parse, MRILParser::process"])
p("C26","Queue mode: instructions are executed strictly one after the other, in arrival order",
 "In queue mode, over any schedule of main-loop iterations, instructions are taken from the queue in the order the frames arrived, each exactly once, and an instruction is started only in a loop iteration whose poll found conditions, motion and wait of everything before it done.",
 "every arrival schedule, loop schedule and device behaviour",
 "all interleavings of arrivals, polls and completions",
 [MC+": process, parseCommand",ML+": process","src/main.cpp: loop"])
p("C27","The queue never overruns the instruction buffer",
 "Whatever frames (of at most 78 payload characters) arrive and whatever the loop schedule, every instruction taken from the queue or from an EEPROM log written by this firmware fits the 80-byte instruction buffer.",
 "every history",
 "an invariant over all histories",
 [MC+": process"])
VS="src/VarSpeedServo.cpp"
p("C28","A servo moves monotonically to its target, never overshoots, and stays there",
 "After setTargetRadAngle(t), whatever the tick lengths, the current angle always lies between the start angle and t, the distance to t never increases, once |t-start| <= v*T/1000 holds for the total tick time T the angle is exactly t, and it stays t for ever after.",
 "every start, target, positive velocity and every sequence of tick lengths (exact arithmetic; total below 2^32 ms)",
 "all tick schedules",
 [VS+": process, setTargetRadAngle, atTargetAngle"])
p("C29","Servo speed is always positive and never above the configured maximum",
 "After any sequence of setCurrentAngleVelocity calls on a servo with positive maximum, getCurrentAngleVelocity() is in (0, max] (max >= 0.1), and equals the request when the request is in that range.",
 "every request sequence (non-NaN)",
 "all values",
 [VS+": setCurrentAngleVelocity"])
p("C30","Pulse width stays inside the calibration interval",
 "Whenever the servo's current angle is within [minRadAngle, maxRadAngle], the pulse width written lies between the two calibration values, is exactly the calibration value at each end, and is monotone in the angle (also for reversed calibration).",
 "every calibration, every angle in range (exact arithmetic)",
 "all angles and calibrations",
 [VS+": move, map_float"])
p("C31","No tick moves a servo by more than speed * tick length",
 "Between two consecutive updates the commanded angle changes by at most maxAngleVelocity * deltaT. (True between API calls; the code violates it when the velocity is changed during a move and when the 20 ms interrupt fires in the middle of setTargetRadAngle.)",
 "every schedule of the timer interrupt relative to the API calls",
 "interrupt timing cannot be controlled in a unit test",
 [VS+": process, setTargetRadAngle, setCurrentAngleVelocity","src/main.cpp: updateServos"])
RC="src/RobotController.cpp"
p("C32","No servo is ever commanded outside its limits",
 "Whatever targets are requested, process() commands a servo only with an angle that is not below the servo's minimum and not above its maximum, computed from logical angles that are not outside the logical limits; if any axis would violate a limit no servo is commanded at all. (With IEEE floats a NaN passes both comparisons and is sent to the servo.)",
 "every request history, every kinematics and coupling function, every servo state",
 "all targets and histories",
 [RC+": process"])
p("C33","Transactions are atomic",
 "Between startTransaction and endTransaction, after a target has been set, no process() call commands any servo, whatever is set; the first process() after endTransaction uses the last value set for each coordinate.",
 "every sequence of set and process calls inside the transaction",
 "all call sequences",
 [RC+": process, startTransaction, endTransaction, setTargetPose, setTargetLogicalAngle"])
p("C34","Mixing pose and joint targets in one transaction moves nothing",
 "If both a pose coordinate and a joint angle were set since the last move was prepared, the next process() outside a transaction commands no servo, leaves the controller idle and clears both change marks.",
 "every mixture and order of sets",
 "all orders",
 [RC+": process"])
p("C35","Point-to-point moves: all joints arrive together and no joint exceeds its own maximum speed",
 "In a P2P move with positive velocity, each servo's commanded speed is at most its maximum, and all servos that have to move need the same time; that time is at least maxAngleChange/velocity, and it is the least time for which both hold.",
 "every start and target within limits, every velocity > 0 (exact and IEEE arithmetic)",
 "all combinations",
 [RC+": process (START_MOVE, P2P)",VS+": setCurrentAngleVelocity"])
p("C36","Linear moves visit equally spaced points of the straight segment and end at the target",
 "In a LINEAR move the k-th commanded waypoint (k=1..N) is start + (target-start)*k/N with the target orientation, waypoints are at most 0.5 units apart, N >= 1 and the N-th waypoint is the target; N depends only on start and target.",
 "every start and target pose (exact arithmetic; up to rounding in IEEE arithmetic)",
 "all poses and step numbers",
 [RC+": process (PREPARE_MOVE, START_MOVE, LINEAR)"])
p("C37","Every accepted move ends",
 "After a move has been prepared with N steps, if the servos reach their commanded angles between controller polls, the controller is idle after at most N+1 polls, and isMoving() is true until then unless the move is rejected.",
 "every move, every schedule of polls where servos eventually arrive",
 "liveness over all schedules",
 [RC+": process"])
p("C38","After stop() the controller issues no commands",
 "After stop() the controller reports not moving and issues no further servo command until a new target is set. (The property that the servos themselves stop is violated by the code: they run on to their last commanded angle.)",
 "every state, every number of subsequent polls and ticks",
 "all later schedules",
 [RC+": stop, process"])
p("C39","An unreachable pose never moves the robot towards a wrong place",
 "If inverse kinematics fails for the requested pose, process() commands no servo with a target other than an earlier accepted one. (In P2P the failed result is ignored: the robot then moves to the previously requested joint target.)",
 "every state and pose",
 "all poses",
 [RC+": process"])
p("C40","Logical and physical joint angles convert back and forth without loss",
 "For the coupling functions of both shipped configurations, physicalToLogicalAngles(logicalToPhysicalAngles(a)) = a for every a within the logical limits; consequently getCurrentPhysicalAngles returns the servos' angles.",
 "all angle vectors (exact arithmetic)",
 "all angles",
 ["config/mp-robot-kit.h: logicalToPhysicalAngles, physicalToLogicalAngles","config/mp-robot-d.h: logicalToPhysicalAngles, physicalToLogicalAngles",RC+": getCurrentPhysicalAngles"])
KI="src/Kinematic.cpp"
p("C41","Forward kinematics is a rigid chain",
 "For every joint vector, the distances between consecutive joints computed by calculateCoordinates equal the lengths of the configured links, the base joint is at the origin, and at zero angles the tool point is the sum of the links.  In the device's float arithmetic the computed joints differ from that chain by at most a ten-thousandth of the largest link.",
 "every geometry and joint vector (exact arithmetic; float arithmetic with a stated error)",
 "all angles and geometries",
 [KI+": calculateCoordinates, forward"])
p("C42","Turning the base joint turns the whole robot",
 "forward(A0+d, A1..A5) is forward(A0..A5) with every joint position rotated by d about the vertical axis.",
 "every geometry, joint vector and d (exact arithmetic)",
 "all angles",
 [KI+": calculateCoordinates"])
p("C43","Reported orientation is the tool's orientation",
 "The rotation computed by forward is orthonormal, and the reported angles a, b, c reproduce its matrix under the X-Y-Z Euler convention (away from and at gimbal lock).  In the device's float arithmetic the same holds up to a small error, away from gimbal lock.",
 "every joint vector (exact arithmetic; float arithmetic with a stated error)",
 "all angles",
 [KI+": calculateCoordinates"])
p("C44","Inverse kinematics is correct: forward(inverse(p)) = p",
 "Whenever inverse returns OK for a pose with the documented geometry constraints, forward of the returned angles is the requested position (and tool direction).",
 "every reachable non-singular pose (exact arithmetic), every geometry satisfying the documented constraints",
 "all poses; the unit test checks four",
 [KI+": inverse, forward"])
p("C45","inverse reports failure without touching its output",
 "inverse writes the six angles only when it returns OK; on OUT_OF_RANGE the caller's array is unchanged; and it returns OUT_OF_RANGE exactly when one of the computed angles is not a number, which in exact arithmetic is exactly when the wrist position needed for the pose is out of the arm's reach.",
 "every pose and geometry",
 "all poses",
 [KI+": inverse"])
p("C46","Everything the controller sends is a well-formed frame",
 "The bytes written to the host are a sequence of frames ':' text CR LF. (The code violates this: debug prints such as the P2P move time and 'comment-breaking' are written raw.)",
 "every execution",
 "all executions",
 ["src/MRCPR.h: sendMessage","src/SerialIO.h: transmit",RC+": process (Serial.println)",ML+": parse (Serial.println)"])
p("C47","Serial input is neither lost, duplicated nor reordered",
 "Over any schedule of SerialIO::process calls and arrivals, the bytes handed to the parser are exactly the received bytes in order, at most 30 per call.",
 "every arrival and polling schedule",
 "all schedules",
 ["src/SerialIO.h: process"])
p("C48","A conforming host can never make the firmware misbehave",
 "If every frame has at most 78 payload characters, every command at most 19, every index is valid and no instruction has more than 10 input conditions, then over every schedule of loop iterations and every device behaviour no out-of-bounds access happens.",
 "every conforming byte stream, loop schedule, pin and clock history",
 "whole-system memory safety over all inputs and schedules",
 ["src/main.cpp: loop, updateServos",MC,ML,RB,"src/IOLogic.cpp"])
p("C49","Acknowledgements arrive in order, one per queued numbered instruction",
 "If the host only queues numbered write instructions, the acknowledgements N0<n1> N1<n1> N0<n2> N1<n2> ... appear in arrival order and strictly alternate.",
 "every queue-only stream and schedule",
 "all schedules",
 [ML+": parse, process",MC+": process"])
p("C50","The host cannot inject non-numbers",
 "Every numeric value passed to a setter by parse is a finite number. (The code violates this: the accepted text X+N+A+N passes NaN.)",
 "every instruction text",
 "all texts",
 [ML+": parse"])
p("C51","The last requested target wins",
 "Whatever the robot is doing, if a reachable target is set and process() is called, the servos end at that target and not at an earlier one. (The code violates this: a target equal to the position the robot is passing through is ignored, and the servos run on to the earlier target.)",
 "every state during a move and every new target",
 "all moments of a move",
 [RC+": process, _anglesEqual"])
p("C52","Every pose the arm can take in front of it is accepted by inverse",
 "If the arm, not reaching over backwards, takes some pose (wrist neither on the vertical axis nor at the shoulder), then inverse returns OK for that pose and the returned angles produce the same tool position and direction.",
 "every geometry satisfying the documented constraints and every joint vector (exact arithmetic)",
 "all joint vectors",
 ["src/Kinematic.cpp: inverse, forward"])
p("C53","The arm goes to the pose it was sent to",
 "Controller, kinematics and servos together: when a linear move commands the servos for a waypoint, then after a time planned for the step getCurrentPose() reports a pose with exactly the waypoint's position and tool direction (within 0.05 rad of the wrist singularity at +90 degrees: within a tenth of the tool's length and 0.1 of the direction), and away from cos(joint 4) = 0 also its full orientation; a point-to-point move to a reachable pose ends exactly at that pose; exactly the reachable poses can be planned.",
 "every geometry satisfying the documented constraints, every invertible joint coupling, state, waypoint and tick schedule (exact arithmetic)",
 "composition of three components over all real inputs and schedules",
 [RC+": process, getCurrentPose","src/Kinematic.cpp: inverse, forward","src/VarSpeedServo.cpp: process"])
p("C54","Only instructions that were sent or stored are executed",
 "Every instruction the controller executes, on any schedule, was carried by a frame received since boot or was in the EEPROM at boot; nothing is made up, merged or cut.",
 "every byte stream of frames of at most 78 characters, every stored program and every schedule",
 "an invariant over all histories of queue, program memory and parser",
 [MC+": parseChar, parseCommand, process","src/RingBuffer.cpp","src/EEPromStorage.cpp","src/main.cpp: loop"])
p("C55","A host that counts bytes never loses an instruction",
 "If at every moment the queued instructions sent (each with one separator byte) exceed the instructions started by at most 300 bytes, no instruction is dropped: those started followed by those waiting are those received, in order.",
 "every conforming byte stream and every schedule of arrivals, ticks and main-loop progress",
 "the bound must be maintained over every history of sends and starts",
 [MC+": parseCommand, process","src/RingBuffer.cpp: putBytes, getMessage","src/main.cpp: loop"])
p("C56","The queue does not stall",
 "Whenever the main loop polls the machine, everything is finished and instructions are waiting, the next step of the main loop starts the first waiting instruction and only this one, whatever arrives or ticks in between.",
 "every reachable state of the controller in queue mode",
 "all reachable states of queue, parser and machine",
 [MC+": process","src/MRILParser.cpp: process","src/main.cpp: loop"])
p("C57","Finished means arrived",
 "Whenever the controller finds an instruction finished (and so reports N1 and starts the next one), all six joints are at their targets (within 10^-6 rad).",
 "all configurations, instructions and schedules of arriving bytes, main-loop steps and timer ticks",
 "depends on every interleaving of ticks, polls and instructions over an unbounded history",
 [RC+": process, isMoving",ML+": process","src/main.cpp: loop"])
p("C58","Additional axes",
 "The additional axes (R6, R7) stay inside their angle limits, their pulses inside the calibration interval, and an instruction that moves one is finished only when it has arrived.",
 "all targets, servo configurations and schedules",
 "all target values and schedules",
 [ML+": parse (case 'R')","src/main.cpp: additionalAxisServos",VS+": setTargetRadAngle, process, move"])
p("C59","No undefined behaviour for a moderate host",
 "With working servos and a forward kinematic of bounded reach, a host that keeps to the frame format and sends well-formed instructions with coordinates of at most 10^8, a positive speed and axis targets inside their limits never drives the controller into undefined behaviour of any kind (memory, uninitialised data, number conversion).",
 "all such hosts, stored programs, kinematics and schedules: exact arithmetic; IEEE arithmetic for hosts that move point to point (coordinates then unrestricted)",
 "all histories of the whole system",
 ["src/main.cpp: setup, loop",MC,ML,RC,VS])
p("C60","Immediate instructions and the running one",
 "An instruction executed at once (E frame) while another one is running does not disturb the acknowledgement of the running one: N1<n> is still sent, once, when it is finished.",
 "all running and immediate instructions, all schedules",
 "all pairs of instructions and schedules",
 [ML+": parse, process",MC+": process"])
p("C61","Any speed can be set",
 "Whatever speed the host sets with V, moves are executed without undefined behaviour.",
 "all speeds, robots, kinematics and moves",
 "all float values and moves",
 [RC+": setMaxVelocity, process",VS+": setCurrentAngleVelocity, process"])
p("C62","Straight moves that keep the orientation",
 "A straight move that changes only the position of the tool is planned like any other: it gets the number of steps of its distance, in particular planning is defined.",
 "all orientations, positions, robots and kinematics",
 "depends on the rounding of every orientation",
 [RC+": process (PREPARE_MOVE, LINEAR)"])
p("C63","An instruction sets what it names and nothing else",
 "After an instruction every setting has the last value the instruction gives for it, converted to a float (degrees to radians for angles), and every setting it does not name keeps its value: movement method (M0, M1), speed (V), the six coordinates of the target pose (X Y Z A B C), the six joint targets (R0-R5), the targets of the additional axes (R6, R7), the wait (D), the awaited inputs (I, in order), the output pins (O, in order).  No joint moves during the call.  Method, speed, axis targets and pin operations last: over any history of the controller they are those of the executed instructions, in order.",
 "all instructions of well-formed commands, all states of the machine, all schedules, every arithmetic",
 "all sequences of commands and all interleavings with motion",
 [ML+": parse",RC+": setTargetPose, setTargetLogicalAngle, setMaxVelocity, setMovementMethod","src/IOLogic.cpp","src/WaitController.h","src/AdditionalAxisController.h"])
p("C64","The kit carries out exactly the joint targets of its working range",
 "With the robot kit's configuration a joint target that differs from where the arm is is carried out if J0 is in [-90,90], J1 in [-45,90], J2 in [-45,135], J1+J2 in [-45,135] (the forearm is driven over a parallelogram by a servo on the base), J3 in [-90,85], J4 in [-140,15] and J5 in [-90,60] degrees, and otherwise moves nothing and leaves the controller idle.  In every history the six shafts stay in their ranges and the pulses on the six pins lie on the configured calibration lines.",
 "all joint targets, all histories of calls and timer ticks since power-on",
 "a seven-dimensional region with a coupling constraint: every point inside must be accepted and every point outside refused, in every reachable state",
 ["src/config/mp-robot-kit.h: servoConfig, logicAngleLimits, logicalToPhysicalAngles",RC+": process"])
p("C65","The display shows the state, and drawing it is always defined",
 "Whenever the display is drawn - however the timer interrupt falls between its reads - drawing is defined (no out-of-range conversion, no access outside the pin table, the scan of the EEPROM ends) and the drawing operations are: the arm from above and from the front as lines between the joint positions of the current shaft angles; in queue mode the occupied bytes of the queue, in EEPROM mode the next and the number of stored instructions; movement method and speed; for each servo a mark at its home position and lines from there to the target and to the current angle, each column right to one pixel and inside the bars' part of the screen; for each logical pin whether it is awaited high, low or not at all.",
 "all schedules of a host that keeps to the framing, all moments of all reads, all geometries of at most 30000 units, all servo configurations",
 "the screen is drawn while interrupts change what it shows; every reachable state at every read",
 ["src/Display.h: displayRobot, displayBars","src/main.cpp: renderDisplay","src/IOLogic.cpp: getTargetState","src/EEPromStorage.cpp: getNumberOfMessages","src/RingBuffer.cpp: getSize"])
p("C66","The limits hold whatever interrupts fall into process()",
 "The timer interrupt may come between any two accesses of process() to a servo, any number of times: still no servo is commanded outside its limits, every shaft stays inside them, every pulse written by any interrupt is inside the calibration, and an interrupt never makes process() undefined. Without interrupts inside calls this is the controller of C32.",
 "all configurations, histories of calls, and placements of any number of interrupts inside and between the calls",
 "the interrupt may hit any statement of any call; placements multiply with every access",
 [RC+": process","src/VarSpeedServo.cpp: setTargetRadAngle, setCurrentAngleVelocity, getCurrentAngle, atTargetAngle, process","src/main.cpp: updateServos"])
p("C67","Finished means arrived, whatever interrupts fall into process()",
 "When process() goes from moving to idle, wherever the timer interrupt falls, all six joints are within 10^-6 rad of their targets and stay there until the next command.",
 "all configurations, histories of calls, and placements of interrupts",
 "depends on the statement of the call the interrupt hits",
 [RC+": process, isMoving","src/VarSpeedServo.cpp: setTargetRadAngle, process","src/main.cpp: updateServos"])
p("C68","A reported position is one the robot had",
 "The position and the joint angles the controller reports (to the host, to the display) are those of the robot at some moment of the call, wherever the timer interrupt falls among its reads of the six joints.",
 "all states and histories of the controller, all placements of any number of interrupts inside the call, every arithmetic",
 "depends on which of six reads the interrupt falls between",
 [RC+": getCurrentPose, getCurrentPhysicalAngles, getCurrentLogicalAngles",ML+": parse (X Y Z A B C)","src/Display.h: displayRobot","src/main.cpp: updateServos"])
p("C69","Teach-in: an answer can be sent back",
 "What the controller answers to an instruction of reads (method, velocity, pose, joints, additional axes, in any combination) is itself an instruction; sent to this controller later, or to another of the same kind, it is accepted and sets the method read, and speed and targets to the values read, up to the two printed decimals (0.005 degrees or units) and float rounding; what was not read stays as it was.",
 "all combinations and orders of reads, all states of the controller that was read and of the one written to",
 "printing and parsing of every float, through degrees and back, in every combination",
 [ML+": parse (M V X Y Z A B C R)",RC+": getCurrentPose, getCurrentLogicalAngles","src/AdditionalAxisController.h: getCurrentAngle"])
p("C70","The start screen shows the arm",
"When the controller is switched on, it draws its arm on the screen, to scale, whatever the arm's dimensions are, and goes on to start.",
"every geometry (five vectors of floats), every arm in the x-z plane as the kinematics assume",
"A test draws one arm, usually the shipped one, and the drawing is not read back; the property ranges over every geometry that can be configured, including the degenerate ones where a scale is divided by zero.",
["src/Display.h: Display::displayRobotGeometry","src/main.cpp: setup"])
p("C71","Drawing stays inside the frame, ends, and lights exactly the shapes",
"Whatever lines, rectangles and texts are drawn, with whatever coordinates of the parameters' types and in whatever order: nothing outside the 512-byte frame buffer or the font table is accessed, the drawing ends, no pixel is switched off, and the pixels switched on are exactly those of the shapes on the screen: a filled or outlined rectangle, the characters of a text in the font, and for a line one pixel in each column (or row, if steep) from end to end, never more than half a pixel off the line between the ends.",
"every sequence of drawing operations, all 16-bit coordinates, every text, every content of the frame before",
"A test draws a few shapes; the clipping has to be right for all 2^64 quadruples of coordinates, and the 16-bit loop counters and error terms for the extreme ones.",
["lib/Adafruit-GFX-Library/Adafruit_GFX.cpp: drawLine, fillRect, drawRect, drawChar, write","lib/Adafruit-GFX-Library/glcdfont.c: font","lib/Adafruit_SSD1306/Adafruit_SSD1306.cpp: drawPixel, drawFastHLineInternal, drawFastVLineInternal"])
p("C72","What the state is, the pixels show",
"Whenever the display is drawn, whatever has happened before and however interrupts fall into the drawing: the 4096 pixels of the frame are exactly the picture of the controller's state (C65): on are the pixels of the arm from above and from the front, of the mode and the queue or store counters, of method and speed, of the six bars and of the awaited inputs, and no others; and this frame is what is sent to the screen.",
"all schedules of a host that keeps to the framing, all moments of all reads, all geometries of at most 30000 units, all servo configurations",
"the screen is drawn while interrupts change what it shows; pixel by pixel in every reachable state",
["src/main.cpp: renderDisplay","src/Display.h: displayRobot, displayBars, displayText, clear, show","lib/Adafruit-GFX-Library/Adafruit_GFX.cpp: drawLine, fillRect, drawRect, drawChar, write","lib/Adafruit_SSD1306/Adafruit_SSD1306.cpp: display, clearDisplay"])
p("C73","The frame reaches the screen unchanged",
"display() transmits the frame buffer as it is: 32 transmissions, each the data marker 0x40 followed by the next sixteen bytes, together all 512 bytes in order and none outside.",
"every content of the frame buffer",
"all 2^4096 frames; the chunking must neither lose, repeat nor overrun bytes",
["lib/Adafruit_SSD1306/Adafruit_SSD1306.cpp: display"])
p("C74","The calibration program never leaves its tables, and every key is defined",
"Whatever keys are pressed, in whatever order and number, the servo calibration program of the README accesses nothing outside its table of servos and does nothing undefined.",
"all sequences of bytes received, all servo tables of six rows, every arithmetic",
"histories of keys are unbounded; the selected row is an index typed by the user, and the conversions depend on where the keys have driven the pulse",
["examples/CalibrateServos.h: setup, loop, moveToAngle","src/VarSpeedServo.cpp: setFreqency, setCalibration, process"])
p("C75","What p prints is what the servos do",
"After every history of keys, the configuration printed by p (pulses, and angles in degrees) is the calibration all six servos are driven with at that moment; a controller built from the same numbers drives every angle with the pulse the calibration program drives it with.",
"all histories of keys, all tables, all angles, every arithmetic",
"the table and the servo objects are two copies, updated at different places; they have to agree after every history",
["examples/CalibrateServos.h: loop (PRINT_CONFIG, INCREASE_FREQUENCY, DECREASE_FREQUENCY)","src/VarSpeedServo.cpp: setCalibration, setMinRadAngle, setMaxRadAngle, move"])
p("C76","A key changes what it says and nothing else",
"A servo that is not selected is not moved and keeps its calibration; only w and s change a calibration, and not in mode n or while testing (m); they change the number of the mode by one degree or one microsecond (the pulse in mode n by ten), nothing else, and drive the servo to the new pulse.",
"all histories of keys, all tables",
"which of five modes, six servos and two states the key falls in depends on the whole history",
["examples/CalibrateServos.h: loop"])
p("C77","Calibrating keeps the pulses within the program's limits",
"The calibration program drives no servo below 200 or above 2800 microseconds (its MINFREQUENCY and MAXFREQUENCY); and without w and s not outside the range of its table, up to one microsecond.",
"all histories of keys, all tables",
"how far the pulse can be driven depends on the number of keys pressed",
["examples/CalibrateServos.h: loop (constrain), setup"])
p("C78","a, d and q move to the calibrated minimum, maximum and to zero",
"After every plausible history the key a drives the selected servo to its calibrated minimum pulse, d to its calibrated maximum pulse, and q to the pulse the line through the two gives for the angle 0; t in mode t and z in mode z drive it to the recorded pulses; no other servo gets a pulse.",
"all plausible histories of keys and tables",
"depends on everything recorded before, and on the rounding of each float operation",
["examples/CalibrateServos.h: loop (MOVE_TO_MIN, MOVE_TO_MAX, MOVE_TO_ANGLE), moveToAngle","src/VarSpeedServo.cpp: process, move, map_float"])
p("C79","The printed decimals suffice",
"A controller configured with the printed angles, which have two decimals of a degree, drives every angle with the pulse of the calibration, up to one microsecond.",
"all calibrations, all angles both can drive",
"every calibration and angle; the rounded angles are different numbers in each",
["examples/CalibrateServos.h: loop (PRINT_CONFIG)","src/VarSpeedServo.cpp: move, map_float"])
p("C80","Angles are printed in degrees",
"Every line the calibration program prints about an angle gives it in degrees: the status after each key (the number of the mode and the angle of the current pulse), and the target of a move.",
"all histories of keys, all tables",
"ranges over all states the keys can produce",
["examples/CalibrateServos.h: loop (status), moveToAngle"])
p("C81","The arm with the four-bar linkage carries out exactly the joint targets of its working range",
 "With the configuration mp-robot-d a joint target that differs from where the arm is is carried out if J0 is in [-90,90], J1 in [-70,90], J2 in [-25,48], J3 in [-90,75], J4 in [-127,14], J5 in [-75,86] degrees and the servo that drives joint 2 - which stands at the crank angle the linkage (pivots 9.5 apart, crank 2.619, lever 3.3, rod 10.29) gives for J2, plus J1 - in [-89,134]; and otherwise moves nothing and leaves the controller idle.  The angle commanded to that servo is the one at which the rod fits, with the crank not folded over.  In every history the six shafts stay in their ranges and the pulses on the six pins lie on the calibration lines, and the crank stays between -90 and 60 degrees, where converting the shafts' angles to joint angles and back is defined and loses nothing.",
 "all joint targets, all histories of calls and timer ticks since power-on",
 "a region bounded by a transcendental coupling: every point inside must be accepted and every point outside refused, in every reachable state",
 ["config/mp-robot-d.h: logicAngleLimits, logicalToPhysicalAngles","config/servodata.h: servoConfig",RC+": process"])
p("C82","No byte is lost in the serial port's receive buffer",
 "The receive buffer of the serial port is finite and drops what arrives when it is full.  If in no stretch of the history more bytes arrive than 30 for each iteration of the main loop begun in it plus a burst, a buffer with room for the burst and 30 more is enough: the controller does exactly what it would do with an unbounded buffer, and the bytes handed to the protocol parser, followed by those still waiting, are the bytes that arrived.  In particular room for 60 is enough if at most 30 bytes arrive between the beginnings of two iterations.",
 "all buffer sizes and bursts, all schedules of arriving bytes, ticks and main-loop steps",
 "the fill level depends on the interleaving of arrivals and reads over the whole history",
 ["src/SerialIO.h: process","src/main.cpp: loop"])
p("C83","The log holds exactly the messages of the enabled levels",
 "With log level n (1: errors, 2: also warnings, 3: also infos) the serial port gets, for each message logged through any logger whose level is enabled (and whose domain is the one singled out, if one is), the line domain, level, text - in order, and nothing for the others; each line costs 20 ms of waiting, the others none.  As shipped: the errors.  The lines do not disturb the host: wherever they fall between the controller's output, the host still reads exactly its messages, if domains do not start with ':' and no line feed is in domain or text.",
 "all levels and configurations, all histories of messages, all interleavings with the output of every schedule",
 "histories and interleavings are unbounded; level, domain filter and overload combine",
 ["src/Logger.cpp: error, warning, info, log"])
p("C84","Messages marked as test are always logged",
 "A message logged with the mark 'test' is printed whatever the log level is (\"0> ONLY TEST\").",
 "all levels, domains and texts",
 "the preprocessor removes the code at compile time; each test sees one configuration",
 ["src/Logger.cpp: LOG_LEVEL, error, warning, info, log"])
p("C85","The stopwatch does not count its own printing",
 "time(name) prints the microseconds since resetTime() without those spent in earlier calls of time, and the microseconds since the last of these calls ended, exactly, whatever was logged in between and also when the 32-bit microsecond counter has wrapped, as long as the printed value is below 2^32.",
 "all histories of calls, all readings of the clock",
 "ranges over all histories and clocks; the counter wraps every 71.6 minutes",
 ["src/Logger.cpp: time, resetTime, usTime, usTimeSinceLastCall"])
with open('/verif/properties.jsonl','w') as f:
    for x in P: f.write(json.dumps(x)+"\n")
print(len(P))
