{
 "claims": [
  {
   "property": "C01",
   "status": "proved",
   "theorems": [
    "C01_ring_is_bounded_fifo"
   ],
   "note": "Refinement of the ring to a list queue for every history; caller obligations in RingSpec.call_ok."
  },
  {
   "property": "C02",
   "status": "proved",
   "theorems": [
    "C02_putBytes_all_or_nothing"
   ],
   "note": "For every reachable buffer."
  },
  {
   "property": "C03",
   "status": "proved",
   "theorems": [
    "C03_messages_in_order_exactly_once"
   ],
   "note": "For every interleaving of putBytes and getMessage."
  },
  {
   "property": "C04",
   "status": "partial",
   "theorems": [
    "C04_front_message_refuted",
    "C04_front_empty_refuted",
    "C04_front_message_partial"
   ],
   "note": "False of the code: the last byte is lost and an empty message reads out of bounds; the exact behaviour is proved."
  },
  {
   "property": "C05",
   "status": "proved",
   "theorems": [
    "C05_store_is_append_log",
    "C05_nothing_dropped_while_it_fits"
   ],
   "note": "Every history of appends after clear (exact-fill case excluded, see C06)."
  },
  {
   "property": "C06",
   "status": "partial",
   "theorems": [
    "C06_append_frame_partial",
    "C06_write_in_range_refuted",
    "C06_bytes_read_back"
   ],
   "note": "Frame property proved outside the exact-fill case; in that case the code always writes at address 2048. getByte reads back every byte of every stored message."
  },
  {
   "property": "C07",
   "status": "proved",
   "theorems": [
    "C07_power_loss_keeps_old_messages",
    "C07_atomic_visibility_refuted",
    "C07_scan_after_crash_refuted"
   ],
   "note": "Crash point = any prefix of the byte writes."
  },
  {
   "property": "C08",
   "status": "partial",
   "theorems": [
    "C08_replay_all_refuted",
    "C08_replay_cycle_partial",
    "C08_replay_in_order_partial"
   ],
   "note": "False of the code: message 0 is skipped; the exact cycle of messages 1..n-1 is proved, also for the whole controller on every schedule."
  },
  {
   "property": "C09",
   "status": "partial",
   "theorems": [
    "C09_scans_stay_inside_partial",
    "C09_arbitrary_contents_refuted"
   ],
   "note": "Proved for EEPROMs holding a log; a factory-fresh EEPROM is read out of bounds."
  },
  {
   "property": "C10",
   "status": "proved",
   "theorems": [
    "C10_wait_lasts_exactly",
    "C10_initially_done"
   ],
   "note": ""
  },
  {
   "property": "C11",
   "status": "partial",
   "theorems": [
    "C11_wait_across_wrap_refuted",
    "C11_wait_never_ends_refuted",
    "C11_wait_revives_refuted",
    "C11_between_wraps_partial"
   ],
   "note": "False of the code; true between two wraps, however many lie before; three families of counterexamples, each proved for every instance."
  },
  {
   "property": "C12",
   "status": "proved",
   "theorems": [
    "C12_done_iff_all_met",
    "C12_add_condition"
   ],
   "note": ""
  },
  {
   "property": "C13",
   "status": "proved",
   "theorems": [
    "C13_setOutput_drives_only_its_pin"
   ],
   "note": ""
  },
  {
   "property": "C14",
   "status": "partial",
   "theorems": [
    "C14_disciplined_use_is_safe_partial",
    "C14_no_bounds_checks_refuted"
   ],
   "note": "Safe exactly under the host discipline; the code has no bounds checks."
  },
  {
   "property": "C15",
   "status": "proved",
   "theorems": [
    "C15_each_call",
    "C15_frames_are_delivered_clean"
   ],
   "note": "Per byte and per frame; the quirk with ':' inside a comment is C16."
  },
  {
   "property": "C16",
   "status": "partial",
   "theorems": [
    "C16_comment_is_ignored_partial",
    "C16_comment_with_colon_refuted"
   ],
   "note": "True for comments without ':'; for every comment with ':' the code drops the command."
  },
  {
   "property": "C17",
   "status": "partial",
   "theorems": [
    "C17_receive_safe_iff_partial",
    "C17_long_frame_refuted"
   ],
   "note": "Exact characterisation of the streams that are received safely; all others overrun the buffer."
  },
  {
   "property": "C18",
   "status": "proved",
   "theorems": [
    "C18_case_insensitive",
    "C18_case_insensitive_component"
   ],
   "note": ""
  },
  {
   "property": "C19",
   "status": "proved",
   "theorems": [
    "C19_dispatch",
    "C19_boot_state"
   ],
   "note": "All cases, over every state that holds a queue and a log."
  },
  {
   "property": "C20",
   "status": "proved",
   "theorems": [
    "C20_commands_in_order",
    "C20_split_at_letters"
   ],
   "note": "Every sequence of commands / every text cut at capital letters."
  },
  {
   "property": "C21",
   "status": "proved",
   "theorems": [
    "C21_numbers_unchanged",
    "C21_integers_unchanged"
   ],
   "note": "The decimal number read is exact; its rounding to float is the C library's."
  },
  {
   "property": "C22",
   "status": "partial",
   "theorems": [
    "C22_safe_iff_partial",
    "C22_commands_safe_iff_partial",
    "C22_memory_unsafe_refuted",
    "C22_faults_refuted"
   ],
   "note": "False of the code; proved: the exact condition on text and machine state under which parse ends without fault, and the fault of each violation."
  },
  {
   "property": "C23",
   "status": "partial",
   "theorems": [
    "C23_unknown_inside_number_partial",
    "C23_trailing_unknown_refuted",
    "C23_glue_refuted",
    "C23_exponent_refuted",
    "C23_hexadecimal_refuted"
   ],
   "note": "True only when the unknown character is followed by a character inside the command; the two other positions lose or glue commands, for every command."
  },
  {
   "property": "C24",
   "status": "proved",
   "theorems": [
    "C24_reads_change_nothing",
    "C24_numbered_reads_change_nothing",
    "C24_outside_transaction",
    "C24_reads_only_read"
   ],
   "note": "Whole machine state is the same record before and after; the reply is given explicitly (number formatting abstract)."
  },
  {
   "property": "C25",
   "status": "proved",
   "theorems": [
    "C25_acknowledged_when_finished",
    "C25_acknowledged_exactly_once"
   ],
   "note": "For every interleaving of motion-controller steps, timer ticks and polls after the instruction."
  },
  {
   "property": "C26",
   "status": "proved",
   "theorems": [
    "C26_started_in_arrival_order",
    "C26_started_when_finished",
    "C26_queue_is_fifo",
    "C26_busy_poll_takes_nothing"
   ],
   "note": "Whole system (main loop, timer, serial port), every schedule, as long as the queue is never full (instructions arriving at a full queue are dropped, C19)."
  },
  {
   "property": "C27",
   "status": "proved",
   "theorems": [
    "C27_component_refines_spec",
    "C27_never_overruns"
   ],
   "note": "Over any number of power cycles; refinement of the whole protocol parser to a queue + log specification."
  },
  {
   "property": "C28",
   "status": "proved",
   "theorems": [
    "C28_monotone_to_target",
    "C28_stays_at_target",
    "C28_motion_is_defined",
    "C28_motion_ieee",
    "C28_stays_ieee"
   ],
   "note": "Exact arithmetic: every tick sequence, closed form of the position.  Binary32/64 arithmetic with rounding: the same up to M/4000000 rad (M bounds the limits), exact arrival at latest one millionth of the duration late."
  },
  {
   "property": "C29",
   "status": "proved",
   "theorems": [
    "C29_speed_in_range",
    "C29_request_in_range_is_used",
    "C29_speed_in_range_ieee",
    "C29_nan_is_stored"
   ],
   "note": "In exact arithmetic for every sequence of requests and in IEEE binary32 for every non-NaN request."
  },
  {
   "property": "C30",
   "status": "proved",
   "theorems": [
    "C30_pulse_in_calibration",
    "C30_pulse_monotone",
    "C30_pulse_ieee",
    "C30_pulse_monotone_ieee",
    "C30_kit_calibrated_ieee",
    "C30_recalibrated",
    "C30_pin"
   ],
   "note": "Exact arithmetic; with rounding inside the calibration, one microsecond less at most, and monotone; the servos of the shipped kit meet the hypotheses."
  },
  {
   "property": "C31",
   "status": "partial",
   "theorems": [
    "C31_tick_speed_limit_partial",
    "C31_speed_change_during_move_refuted",
    "C31_interrupt_race_refuted",
    "C31_tick_speed_limit_ieee_partial",
    "C31_system_speed_limit_ieee_partial",
    "C31_kit_ieee_partial"
   ],
   "note": "Proved for every history of ticks and uninterrupted moves; two families of counterexamples, for every servo. With the floats of the device: for the whole controller, whatever is received, every timer interrupt that does not fall into a call moves every joint by at most its maximum speed times 20 ms plus M/400000 rad, and nothing else moves it; for the kit 0.10473 rad. Missing: interrupts inside the calls (refuted)."
  },
  {
   "property": "C32",
   "status": "proved",
   "theorems": [
    "C32_all_or_none",
    "C32_never_outside",
    "C32_servos_stay_inside",
    "C32_system_never_outside",
    "C32_system_servos_inside",
    "C32_nan_refuted",
    "C32_servo_stays_inside_ieee",
    "C32_system_servos_inside_ieee",
    "C32_kit_ieee",
    "C32_joint_moves_ieee",
    "C32_kit_joint_moves_ieee"
   ],
   "note": "All-or-none and never outside for any arithmetic (IEEE included); in exact arithmetic over every history of calls and ticks the servos stay inside; both also for the whole controller, whatever arrives on the serial port. With rounding (binary32/64) the servos stay within M/4000000 rad of the limits over every history in which no NaN is commanded, and joint moves with finite targets never command one; the NaN hole is C32_nan_refuted."
  },
  {
   "property": "C33",
   "status": "proved",
   "theorems": [
    "C33_nothing_moves_inside",
    "C33_commit_pose",
    "C33_commit_angles"
   ],
   "note": "Any arithmetic, any calls inside the transaction."
  },
  {
   "property": "C34",
   "status": "proved",
   "theorems": [
    "C34_mixed_targets_move_nothing"
   ],
   "note": "Any arithmetic."
  },
  {
   "property": "C35",
   "status": "proved",
   "theorems": [
    "C35_synchronised",
    "C35_legal_target_is_executed",
    "C35_synchronised_ieee",
    "C35_kit_ieee",
    "C35_legal_target_is_executed_ieee",
    "C35_target_physical"
   ],
   "note": "Exact arithmetic: closed form of every joint's path, the duration is the least that the programmed speed and the servos' maximum speeds allow, and every legal target is executed. In the binary32/binary64 arithmetic of the device: every joint within d/100000 + 2 microradians of the ideal common path, the duration within 1/100000 of the ideal one; for the kit after every history of joint moves; a legal target with a joint at least 0.0002 rad away is executed."
  },
  {
   "property": "C36",
   "status": "proved",
   "theorems": [
    "C36_straight_line",
    "C36_spacing",
    "C36_possible_move_is_started",
    "C36_straight_line_ieee"
   ],
   "note": "Exact arithmetic, every schedule of polls and ticks; in the arithmetic of the device every way point within a millionth of the coordinates, the steps at most 0.5 + 10^-6 units (coordinates up to 10^6, an acosf that gives a number in [0,4] or none)."
  },
  {
   "property": "C37",
   "status": "proved",
   "theorems": [
    "C37_linear_move_ends",
    "C37_p2p_move_ends",
    "C37_servos_arrive",
    "C35_kit_ieee"
   ],
   "note": "Exact arithmetic. For joint moves also in the IEEE arithmetic of the device (last part of C35_kit_ieee): 1/100000 after the duration of the move the next poll finds the arm at rest."
  },
  {
   "property": "C38",
   "status": "proved",
   "theorems": [
    "C38_quiet_after_stop",
    "C38_servos_do_not_stop_refuted",
    "C38_runs_on_refuted"
   ],
   "note": "The controller is silent after stop(); the servos run on, for every commanded move."
  },
  {
   "property": "C39",
   "status": "partial",
   "theorems": [
    "C39_at_rest_partial",
    "C39_waypoint_partial",
    "C39_p2p_goes_elsewhere_refuted",
    "C39_linear_drives_off_refuted"
   ],
   "note": "False of the code when an earlier joint target is still stored; true at rest and for every single waypoint."
  },
  {
   "property": "C40",
   "status": "proved",
   "theorems": [
    "C40_kit",
    "C40_kit_current_physical",
    "C40_d_logical",
    "C40_d_within_limits",
    "C40_d_physical",
    "C40_d_current_physical",
    "C40_kit_no_nan",
    "C40_other_joints",
    "C40_kit_ieee",
    "C40_kit_current_physical_ieee"
   ],
   "note": "Both shipped configurations: the difference coupling of mp-robot-kit and the four-bar linkage of mp-robot-d, in exact arithmetic with NaN; the kit also in IEEE arithmetic (joint 2 to 2*10^-5 rad, the others bit for bit)."
  },
  {
   "property": "C41",
   "status": "proved",
   "theorems": [
    "C41_rigid_chain",
    "C41_position_is_tip",
    "C41_zero_pose",
    "C41_ieee_joints",
    "C41_ieee_position",
    "C41_ieee_rigid_chain",
    "C41_kit_position"
   ],
   "note": "Exactly in exact arithmetic, every geometry and joint vector; in IEEE arithmetic with a sin and cos accurate to 2^-22 every joint coordinate is within M/10000 of the exact chain, M the largest link component (0.0013 cm for the kit)."
  },
  {
   "property": "C42",
   "status": "proved",
   "theorems": [
    "C42_turning_the_base",
    "C42_turning_the_base_pose"
   ],
   "note": "Exact arithmetic; positions of all joints and the tool's orientation."
  },
  {
   "property": "C43",
   "status": "proved",
   "theorems": [
    "C43_reported_orientation",
    "C43_orthonormal",
    "C43_angle_ranges",
    "C43_forward_total",
    "C43_ieee_matrix",
    "C43_ieee_orientation"
   ],
   "note": "Exactly in exact arithmetic, including gimbal lock; in IEEE arithmetic the matrix to 1/30000 always, the reported angles to 1/250 per component of the orientation when the tool axis is not within 8 degrees of gimbal lock (near it the two extracted angles are separately ill-conditioned; not covered)."
  },
  {
   "property": "C44",
   "status": "partial",
   "theorems": [
    "C44_inverse_then_forward_partial",
    "C44_forward_inverse_is_identity",
    "C44_upward_tool_refuted",
    "C44_singular_ignores_rotation",
    "C44_singular_rotation_refuted"
   ],
   "note": "True for every geometry with a forearm along +x and a tool along -z (as in both shipped configurations). The documented constraints alone are not enough (the result is off by twice the tool length), and at the wrist singularity the rotation about the tool axis is ignored."
  },
  {
   "property": "C45",
   "status": "proved",
   "theorems": [
    "C45_output_only_on_success",
    "C45_ok_iff_reachable",
    "C45_finite_or_out_of_range_ieee"
   ],
   "note": "The first in any arithmetic, the second in exact arithmetic with NaN, the third in IEEE arithmetic for every geometry and pose, NaN and infinities included, with any math library whose acos, atan2 and fmod stay in their ranges."
  },
  {
   "property": "C46",
   "status": "partial",
   "theorems": [
    "C46_host_recovers_messages_partial",
    "C46_frames_only_partial",
    "C46_raw_line_refuted"
   ],
   "note": "False of the code: every P2P move writes a raw line.  Proved: a host that keeps the lines starting with ':' gets exactly the messages, whatever the logger writes in between; without the letter M the output is exactly the frames."
  },
  {
   "property": "C47",
   "status": "proved",
   "theorems": [
    "C47_serial_input",
    "C47_every_byte_is_read"
   ],
   "note": "Every schedule, with a bound on the steps of the main loop until a byte is read; the 64-byte hardware buffer of the UART is outside the model (unbounded)."
  },
  {
   "property": "C48",
   "status": "proved",
   "theorems": [
    "C48_conforming_host_is_safe"
   ],
   "note": "Any arithmetic and kinematics, every schedule; the only other fault, float-to-int conversion of a too large number, is not a memory access."
  },
  {
   "property": "C49",
   "status": "proved",
   "theorems": [
    "C49_acknowledgements_alternate",
    "C49_acknowledged_in_arrival_order"
   ],
   "note": "Whole system, every schedule."
  },
  {
   "property": "C50",
   "status": "partial",
   "theorems": [
    "C50_values_are_numbers_partial",
    "C50_non_number_refuted"
   ],
   "note": "True for texts without '+' and ','; with them NaN and infinity can be injected on every coordinate."
  },
  {
   "property": "C51",
   "status": "partial",
   "theorems": [
    "C51_new_command_wins_partial",
    "C51_current_position_ignored_refuted"
   ],
   "note": "True whenever the controller issues commands; a target equal to the current position is dropped."
  },
  {
   "property": "C52",
   "status": "proved",
   "theorems": [
    "C52_every_front_pose_is_accepted"
   ],
   "note": "Exact arithmetic with NaN."
  },
  {
   "property": "C53",
   "status": "proved",
   "theorems": [
    "C53_plannable_iff_reachable",
    "C53_step_reaches_waypoint",
    "C53_p2p_reaches_pose",
    "C53_p2p_legal_pose_is_executed",
    "C53_kit"
   ],
   "note": "Exact arithmetic; composition of the motion controller, the kinematics and the servos."
  },
  {
   "property": "C54",
   "status": "proved",
   "theorems": [
    "C54_only_received_instructions"
   ],
   "note": "Whole system, every schedule, every host that keeps to the frame format."
  },
  {
   "property": "C55",
   "status": "proved",
   "theorems": [
    "C55_flow_control"
   ],
   "note": "Whole system, every schedule; the credit is counted by what was sent and what was started (each start is reported to the host by a B message)."
  },
  {
   "property": "C56",
   "status": "proved",
   "theorems": [
    "C56_next_is_started"
   ],
   "note": "Whole system, every schedule."
  },
  {
   "property": "C57",
   "status": "partial",
   "theorems": [
    "C57_finished_means_arrived_partial",
    "C57_finished_means_arrived_ieee_partial",
    "C57_point_to_point_ieee_partial",
    "C57_kit_ieee_partial",
    "C57_emergency_refuted"
   ],
   "note": "False of the code with E frames; proved without them, on every schedule of less than 49.7 days (the servos' millisecond counters wrap), in exact arithmetic, and in IEEE arithmetic (10^-6 rad plus M/4000000) unless a NaN is commanded; for point-to-point hosts no NaN is commanded."
  },
  {
   "property": "C58",
   "status": "partial",
   "theorems": [
    "C58_axes_stay_inside_partial",
    "C58_axes_stay_inside_ieee_partial",
    "C58_target_unchecked_refuted",
    "C58_driven_out_refuted",
    "C58_not_awaited_refuted"
   ],
   "note": "False of the code: targets are not checked and arrival is not awaited.  Proved for hosts that command only targets inside the limits, in exact and in IEEE arithmetic."
  },
  {
   "property": "C59",
   "status": "proved",
   "theorems": [
    "C59_no_fault",
    "C59_point_to_point_ieee",
    "C59_kit_ieee"
   ],
   "note": "Whole system, every schedule.  C59_no_fault in exact arithmetic (with floats C61, C62 are counterexamples to the same claim, both with linear moves); in IEEE arithmetic for hosts that move point to point only, with any servo table, and for the kit with its own kinematics."
  },
  {
   "property": "C60",
   "status": "partial",
   "theorems": [
    "C60_reads_keep_acknowledgement_partial",
    "C60_acknowledgement_lost_refuted",
    "C60_acknowledgement_replaced_refuted"
   ],
   "note": "True for immediate read instructions; false for every immediate write instruction."
  },
  {
   "property": "C61",
   "status": "partial",
   "theorems": [
    "C61_zero_speed_refuted"
   ],
   "note": "False of the code: with V0 every accepted LINEAR move that only turns the tool gives all servos the speed NaN, and the next tick is undefined, for every robot and kinematics (IEEE floats).  For positive speeds: C59 (exact arithmetic)."
  },
  {
   "property": "C62",
   "status": "partial",
   "theorems": [
    "C62_keep_orientation_partial",
    "C62_keep_orientation_refuted"
   ],
   "note": "True in exact arithmetic; false with IEEE floats: with the tool turned down by 45 degrees planning is undefined, for every robot, kinematics, position and correct math library."
  },
  {
   "property": "C63",
   "status": "proved",
   "theorems": [
    "C63_instruction",
    "C63_controller",
    "C63_written_ieee",
    "C63_radians_ieee",
    "C63_axis_radians_ieee"
   ],
   "note": "Which value: every arithmetic; the specification (latest, written, method_given, pose_given, ...) is at the top of PropSettings.v.  How close the stored value is to the decimal number in the text: IEEE arithmetic."
  },
  {
   "property": "C64",
   "status": "proved",
   "theorems": [
    "C64_working_range",
    "C64_shafts_stay_in_range",
    "C64_commands_in_range",
    "C64_pulses",
    "C64_gripper",
    "C64_working_range_ieee"
   ],
   "note": "Acceptance and refusal, and the shafts' ranges, in exact arithmetic with the table's numbers written out in the specification; that no command names an angle outside its servo's range in every arithmetic, IEEE included.  C64_working_range_ieee: acceptance and refusal in the device's arithmetic for the decimal numbers the host writes, exact at the limits of each joint, with a margin of 0.0001 degrees where joints 1 and 2 are taken together (0.4 and 134.6 degrees, exactly 135 together, are refused: C64_kit_ieee_cases) and outside the range."
  },
  {
   "property": "C65",
   "status": "proved",
   "theorems": [
    "C65_picture",
    "C65_bars_inside",
    "C65_column",
    "C65_picture_ieee",
    "C65_kit_ieee"
   ],
   "note": "Exact arithmetic; and with the floats of the device (C65_picture_ieee, C65_kit_ieee for the shipped arm): defined, and every line, bar and box where the exact picture has it up to one pixel, if sin and cos are accurate to 2^-22 and no NaN has been commanded.  Each read of renderDisplay has its own state, seen at any moment of the schedule.  String(float,1) is a parameter; clipping is left to the display library."
  },
  {
   "property": "C66",
   "status": "proved",
   "theorems": [
    "C66_commands_inside",
    "C66_shafts_inside",
    "C66_interrupts_harmless",
    "C66_without_interrupts",
    "C66_shafts_inside_ieee",
    "C66_tick_defined_ieee",
    "C66_kit_ieee",
    "C66_system_commands_inside",
    "C66_system_shafts_inside",
    "C66_kit_system_ieee",
    "C66_system_without_interrupts"
   ],
   "note": "For the motion controller and for the whole controller (C66_system_*: any bytes, any schedule).  Commands in every arithmetic; shafts, pulses and definedness in exact arithmetic, and in IEEE arithmetic to M/4000000 rad and 1 us unless a NaN is commanded.  Interrupts are placed between the accesses to the servos, the only data shared with the interrupt."
  },
  {
   "property": "C67",
   "status": "partial",
   "theorems": [
    "C67_finished_partial",
    "C67_race_refuted"
   ],
   "note": "False of the code: an interrupt between the first two statements of setTargetRadAngle throws a moving servo towards its old target; if it lands on the new one, process() reports the move finished before the servo is taken back.  True if an interrupt comes between the commands and the next call of process() (exact arithmetic)."
  },
  {
   "property": "C68",
   "status": "partial",
   "theorems": [
    "C68_pose_partial",
    "C68_angles_partial",
    "C68_between_partial",
    "C68_torn_read_refuted"
   ],
   "note": "False of the code: the six joints are read one after the other with interrupts on, so an interrupt between two reads gives a position the robot never had.  Proved: each joint's angle was that joint's angle at some moment of the call (every arithmetic); in exact arithmetic it lies between the angles before and after the call."
  },
  {
   "property": "C69",
   "status": "proved",
   "theorems": [
    "C69_answer_is_an_instruction",
    "C69_answer_restores",
    "C69_two_places",
    "C69_kit_joints"
   ],
   "note": "IEEE arithmetic.  String(double) is a parameter with a stated accuracy (C69_two_places: rounding to two decimals has it with 1/200); quantities read are numbers, angles up to 100 rad, the rest up to 99999, always so for the kit's joints (C69_kit_joints).  A reading of infinity or NaN is not covered, nor the method CIRCULAR, which no command sets."
  },
  {
   "property": "C70",
   "status": "partial",
   "theorems": [
    "C70_nothing_visible_refuted",
    "C70_column_refuted",
    "C70_defined_partial",
    "C70_shipped",
    "C70_screen_refuted",
    "C70_screen_shipped"
   ],
   "note": "False of the code: for every arm in the x-z plane, and so for both shipped ones, all lines are drawn on row 32, one below the last row of the 128x32 screen; for a column (no reach sideways) the scale is 20/0 and the conversion to a pixel is undefined.  Proved: for every planar arm that reaches to the right the start is defined, and the lines are the arm to scale, on that row.  On the pixels (C70_screen_refuted, C70_screen_shipped): after setup exactly the word STARTING is lit, of the arm nothing."
  },
  {
   "property": "C71",
   "status": "partial",
   "theorems": [
    "C71_never_outside",
    "C71_ends_partial",
    "C71_hang_refuted",
    "C71_pixels"
   ],
   "note": "Nothing is ever accessed outside (no restriction).  Ending is false of the code: the loop counters are int16_t, so a line or a filled rectangle that reaches coordinate 32767 never ends (C71_hang_refuted: exactly these).  The pixels are proved for lines whose ends are less than 32768 apart in each direction, rectangles that do not reach that coordinate, and texts that fit in their line (a longer one wraps, C72)."
  },
  {
   "property": "C72",
   "status": "partial",
   "theorems": [
    "C72_on_the_screen_partial",
    "C72_long_text_refuted",
    "C65_picture_ieee"
   ],
   "note": "Composition of C65, C71 and C73, in exact arithmetic and (last part of C65_picture_ieee) with the floats of the device.  Restricted to counters of stored instructions up to 999 and a speed printed in at most 15 characters; false beyond: a text of ten or more characters at column 72 goes on at the left border, over the arm (C72_long_text_refuted)."
  },
  {
   "property": "C73",
   "status": "proved",
   "theorems": [
    "C73_sent"
   ],
   "note": "The transmissions after the addressing commands; the I2C bus itself is not modelled."
  },
  {
   "property": "C74",
   "status": "partial",
   "theorems": [
    "C74_never_outside",
    "C74_defined_partial",
    "C74_defined_ieee_partial",
    "C74_negative_refuted"
   ],
   "note": "Nothing is accessed outside (no restriction, every arithmetic).  Defined is false of the code: with w and s the pulse can be driven below zero and recording it converts a negative float to unsigned int (C74_negative_refuted, on the shipped table).  Proved while the selected row is plausible (pulses 1..32000 us, 0 between the angles), in exact and IEEE arithmetic."
  },
  {
   "property": "C75",
   "status": "proved",
   "theorems": [
    "C75_printed",
    "C75_same_pulses"
   ],
   "note": "Every arithmetic; printing of numbers to decimals is C79."
  },
  {
   "property": "C76",
   "status": "proved",
   "theorems": [
    "C76_only_selected",
    "C76_config_kept",
    "C76_adjust",
    "C76_selects"
   ],
   "note": "C76_adjust in exact arithmetic (one degree up to 10^-20, the product of the constants DEG_TO_RAD and RAD_TO_DEG), the others in every arithmetic."
  },
  {
   "property": "C77",
   "status": "partial",
   "theorems": [
    "C77_no_limit_refuted",
    "C77_no_limit_ieee_refuted",
    "C77_within_partial",
    "C77_within_ieee_partial",
    "C77_without_ws_partial",
    "C77_without_ws_ieee_partial",
    "C77_shipped_ieee_partial"
   ],
   "note": "False of the code: the limits are applied to a variable that is not used, w drives the servo as far as one likes.  Proved: never more than 10 us outside the range in which the table stays, and on histories without w and s within the range of the table up to 1 us; the shipped table as a case."
  },
  {
   "property": "C78",
   "status": "partial",
   "theorems": [
    "C78_moves_exact",
    "C78_moves_ieee_partial",
    "C78_recorded",
    "C78_maximum_refuted"
   ],
   "note": "True in exact arithmetic.  With the floats of the device a is exact, d can stop one microsecond short (C78_maximum_refuted: sixth servo of the shipped table, maximum angle decreased by five degrees), q is within 1.1 us of the line."
  },
  {
   "property": "C79",
   "status": "proved",
   "theorems": [
    "C79_rounded_exact"
   ],
   "note": "Exact arithmetic; any rounding within 0.005 degrees, any servo with at most 8000 us per radian (the shipped ones have less than 800)."
  },
  {
   "property": "C80",
   "status": "partial",
   "theorems": [
    "C80_status",
    "C80_after_move",
    "C80_moving_refuted"
   ],
   "note": "The status line: proved, exact arithmetic.  The line 'moving to angle: x degree' prints radians (C80_moving_refuted)."
  },
  {
   "property": "C81",
   "status": "proved",
   "theorems": [
    "C81_working_range",
    "C81_bar",
    "C81_crank",
    "C81_shafts_stay_in_range",
    "C81_commands_in_range",
    "C81_pulses"
   ],
   "note": "Exact arithmetic (C81_commands_in_range: every arithmetic).  C81_bar: the code's angle is the one solution of the linkage for joint angles between -30 and 60 degrees, wider than the limits.  C81_crank: over every history the crank stays where the linkage can be computed backwards, because the servos move in step (Crank.v), also when a move is interrupted by the next."
  },
  {
   "property": "C82",
   "status": "proved",
   "theorems": [
    "C82_as_if_unbounded",
    "C82_nothing_lost",
    "C82_thirty_per_iteration",
    "C82_overrun"
   ],
   "note": "Every arithmetic, faulting runs included (C82_as_if_unbounded).  C82_overrun: what is lost without the condition, e.g. while the display is drawn.  All theorems about the whole controller (C26, C46-C49, ...) carry over to a paced host through C82_as_if_unbounded."
  },
  {
   "property": "C83",
   "status": "proved",
   "theorems": [
    "C83_log",
    "C83_shipped",
    "C83_unterminated",
    "C83_host"
   ],
   "note": "Every configuration of the preprocessor.  The level of a warning is spelled WARING.  C83_unterminated: a char pointer without NUL is read beyond its memory exactly if the message is shown."
  },
  {
   "property": "C84",
   "status": "partial",
   "theorems": [
    "C84_test_mark_refuted"
   ],
   "note": "False of the code in every configuration: the wrappers are compiled out below the level, so the mark never changes anything and at level 0 nothing is printed."
  },
  {
   "property": "C85",
   "status": "proved",
   "theorems": [
    "C85_stopwatch"
   ],
   "note": "The readings of micros() are arguments of the call; with DEBUG off nothing is printed."
  }
 ]
}