{"id": "C01", "title": "Splitting a string loses nothing", "statement": "SplitString(s, seps) returns pieces none of which contains a separator character, one more piece than there are separator characters in s, and gluing the pieces back together with the separators that stood between them gives s.", "quantifier": "every string and every set of separator characters", "why_tests_cant": "the input space is unbounded; a table of examples cannot exclude a dropped trailing piece or a merged empty piece for some string", "anchors": ["src/common/string-util.cc:SplitString"]}
{"id": "C02", "title": "Trimming removes exactly the surrounding white space", "statement": "TrimWhitespace(s) is the part of s left after removing the longest run of white space at each end: it neither begins nor ends with white space, and s is that text with only white space around it; trimming twice is trimming once.", "quantifier": "every string", "why_tests_cant": "unbounded inputs; all-blank and one-character strings are boundary cases among infinitely many", "anchors": ["src/common/string-util.cc:TrimWhitespace"]}
{"id": "C03", "title": "Lines received do not depend on how the bytes arrive", "statement": "Reading a byte stream through LinebufReader yields the same sequence of lines (and the same unfinished rest) whatever the sizes of the individual read() results, as long as no line is longer than half the buffer: namely the stream cut at line ends, with blank lines dropped as the reader's line-end rule says.", "quantifier": "every byte stream, every way of cutting it into read() chunks, every buffer length", "why_tests_cant": "the number of chunkings is exponential in the stream length; a test fixes one", "anchors": ["src/common/linebuf-reader.cc:Update, ReadAndConsumeLine, IncompleteLine", "src/common/linebuf-reader.h"]}
{"id": "C04", "title": "The line buffer never grows beyond its memory", "statement": "Whatever sequence of Update/ReadLine/IncompleteLine/Flush calls a client makes, LinebufReader only writes inside its allocated buffer; the one exception is that IncompleteLine on a completely full buffer writes one byte past the end.", "quantifier": "every history of calls and every read() result", "why_tests_cant": "memory safety over every call history; a test only shows the histories it runs", "anchors": ["src/common/linebuf-reader.cc:Update, IncompleteLine", "src/common/linebuf-reader.h:LinebufReader"]}
{"id": "C05", "title": "Carriage returns and line feeds end lines consistently", "statement": "A stream whose lines end in LF and the same stream with every LF replaced by CR LF are read as the same lines, also when CR and LF arrive in different read() chunks. (A lone CR followed later by an LF-terminated line makes the reader swallow that line; this is recorded as a finding.)", "quantifier": "every stream of lines and every chunking", "why_tests_cant": "the CR/LF state is carried across chunks; the chunk boundary positions are unbounded", "anchors": ["src/common/linebuf-reader.cc:ReadAndConsumeLine"]}
{"id": "C06", "title": "RingDeque behaves like a bounded double-ended list", "statement": "Any sequence of append, pop_front, pop_back and indexed access on a RingDeque that stays within its capacity gives the same results as the same operations on an ordinary list, no matter how often the positions wrapped around; capacity is one less than the template argument.", "quantifier": "every capacity and every sequence of operations", "why_tests_cant": "wrap-around state depends on the whole operation history", "anchors": ["src/common/container.h:RingDeque"]}
{"id": "C07", "title": "The keyword lexer finds the longest keyword", "statement": "SimpleLexer::MatchNext consumes exactly the longest registered keyword that is a (case-insensitive) prefix of the input after leading white space, returns its token, skips following white space, and consumes nothing and reports no match if no keyword is a prefix; it never looks past the terminating NUL.", "quantifier": "every set of registered keywords and every input string", "why_tests_cant": "quantifies over all keyword sets and all inputs", "anchors": ["src/gcode-parser/simple-lexer.h", "src/gcode-parser/simple-lexer.cc:AddKeyword, ConsumeKeyword"]}
{"id": "C08", "title": "Event loop calls the right handlers and forgets finished ones", "statement": "FDMultiplexer: registering a second handler for a descriptor already registered for the same direction is refused and leaves the first in place; in one cycle every registered handler whose descriptor is ready is called exactly once and no other handler is called; a handler is unregistered exactly when it returned false; the loop ends when no descriptor is registered any more; idle handlers run exactly on timeouts.", "quantifier": "every registration history, every set of ready descriptors per cycle and every handler return value", "why_tests_cant": "the schedule of ready descriptors and handler results is unbounded", "anchors": ["src/common/fd-mux.cc:RunOnReadable, RunOnWritable, CallHandlers, SingleCycle, Loop"]}
{"id": "C09", "title": "Every received G-code line is executed once and in order", "statement": "For a connected stream GCodeStreamer hands each complete received line to the parser exactly once and in the order received, hands over a trailing unterminated line at end of stream, then reports end of stream exactly once, and refuses a second connection while one is active.", "quantifier": "every stream content, chunking and sequence of readable/idle events", "why_tests_cant": "depends on the interleaving of reads, idle events and the buffer state", "anchors": ["src/gcode-parser/gcode-streamer.cc:ConnectStream, ReadData, Timeout, CloseStream"]}
{"id": "C10", "title": "Configuration lines are delivered completely and in order", "statement": "For a configuration text whose lines all end in LF, the reader is told every section and every name/value pair once, in file order, with lower-cased names, trimmed values, comments removed and the right line number; settings in sections the reader declined are not delivered; the overall result is success exactly if no delivered setting was refused and no line was malformed.", "quantifier": "every configuration text and every reader (accept/refuse behaviour)", "why_tests_cant": "unbounded inputs and arbitrary reader behaviour", "anchors": ["src/config-parser.cc:EmitConfigValues, NextLine, CanonicalizeName", "src/config-parser.h"]}
{"id": "C11", "title": "Configuration arithmetic is left to right", "statement": "A configuration value made of numbers, '*', '/' and parentheses (starting with a number) evaluates to the usual left-associative value of that expression and is accepted if it is not negative, and anything left over after the expression makes the value be rejected.", "quantifier": "every expression tree, of any depth", "why_tests_cant": "unbounded nesting", "anchors": ["src/config-parser.cc:ParseDoubleExpression, ParseFloatExpr"]}
{"id": "C12", "title": "Expression values follow operator precedence", "statement": "The value of a bracketed expression is the value given by the documented precedence (** binds tightest, then * / MOD, then + - OR XOR AND, then comparisons), operators of equal precedence grouping to the left, for any number of operators.", "quantifier": "every expression built from values and binary operators, of any length", "why_tests_cant": "unbounded expression length; the evaluator's reduce/shift decisions depend on the whole prefix", "anchors": ["src/gcode-parser/gcode-parser.cc:gcodep_expression, op_precedence, execute_binary"]}
{"id": "C13", "title": "Expression evaluation stays inside its operand stack", "statement": "Evaluating any bracketed expression in which each pair of brackets contains at most one minus sign applied to something other than a number literal never overruns the fixed six-slot operand stack, and the evaluation ends. (With two such signs, as in [1 EQ 1 + 2 ** -#1 ** -#1], the stack is overrun; recorded as a finding.)", "quantifier": "every expression text", "why_tests_cant": "memory safety must hold for every input line a client can send", "anchors": ["src/gcode-parser/gcode-parser.cc:gcodep_expression (MAX_STACK)"]}
{"id": "C14", "title": "Parsing a block always makes progress and ends inside the line", "statement": "Every successful word read from a G-code line consumes at least one character and leaves the reader within the line. A line without WHILE whose comments are closed, that has no '?' and no two minus signs on non-literals in the same brackets is parsed to its end without reading or writing outside an object, and so is every file of such lines. (An unclosed '(' comment reads past the end of the line, an incomplete '?' choice prints through a wrong pointer and a WHILE inside a WHILE changes the text being executed; recorded as findings.)", "quantifier": "every line of text and every parameter table", "why_tests_cant": "termination and bounds for every input", "anchors": ["src/gcode-parser/gcode-parser.cc:parse_pair, ParseBlock, gcodep_value"]}
{"id": "C15", "title": "Receiver protocol", "statement": "For any sequence of lines and files given to the parser, and any answers of the receiver: the receiver sees gcode_start before anything else of a program and never within one; actions and completed commands come only within a program; gcode_finished(false) comes exactly for M2/M30, followed by the reset of offset, speed factor, fan and heater; every line ends with gcode_block_done, a line without WHILE reports it exactly once and a file reports gcode_finished(true) exactly once, at its end. (A program that starts inside a WHILE loop passes a never initialised parser pointer to gcode_start; recorded as a finding.)", "quantifier": "every history of lines", "why_tests_cant": "protocol over unbounded event histories", "anchors": ["src/gcode-parser/gcode-parser.cc:ParseBlock, finish_program_and_reset, ReadFile", "src/gcode-parser/gcode-parser.h:EventReceiver"]}
{"id": "C16", "title": "Coordinates are resolved against units, mode and origin", "statement": "A commanded axis value v moves to origin + scale*unit*v in absolute mode and to current + scale*unit*v in relative mode (E following its own M82/M83 mode, rotary axes never scaled by inch units), where origin is the active work coordinate system plus the G92 offset; axes not mentioned keep their position.", "quantifier": "every parser state and every move command", "why_tests_cant": "state space of modes, origins and positions is unbounded", "anchors": ["src/gcode-parser/gcode-parser.cc:abs_axis_pos, unit_to_mm, handle_move"]}
{"id": "C17", "title": "G92 renames the current position", "statement": "After G92 Xv (scale 1, exact arithmetic) the machine has not moved and commanding absolute Xv targets exactly the current position; G92.1 clears the offset, G92.2 suspends and G92.3 restores it, so suspend followed by restore is the identity.", "quantifier": "every parser state and value", "why_tests_cant": "history of offsets is unbounded", "anchors": ["src/gcode-parser/gcode-parser.cc:handle_G92, set_current_offset"]}
{"id": "C18", "title": "Work coordinate systems are independent and persistent in the parameter table", "statement": "G10 L2 Pn writes only the offset of coordinate system n (parameters 5201+20n.. for the mentioned axes), G54..G59.3 select system 1..9 and record the choice in parameter 5220, and switching back and forth restores the same origin.", "quantifier": "every state, system number and axis set", "why_tests_cant": "unbounded histories of system changes", "anchors": ["src/gcode-parser/gcode-parser.cc:handle_G10, change_coord_system, InitCoordSystems"]}
{"id": "C19", "title": "Parameters read back what was stored", "statement": "A numbered parameter 1..5399 or a named parameter reads back the value last assigned to it and no assignment changes another one; names are case-insensitive; #0 always reads 0 and assignments to it, or to numbers of 5400 and above, have no effect; an unset parameter reads 0.", "quantifier": "every history of assignments", "why_tests_cant": "unbounded histories and key space", "anchors": ["src/gcode-parser/gcode-parser.cc:read_parameter, store_parameter, read_param_name"]}
{"id": "C20", "title": "A refused move leaves the position unchanged", "statement": "If the machine refuses a G0/G1 move (returns false), the parser's notion of the current position is exactly what it was, so the next relative move starts from the true position. (A refused modal continuation - axis words without G - does change it; recorded as a finding.)", "quantifier": "every parser state, command and receiver behaviour", "why_tests_cant": "receiver refusals can happen at any point of any history", "anchors": ["src/gcode-parser/gcode-parser.cc:handle_move, ParseBlock"]}
{"id": "C21", "title": "Arcs and splines end exactly on the commanded point", "statement": "Every G2/G3 arc and G5 spline that the machine accepts is delivered as a finite, non-empty sequence of moves whose last point equals the commanded end point exactly, and delivery stops at the first refused move.", "quantifier": "every start, centre, end point and receiver behaviour, whatever the floating-point rounding", "why_tests_cant": "independent of rounding; segment counts are unbounded", "anchors": ["src/gcode-parser/arc-gen.cc:arc_gen, spline_gen", "src/gcode-parser/gcode-parser.h:arc_move, spline_move"]}
{"id": "C22", "title": "End of program restores the default modes", "statement": "After M2/M30 the next program starts in millimetres, absolute mode, XY plane, scale 1 and with the G92 offset cleared, whatever the previous program had set.", "quantifier": "every program history", "why_tests_cant": "every prior history of modal commands", "anchors": ["src/gcode-parser/gcode-parser.cc:InitProgramDefaults, finish_program_and_reset"]}
{"id": "C23", "title": "Homing sets exactly the requested axes to the machine origin", "statement": "G28 with axis letters homes exactly these axes, without letters all axes; after it the parser position of the homed axes is the machine origin and every other axis is unchanged.", "quantifier": "every state and axis set", "why_tests_cant": "unbounded states", "anchors": ["src/gcode-parser/gcode-parser.cc:handle_home"]}
{"id": "C24", "title": "A crash while saving parameters never loses them all", "statement": "If saving the parameter file is interrupted at any point, the directory still contains a complete copy of the previous parameters (as the file or as its .bak) or of the new ones; the main file never holds partial content; if saving succeeds the main file holds the new and .bak the previous content. (Between the two renames the main file is absent; recorded as a finding.)", "quantifier": "every crash point, every previous directory state and every parameter table", "why_tests_cant": "crash points cannot be enumerated by a unit test without fault injection", "anchors": ["src/gcode-parser/gcode-parser-config.cc:SaveParams"]}
{"id": "C25", "title": "Saved parameters load back", "statement": "Loading the file written by SaveParams gives back every saved numbered and _named parameter whose value survives six-decimal printing; zero values, parameter 0 and names not starting with a digit or underscore are not saved.", "quantifier": "every parameter table with printable values and digit or underscore keys", "why_tests_cant": "unbounded tables", "anchors": ["src/gcode-parser/gcode-parser-config.cc:LoadParams, SaveParams"]}
{"id": "C26", "title": "No step is lost or invented by planning", "statement": "For any sequence of accepted moves and halts, the steps sent to a motor add up to the difference between the rounded step position of the last target and that of the first position, whatever speeds, accelerations, junction speeds and lookahead were used. Setting the position of an axis tells it to the motors of this axis and to no others; so do the home positions at the start.", "quantifier": "every history of moves, halts and lookahead settings, whatever the floating-point speed computations return", "why_tests_cant": "drift would only show after long histories", "anchors": ["src/planner.cc:machine_move, issue_motor_move_if_possible, subtract_steps, DirectDrive, SetExternalPosition"]}
{"id": "C27", "title": "The planning buffer never overflows", "statement": "With a lookahead setting of at most 1023 the planner's buffer never exceeds its capacity for any number of moves. (With the default and maximum setting of 1024 it does; recorded as a finding.)", "quantifier": "every history of moves and lookahead changes", "why_tests_cant": "needs about a thousand unflushed moves with arbitrary content", "anchors": ["src/planner.cc:Planner::Impl (PLANNING_BUFFER_CAPACITY), machine_move, issue_motor_move_if_possible, SetLookahead", "src/common/container.h:RingDeque"]}
{"id": "C28", "title": "Bringing the path to a halt flushes everything", "statement": "After BringPathToHalt all planned moves have been sent to the motors completely and in order, and a second call sends nothing.", "quantifier": "every planner state", "why_tests_cant": "all buffer contents", "anchors": ["src/planner.cc:bring_path_to_halt, issue_motor_move_if_possible"]}
{"id": "C29", "title": "Speed is continuous along the path", "statement": "The motor commands sent for a path join without a jump of the speed of the axis with most steps: at each joint the speed changes by no more than a few steps of an acceleration with the configured limits change it, however many moves are planned together and in whatever order they are sent; the first command starts from standstill and after a halt the last one ends there.", "quantifier": "every sequence of moves, halts, position and lookahead changes on a machine with sane limits, if where the axis with most steps changes the path turns by more than 45 degrees", "why_tests_cant": "unbounded paths, and rounding errors in every plan", "anchors": ["src/planner.cc:UpdateMotionProfile, AccelerationPlanSegment, DecelerationPlanSegment, issue_motor_move_if_possible"]}
{"id": "C30", "title": "Splitting a long move keeps every step", "statement": "A move of any size enqueued at the motor-operations level is sent as pieces whose steps add up exactly to the requested steps for every motor.", "quantifier": "every 8-tuple of step counts within 31 bits", "why_tests_cant": "2^256 inputs; the fixed-point correction is only exact for reasons of arithmetic", "anchors": ["src/motion-queue-motor-operations.cc:Enqueue"]}
{"id": "C31", "title": "Every piece fits the hardware format", "statement": "Each piece has at most 32767 steps on any motor, so loop counts fit 16 bits and fractions fit 31 bits and no field is truncated.", "quantifier": "every move", "why_tests_cant": "boundary arithmetic over all inputs", "anchors": ["src/motion-queue-motor-operations.cc:Enqueue, EnqueueInternal", "src/motion-queue.h:MotionSegment"]}
{"id": "C32", "title": "The firmware produces exactly the requested pulses", "statement": "For a hardware segment made from step counts, the realtime unit emits exactly |steps| rising edges on the step line of each motor, in the direction given by the sign and the motor's mirror setting, provided no computed delay hits the firmware's stop value.", "quantifier": "every segment, all eight motors", "why_tests_cant": "fixed-point accumulation over up to 65535 loops for every ratio of step counts", "anchors": ["src/motor-interface-pru.p:STEP_GEN, CalculateDelay", "src/motion-queue-motor-operations.cc:EnqueueInternal"]}
{"id": "C33", "title": "End to end: a move of n steps turns the motor by n steps", "statement": "From the motor-operations call to the step pins: for every requested move every motor is stepped in total by exactly its signed step count.", "quantifier": "every move of any length", "why_tests_cant": "composition over all splits and fractions", "anchors": ["src/motion-queue-motor-operations.cc", "src/motor-interface-pru.p"]}
{"id": "C34", "title": "Firmware division is exact", "statement": "The firmware's shift-subtract division returns quotient and remainder for every 32-bit dividend and every non-zero 32-bit divisor.", "quantifier": "all 32-bit dividends and all 32-bit divisors except 0", "why_tests_cant": "2^64 cases", "anchors": ["src/idiv.hp"]}
{"id": "C35", "title": "Reported position is exact at rest and bounded in motion", "statement": "When the queue is idle the reported position equals the sum of all steps enqueued since the last external position; while a segment runs, it lies between the start and end position of that segment and moves monotonically with progress.", "quantifier": "every history of enqueues and every progress value", "why_tests_cant": "depends on the whole history and on the progress counter", "anchors": ["src/motion-queue-motor-operations.cc:GetPhysicalStatus, SetExternalPosition, EnqueueInternal"]}
{"id": "C36", "title": "The simulator and the firmware agree", "statement": "The simulated firmware counts the same signed steps per motor as the realtime firmware emits, for every segment.", "quantifier": "every segment", "why_tests_cant": "all segments", "anchors": ["src/sim-firmware.cc:Enqueue", "src/motor-interface-pru.p"]}
{"id": "C37", "title": "The host/firmware queue is first-in first-out and lossless", "statement": "For every interleaving of host and firmware steps, without an emergency stop, the firmware executes exactly the enqueued segments, each once, in order, with the content the host wrote (no torn element, no overwritten pending element).", "quantifier": "every interleaving and every sequence of segments, for any number of wrap-arounds", "why_tests_cant": "concurrency: the schedules are unbounded", "anchors": ["src/pru-motion-queue.cc:Enqueue, GetPendingElements", "src/motor-interface-pru.p:QUEUE_READ"]}
{"id": "C38", "title": "Pending count", "statement": "While the firmware's status word is current, GetPendingElements returns the number of elements not yet completed, and zero if and only if all are completed. (Between completing an element and starting the next the status word is stale and a refilled ring is reported as one pending element; recorded as a finding.)", "quantifier": "every interleaving", "why_tests_cant": "concurrency", "anchors": ["src/pru-motion-queue.cc:GetPendingElements", "src/motor-interface-pru.p:UpdateQueueStatus"]}
{"id": "C39", "title": "Orderly shutdown executes everything first", "statement": "Shutdown with flushing returns only after all previously enqueued segments have been executed and the firmware has halted.", "quantifier": "every interleaving", "why_tests_cant": "concurrency", "anchors": ["src/pru-motion-queue.cc:Shutdown, WaitQueueEmpty", "src/motor-interface-pru.p:FINISH"]}
{"id": "C40", "title": "After an emergency stop nothing queued is executed", "statement": "Once the firmware sees the emergency stop active, no queued segment is executed while it stays active; the host is told (Enqueue returns false) when it reaches an aborted slot.", "quantifier": "every interleaving and every moment of the stop", "why_tests_cant": "asynchronous event at any time", "anchors": ["src/motor-interface-pru.p:STEP_GEN, STEP_GEN_ABORTED", "src/pru-motion-queue.cc:Enqueue, ClearPRUAbort"]}
{"id": "C41", "title": "A motor belongs to at most one axis", "statement": "After any sequence of motor mappings every motor connector drives at most one axis, a second mapping of the same connector is refused without effect, and the automatically chosen motor is always a free one.", "quantifier": "every sequence of mapping calls", "why_tests_cant": "histories", "anchors": ["src/hardware-mapping.cc:AddMotorMapping, GetFirstFreeMotor"]}
{"id": "C42", "title": "Steps go to exactly the motors of the axis", "statement": "Assigning steps of an axis sets exactly the motors mapped to it and leaves others untouched; reading the axis position back from the motor positions returns the position of one of its motors, or zero if it has none.", "quantifier": "every mapping and position", "why_tests_cant": "all mappings", "anchors": ["src/hardware-mapping.cc:AssignMotorSteps, GetAxisSteps"]}
{"id": "C43", "title": "Switching one output leaves the others alone", "statement": "Switching an auxiliary pin or a named output on or off changes exactly the bits mapped to it; reading a pin back gives the value last set.", "quantifier": "every history of output changes", "why_tests_cant": "histories", "anchors": ["src/hardware-mapping.cc:UpdateAuxBits, UpdateAuxBitmap, GetAuxBit"]}
{"id": "C44", "title": "Switch readings are debounced", "statement": "A switch is only reported as triggered or open after three consecutive equal readings of its level; an unconfigured switch gives the default answer without reading hardware. Which switch is the emergency stop, pause, start or probe switch or the end of an axis, and at which level it counts as triggered, is what the configuration said last.", "quantifier": "every sequence of raw pin readings, every history of accepted configuration lines and calls", "why_tests_cant": "infinitely many bounce patterns", "anchors": ["src/hardware-mapping.cc:TestSwitch"]}
{"id": "C45", "title": "Motors cannot be enabled in emergency stop", "statement": "While the software emergency stop is set no call enables the motors; the stop is set from start-up until explicitly cleared.", "quantifier": "every history of calls", "why_tests_cant": "histories", "anchors": ["src/hardware-mapping.cc:EnableMotors, UpdateAuxBitmap, InitializeHardware"]}
{"id": "C46", "title": "No move is planned unless homed, in range and not stopped", "statement": "Whatever the event history, a G-code move reaches the planner only if the machine is homed (or homing is not required), not in emergency stop and, with range checks on, every linear coordinate is within the machine limits (for coordinates that are numbers). (A NaN coordinate passes the range check; recorded as a finding.)", "quantifier": "every event history and every configuration", "why_tests_cant": "unbounded histories; asynchronous switch readings", "anchors": ["src/gcode-machine-control.cc:coordinated_move, rapid_move, move_allowed_*"]}
{"id": "C47", "title": "Emergency stop latches", "statement": "An emergency stop (M0, or the switch read as pressed) switches off spindle, outputs and motors; the machine then stays stopped, unhomed and without motor power until M999 or G28 is received while the switch reads released. (Spindle and outputs can be switched on again by M3, M64 etc. while stopped; recorded as a finding.)", "quantifier": "every event history and switch behaviour", "why_tests_cant": "asynchronous switch, arbitrary histories", "anchors": ["src/gcode-machine-control.cc:set_estop, clear_estop, check_for_estop, go_home"]}
{"id": "C48", "title": "Homing confidence only rises by homing", "statement": "The homing state becomes 'homed' only through a completed G28, drops to 'motors unpowered' when motors are disabled and to 'never homed' by an emergency stop, and nothing else changes it.", "quantifier": "every event history", "why_tests_cant": "histories", "anchors": ["src/gcode-machine-control.cc:go_home, motors_enable, set_estop"]}
{"id": "C49", "title": "Homing really reaches the switch", "statement": "If no emergency stop is seen, homing an axis ends with the switch just released after having been triggered, and the axis position is set to the configured home position. (An emergency stop pressed and released during homing leaves the machine marked as homed; recorded as a finding.)", "quantifier": "every behaviour of the switches over time", "why_tests_cant": "asynchronous environment", "anchors": ["src/gcode-machine-control.cc:move_to_endstop, home_axis, go_home"]}
{"id": "C50", "title": "Clamping only affects configured axes", "statement": "Clamping changes a target only if every axis mentioned in the command is configured for clamping (only Z can be); then it changes no other axis than Z, leaves values within the machine range as they are, and the result is within the range.", "quantifier": "every target and configuration", "why_tests_cant": "all inputs", "anchors": ["src/gcode-machine-control.cc:clamp_to_range"]}
{"id": "C51", "title": "Feedrate rules", "statement": "A G1 move is refused until a positive feedrate has been given; speed factors below 0.5% are refused; the feedrate used is the last positive one given times the configured and programmed factors. (If the first feedrate is given with G0, later G1 moves get the programmed factor twice; recorded as a finding.)", "quantifier": "every event history", "why_tests_cant": "histories", "anchors": ["src/gcode-machine-control.cc:coordinated_move, rapid_move, set_speed_factor"]}
{"id": "C52", "title": "Idle motors are switched off once", "statement": "With automatic motor shut-off configured, motors are disabled at the first idle event not earlier than the configured time after input became idle, once per idle period, and never earlier.", "quantifier": "every sequence of idle events and clock values", "why_tests_cant": "histories and clock schedules", "anchors": ["src/gcode-machine-control.cc:input_idle"]}
{"id": "C53", "title": "Spindle direction changes only at standstill", "statement": "The spindle direction output only changes while the spindle PWM is zero, the PWM value is always within 0..1, Off always ends with zero PWM and power off, and counter-clockwise is never selected if not allowed.", "quantifier": "every history of On/Off calls", "why_tests_cant": "histories and all rpm values", "anchors": ["src/spindle-control.cc:PWMSpindle"]}
{"id": "C54", "title": "PWM timer registers stay legal", "statement": "For every frequency up to half the clock and every history of finite output values the load and match registers keep the distance to the overflow and to each other that the timer hardware requires, a positive value runs the timer with the wanted period and duty, and a value of zero or less stops it.", "quantifier": "every frequency, resolution, duty value and history of values", "why_tests_cant": "all values; rounding and unsigned wrap-around", "anchors": ["src/pwm-timer.cc:pwm_timer_set_duty, pwm_timer_set_freq, pwm_timer_start", "src/hardware-mapping.cc:SetPWMOutput"]}
{"id": "C55", "title": "Print statistics bound the path", "statement": "The reported minimum and maximum of X and Y are the smallest and largest commanded coordinates (minimum taken together with 1e7, maximum together with 0), the filament length is the last extruder position and the printed height is the Z of the last move that extruded. (The Z minimum starts at zero and is wrong for programs entirely above zero; recorded as a finding.)", "quantifier": "every sequence of moves to finite positions", "why_tests_cant": "all programs", "anchors": ["src/determine-print-stats.cc:update_coordinate_stats, determine_print_stats"]}
{"id": "C56", "title": "Integer conversion reads exactly the number written", "statement": "ParseInt64 of a text that starts with a decimal integer within 64-bit range yields exactly that integer whatever follows, and a text that does not start with a number (after white space and a sign) is refused without changing the output.", "quantifier": "every integer, every sign and every continuation of the text", "why_tests_cant": "all 64-bit values and all continuations", "anchors": ["src/common/string-util.cc:ParseInt64"]}
{"id": "C57", "title": "Machine configuration reaches exactly the right fields", "statement": "Reading any configuration text leaves each per-axis number (steps, feedrates, acceleration, range) and each general option equal to the last readable setting of that name in the section of that axis (or [general]), and as it was before if there is none; the home position of an axis is the first proper one given; an accepted configuration contains no negative number.", "quantifier": "every configuration text, starting configuration, axis and way of reading numbers", "why_tests_cant": "unbounded texts; all interleavings of sections and settings", "anchors": ["src/machine-control-config.cc:MachineControlConfigReader, ConfigureFromFile", "src/config-parser.cc"]}
{"id": "C58", "title": "The planner reports a move as done exactly if the motors got it", "statement": "While the motor backend accepts everything, every move given to the planner is reported as done, for any lookahead of at least 2. Whatever the backend refuses, the commands it gets are, leg by leg and in order, those of the beginning of the path, for each leg up to the first refused one; commands of a leg are left out only behind a refused one. (With a lookahead of 1 every move is reported as refused although it has been executed; recorded as a finding.)", "quantifier": "every history of calls, every target and speed, everything the backend may refuse", "why_tests_cant": "all histories and lookahead settings", "anchors": ["src/planner.cc:machine_move, issue_motor_move_if_possible", "src/gcode-machine-control.cc:handle_set_lookahead, coordinated_move"]}
{"id": "C59", "title": "Arcs follow their circle", "statement": "For coordinates up to a metre, every intermediate point of an arc is, up to a hundredth of a millimetre, the start turned around the centre by an angle; these angles grow in even steps in the commanded direction by at most one turn, and so every point lies on the circle up to a fiftieth of a millimetre. The whole angle is the one to the direction of the target: if the target is on the circle, the turned start is the target. There is one piece for each tenth of a millimetre of the way, up to one and a half pieces, and only arcs without length are skipped. The other axes advance evenly with the angle, and an axis whose target is its start does not move at all.", "quantifier": "every start, centre, target, plane and direction with coordinates up to 1024 mm; every mathematical library accurate to a millionth; every receiver", "why_tests_cant": "all coordinates, with the accumulation of rounding errors over any number of segments", "anchors": ["src/gcode-parser/arc-gen.cc:arc_gen"]}
{"id": "C60", "title": "Splines follow their Bezier curve", "statement": "For coordinates up to a metre, the k-th intermediate point of a spline lies, up to a hundredth of a millimetre in X and Y, at the point of the cubic Bezier curve of the four control points whose parameter is k steps of a hundredth (up to a millionth each); all other axes keep their start until the last move.", "quantifier": "every start, control points and target with coordinates up to 1024 mm; every receiver", "why_tests_cant": "all coordinates and all rounding", "anchors": ["src/gcode-parser/arc-gen.cc:calc_bezier_point, spline_gen"]}
{"id": "C61", "title": "Arc words give the arc asked for", "statement": "G2 and G3 with any words ask the receiver for exactly one arc, in the commanded direction and the chosen plane, from the present position to the commanded destination and with the centre at the given I, J, K offset (or at the distance given by R) from the present position; the position changes only if the receiver agrees. With neither or both kinds of centre, or a radius too small for the distance, an error is reported and nothing is asked. (G90.1, absolute centres, only reports an error and the next arc runs around a wrong centre; recorded as a finding.)", "quantifier": "every line of words, parser state, number value and receiver", "why_tests_cant": "all orders, repetitions and values of words, in all modal states", "anchors": ["src/gcode-parser/gcode-parser.cc:handle_arc, arc_radius_to_center"]}
{"id": "C62", "title": "Spline words give the spline asked for", "statement": "G5 and G5.1 in the XY plane ask the receiver for exactly one spline with the control points given by I, J, P and Q, a G5 without I and J continues the preceding G5 smoothly, and words that make no sense are reported and ask for nothing. (The second control point of G5.1, a missing P or Q and additional axes are handled differently from the documentation; recorded as findings.)", "quantifier": "every line of words, parser state, number value and receiver", "why_tests_cant": "all orders, repetitions and values of words, in all modal states", "anchors": ["src/gcode-parser/gcode-parser.cc:handle_spline"]}
{"id": "C63", "title": "No axis is driven faster than its limit, no move faster than its feedrate", "statement": "Whatever path of moves, direct drives and halts a program asks for, each leg is carried out by commands in which no axis exceeds its configured speed, and in which the way in X, Y and Z is not made faster than the feedrate of the move (all within a thousandth). A direct drive has the speeds asked for, cut at the limit of the axis.", "quantifier": "every machine configuration with sane limits and every sequence of calls with sane feedrates, of any length", "why_tests_cant": "the speeds depend on all legs in the planning buffer and on the rounding of single and double precision arithmetic", "anchors": ["src/planner.cc:clamp_defining_axis_limit", "src/planner.cc:euclidian_speed", "src/planner.cc:machine_move", "src/planner.cc:direct_drive"]}
{"id": "C64", "title": "No axis is accelerated beyond its limit", "statement": "Within every command sent for a move, the speed of no axis changes faster than its configured acceleration allows within the steps of the command and one and a half steps more (ramps are cut to whole steps; that the exact limit is exceeded without them is recorded as a finding).", "quantifier": "every machine configuration with sane limits and every sequence of calls with sane feedrates, of any length", "why_tests_cant": "ramps are replanned with every leg added; all combinations of lengths, speeds and neighbours matter", "anchors": ["src/planner.cc:DecelerationPlanSegment", "src/planner.cc:AccelerationPlanSegment", "src/planner.cc:UpdateMotionProfile"]}
{"id": "C65", "title": "Arcs given by a radius have this radius and go the way its sign says", "statement": "For an arc with a radius word, the centre computed is at the distance of the radius from the start and from the end, up to a fiftieth of a millimetre. For a positive radius it is on the right of the way from start to end when going clockwise and on the left when going counterclockwise (the arc of at most half a turn); for a negative radius on the other side. The arc is refused if the ends are farther apart than the diameter and a fiftieth of a millimetre, and only if they are equal or that far apart, less a fiftieth.", "quantifier": "every start, end and radius with coordinates up to 1024 mm and a radius of at least a micrometre; both directions; every mathematical library accurate to a millionth", "why_tests_cant": "all coordinates, with the rounding of each operation, including the neighbourhood of the semicircle where asin is steep", "anchors": ["src/gcode-parser/gcode-parser.cc:arc_radius_to_center"]}
{"id": "C66", "title": "A WHILE loop does what its body written out would do", "statement": "If lines WHILE [condition] DO, body and END are fed and finish, the effects on the machine (events seen by the receiver), the parameters and the modal state are those of evaluating the condition and running the body lines as long as the value is not zero. Conversely, if the written-out execution of a body without loops ends, so does the loop, with the same effects.", "quantifier": "every condition text, every body of lines ending in a newline, every number of rounds, every state outside a loop, every receiver that ignores who calls", "why_tests_cant": "any number of rounds and any body, including conditions and bodies that change the parameters the condition reads, or report errors", "anchors": ["src/gcode-parser/gcode-parser.cc:gcodep_while_start", "src/gcode-parser/gcode-parser.cc:gcodep_while_do", "src/gcode-parser/gcode-parser.cc:gcodep_while_end"]}
{"id": "C67", "title": "IF executes the assignment its conditions choose, and nothing else", "statement": "A line IF [c1] THEN a1 ELSEIF [c2] THEN a2 ... ELSE an performs the assignment of the first condition that is true, the one behind ELSE if none is and there is one, and otherwise nothing; other parameters keep their values. A choice that is not an assignment is reported as an error and changes nothing.", "quantifier": "every line of this form with any number of ELSEIF, every expression, every parameter name, every state outside a loop", "why_tests_cant": "all chains of conditions and all values of the expressions", "anchors": ["src/gcode-parser/gcode-parser.cc:gcodep_conditional"]}
{"id": "C68", "title": "Each machine command makes exactly the request documented for it", "statement": "M17, M18/M84, M24, M107, M116, M500 each ask the machine once for what the manual says and change nothing in the parser. G4 P, M104 S, M106 S, M109 S, M220 S pass the value of their parameter on (M220 as a fraction of 100); without the parameter they request nothing (M109 still waits). M501 replaces the parameter table by the loaded one. Every command the parser does not know is handed to the machine with the rest of its line, and the line goes on where the machine says.", "quantifier": "every number word whose integral part is the command's, every parameter value and expression, every rest of the line, every state outside a loop, every answer of the machine", "why_tests_cant": "ranges over all command numbers, including all those not known, and all lines behind them", "anchors": ["src/gcode-parser/gcode-parser.cc:ParseBlock", "src/gcode-parser/gcode-parser.cc:set_param", "G-code.md"]}
{"id": "C69", "title": "Probing makes the touched surface the given height", "statement": "G30 with any F and Z words asks once to probe along Z with the last given speed. If it succeeds, the position of Z becomes the probed one, other axes keep theirs, and the offset of Z becomes such that this place has the thickness given with Z (0 without) as its coordinate; the new origin is reported. If it fails, nothing changes. A later move to that coordinate leads to the probed height.", "quantifier": "every list of F and Z words, every state outside a loop, every probed position", "why_tests_cant": "all positions, offsets, units and coordinate systems; the arithmetic is in binary32", "anchors": ["src/gcode-parser/gcode-parser.cc:handle_z_probe"]}
{"id": "C70", "title": "The times between steps are those of the speed profile asked for", "statement": "A segment handed to the firmware runs through two passes per step, and the time of each pass is that of the speed planned there. At constant speed every pass is exact to half a tick of 10 ns and a four-millionth part (speeds above 1 MHz run at 1 MHz). When the speed changes with constant acceleration, the speed of every pass is within 3 % of the planned one between one half step before and two half steps behind it; only when speeding up from a speed above rest is there an additional factor for rounding the start of the ramp, at most the square root of 3. The passes never compute the value that would end the segment early, so exactly the steps asked for are made.", "quantifier": "every pair of binary32 speeds up to 300000 steps/s, every number of steps up to 32767, every acceleration of at least 10 steps/s^2 that could have led to the first speed in 32768 steps; every pass; every mapping of motors", "why_tests_cant": "ranges over all speeds, lengths and accelerations; the bounds come from an invariant of the integer recurrence in the firmware and an error analysis of the floating point numbers handed to it", "anchors": ["src/motion-queue-motor-operations.cc:EnqueueInternal", "src/motion-queue-motor-operations.cc:calcAccelerationCurveValueAt", "src/motor-interface-pru.p:CalculateDelay", "src/motor-interface-pru.p:STEP_GEN", "src/idiv.hp:idiv_macro"]}
{"id": "C71", "title": "Machine commands make exactly the documented requests, and the spindle never outlives its program", "statement": "The commands for spindle (M3, M4, M5), coolant, vacuum, cooler, lights, power supply (M7-M11, M80, M81, M245, M246, M355), AUX pins (M42, M62-M65), look-ahead (M181), fan, motors, stop (M0) and the start and end of a program make exactly the documented requests to planner, motors, spindle and outputs in the documented order, taking the last of the leading words of each letter; anything unknown requests nothing. M999 reads the switch and only then releases; G4 and M400 wait until the motors are done. If the spindle turns, then the last M3 or M4 with a speed asked for that direction and speed and no M5, M0 or end of program came after it; entering the emergency stop stops it. The outputs and motor power are what the hardware calls in the log make of them.", "quantifier": "every configuration, every state, every list of words with values in the int range, every sequence of switch readings, every history of calls", "why_tests_cant": "ranges over all histories of commands and words; a test shows single commands in one state", "anchors": ["src/gcode-machine-control.cc:special_commands", "src/gcode-machine-control.cc:aux_bit_commands", "src/gcode-machine-control.cc:set_spindle_on", "src/gcode-machine-control.cc:set_spindle_off", "src/gcode-machine-control.cc:handle_set_lookahead", "src/gcode-machine-control.cc:gcode_finished", "src/gcode-machine-control.cc:clear_estop", "src/gcode-machine-control.cc:dwell"]}
{"id": "C72", "title": "The machine slows down at sharp corners", "statement": "Wherever the path turns by more than 45 degrees (45.01 with the rounding of the code), turns back, or goes on after moves of other axes only, and before the first move, the speed is that of a start from standstill on both sides of the corner: the commands for the leg before end, and the commands for the leg behind begin, no faster than one and a third steps of the largest acceleration make it, however the legs are planned together.", "quantifier": "every sequence of moves, halts, position and lookahead changes on a machine with sane limits, if where the axis with most steps changes the corner is sharp; every arc cosine that is right to 0.00001 at pi/4", "why_tests_cant": "ranges over unbounded paths and all angles, with rounding errors in every plan", "anchors": ["src/planner.cc:determine_joining_speed", "src/planner.cc:UpdateMotionProfile, AccelerationPlanSegment, DecelerationPlanSegment, move_machine_steps"]}
{"id": "C73", "title": "The path arrives at the motors, pulse by pulse", "statement": "When the motors can follow the commands that the planner makes of a path (at a constant speed, or changing it not too slowly), then planner, motor operations and firmware together make every motor of an axis turn by just the steps from the home position to the end of the path, counting pulses at its step pin with the sign of its direction pin; and a motor that belongs to no axis makes no pulse.", "quantifier": "every sequence of moves and halts that is halted at the end, of any length, every machine, every mirroring of the motors, every queue that takes all segments", "why_tests_cant": "ranges over unbounded paths through three programs, one of them in assembler; a test sees the segments of one move", "anchors": ["src/planner.cc:issue_motor_move_if_possible, bring_path_to_halt", "src/motion-queue-motor-operations.cc:Enqueue, EnqueueInternal", "src/motor-interface-pru.p"]}
{"id": "C74", "title": "The time of a file is the sum of its pauses and motions", "statement": "The time that the statistics report for a file is the sum of the durations of its pauses and of its motions, each motion taking the time of a constant acceleration from its first to its last speed over the steps of its busiest motor, up to the rounding of one float operation for each of them; a move of a single step makes the reported time infinite, and in long files short motions are not counted at all.", "quantifier": "every sequence of pauses up to 11 days and motions at sane speeds, of any length", "why_tests_cant": "ranges over unbounded sequences whose rounding errors add up; a test sees one file", "anchors": ["src/determine-print-stats.cc:StatsSegmentQueue::Enqueue, StatsCollectingReceiver::dwell, determine_print_stats"]}
{"id": "C75", "title": "Every pin of the cape shows what was last written to it", "statement": "After any sequence of reads, writes, direction changes, mapping and unmapping of the GPIO banks, a pin is high exactly if the last write to this pin set it, no other pin changes, an input is read as what is connected to it, and a write to unmapped banks is undefined; the firmware sets all directions, steps and auxiliary outputs of the cape, each to its own bit and nothing else, and stops for the emergency input exactly if it is seen long enough; the pin tables of all four capes name real pins of the connector, none of them used twice but where the capes say so.", "quantifier": "every sequence of GPIO operations, every register content, every bit pattern, every debounce history, all four capes", "why_tests_cant": "ranges over all histories of register writes and all contents; the tests use no hardware", "anchors": ["src/generic-gpio.cc:get_gpio, set_gpio, clr_gpio, map_gpio, unmap_gpio, cfg_gpio_io", "src/pru-generic-io-routines.hp:SetDirections, SetSteps, SetAuxBits", "hardware/VGEN5/pru-io-routines.hp:CheckForEStop", "hardware/*/beagleg-pin-mapping.h"]}
{"id": "C76", "title": "Auxiliary outputs show what was last said about them", "statement": "An auxiliary output shows what was last said about it, by the host or by the segment that the motion unit has begun last; once all accepted segments are done it keeps its level until a segment with another level is accepted or the host switches it. Emergency stop, M5 and the end of a file do not meet what a user expects: segments still in the queue switch the spindle on again and nobody switches it off.", "quantifier": "every interleaving of host calls and firmware steps, every cape and output", "why_tests_cant": "ranges over all interleavings of two processors writing the same registers", "anchors": ["src/hardware-mapping.cc:HardwareMapping::SetAuxOutputs, AuxOutputsOff", "src/motor-interface-pru.p", "src/gcode-machine-control.cc:set_estop, set_spindle_off, gcode_finished", "src/spindle-control.cc:PWMSpindle::Off"]}
{"id": "C77", "title": "One G-code client at a time", "statement": "Whoever connects to the G-code and status ports, sends, breaks off or stays silent, in whatever order: one G-code client is served at a time and others are refused; while it is served its bytes and no others are read, its lines are executed and it receives the messages; the lines executed are those of the clients served, one client after the other, each once and in order; no descriptor is left open. Not so: messages after a client has left go to whoever gets its descriptor, a failing fcntl leaks the connection, and a G-code file that cannot be opened asks select() about descriptor -1.", "quantifier": "every sequence of connections, readable descriptors, time-outs and system call results, any number of clients with any bytes in short lines, any length of the run", "why_tests_cant": "ranges over all interleavings of clients and over unbounded runs of the event loop", "anchors": ["src/machine-control.cc:run_gcode_server, run_status_server, send_file_to_machine", "src/gcode-parser/gcode-streamer.cc", "src/common/fd-mux.cc"]}
{"id": "C78", "title": "No call of the motion queue sleeps for ever", "statement": "Enqueue, WaitQueueEmpty and Shutdown sleep until the firmware interrupts them. Whenever the host sleeps and no interrupt is on its way, what it waits for has not happened yet and the firmware is still at work. In every fair schedule of host, firmware and kernel every call returns, with either kernel interface, whatever the emergency stop does and however often waiting fails or is interrupted by a signal.", "quantifier": "every history of calls with well-formed segments, every interleaving of host, firmware and kernel, every pattern of emergency stops, failures and signals; liveness over all infinite fair schedules", "why_tests_cant": "a lost wake-up needs the interrupt to fall between two particular instructions, and liveness ranges over infinite schedules", "anchors": ["src/pru-motion-queue.cc:Enqueue, WaitQueueEmpty, Shutdown", "src/uio-genirq-interface.cc:WaitEvent", "src/uio-pruss-interface.cc:WaitEvent", "src/motor-interface-pru.p:STEP_GEN_ABORTED, FINISH"]}
{"id": "C79", "title": "The program starts safely, gives up root, and leaves the machine off", "statement": "The program touches motors and outputs only after the configuration has been read without error and, when it serves clients, after its G-code port is bound, so a second start on the same port does not disturb a running machine; in a dry run it touches none. Started as root with a user (and group) to change to, it reads parameters, opens G-code files, serves clients and runs the machine only as that user and group, from where it cannot become root again; if it cannot change to them it ends. Unless the firmware cannot be loaded, whenever it has mapped the hardware it switches all outputs off at the end; whenever it has run the machine it stops the firmware, waiting for the queue exactly if it was not ended by a signal. Overrides of the command line win over the configuration file.", "quantifier": "every command line, every answer of the operating system to every call, every set of credentials at the start", "why_tests_cant": "the combinations of options and failing system calls cannot be enumerated by tests, which cannot run as root with real hardware either", "anchors": ["src/machine-control.cc:main, drop_privileges, open_server, MakeAbsoluteFile", "src/hardware-mapping.cc:InitializeHardware, ~HardwareMapping"]}
{"id": "C80", "title": "The machine stands where the G-code says", "statement": "Whatever the G-code, the operator and the switches do, machine control uses the planner as it has to be used, so none of its assertions about an unknown position or a path in motion fails. Once an axis has been homed, and until it is homed or probed again, whenever the machine comes to a stop every motor of this axis has made just the steps, and its pins have shown just the pulses, from the home switch to the position of the last move that was accepted; a position that was asked for. The outputs that go with a move are those set before it. No history makes the planner fail if the lookahead is set to at most 1023 first.", "quantifier": "every configuration, every history of calls before and after homing, every behaviour of switches, buttons and clock, every result of out-of-range conversions", "why_tests_cant": "errors that accumulate or appear after rare sequences of homing, stops and pauses need histories of any length and all the interleavings of operator actions", "anchors": ["src/gcode-machine-control.cc:Impl (all callbacks)", "src/planner.cc:Impl", "src/motion-queue-motor-operations.cc:Enqueue", "src/hardware-mapping.h:GetAuxBits"]}
{"id": "C81", "title": "Parser and machine agree on the position", "statement": "Whatever lines are given to the G-code parser, the position it reckons with (from which relative moves, arcs and coordinate systems start) is the one that follows from its granted requests, so long as no move was refused. With the machine control as receiver, the path of the motion planner ends just there, to the step, for every axis that could be homed whenever homing it was asked for; between two moments at which the machine rests every motor of the axis has made just the steps between the two positions of the parser.", "quantifier": "every configuration, every list of lines and files, every parameter, every behaviour of switches, buttons and clock, idle input at any moment", "why_tests_cant": "two programs' notions of the position drift apart only after rare mixtures of refusals, homing, probing, arcs and pauses; each is tested with a mock of the other", "anchors": ["src/gcode-parser/gcode-parser.cc:axes_pos_", "src/gcode-parser/gcode-parser.cc:handle_move", "src/gcode-parser/gcode-parser.cc:handle_home", "src/gcode-machine-control.cc:Impl (all callbacks)", "src/gcode-parser/arc-gen.cc:arc_gen", "src/planner.cc:Impl"]}
{"id": "C82", "title": "The simulated sound is that of the motors", "statement": "Whatever segments are given to the queue that writes the sound of the motors, the file is a stereo WAV file of 44.1 kHz: a header of 44 bytes, then one sample for each motor of the first two and each 1/44100 s of the run; the level of sample k is that of the step pin at that moment. The sizes in the header are those of the file (for less than 2^30 samples). The moments follow the exact times the firmware needs, up to the roundings of the clock, and every run of up to 97000 seconds is written.", "quantifier": "every list of segments the firmware can execute, every number of passes, every sample", "why_tests_cant": "the clock is a sum of up to millions of rounded numbers; a test hears only one file, and never one of several hours", "anchors": ["src/sim-audio-out.cc:SimFirmwareAudioQueue::Enqueue", "src/sim-audio-out.cc:AudioWriter", "src/motion-queue.h:MotionSegment"]}
{"id": "C83", "title": "The picture of a G-code file shows the path", "statement": "The program that draws a G-code file runs it twice. Whatever the file, the lines it writes are those of the path: one for each rapid or coordinated move, from where the one before ended (the origin after homing) to its target, in the colour of its kind. Everything drawn lies in the range that the first run found and that page and frame are made for; the range reaches no further than coordinates of the file, the origin and zero. With a laser every shade lies between black and white.", "quantifier": "every sequence of calls of the G-code parser, every origin, every finite coordinate and power", "why_tests_cant": "the two passes share state; a range that misses a move or a shade outside of its scale shows only for some files", "anchors": ["src/gcode2ps.cc:GCodePrintVisualizer", "src/gcode2ps.cc:AxesRange", "src/gcode2ps.cc:Reset", "src/gcode2ps.cc:Device"]}
{"id": "C84", "title": "The picture of the machine shows where the motors go and how fast", "statement": "With a machine configuration the program that draws a G-code file also draws the movement of the motors. Whatever commands the motors get, there is one line for each command that moves X, Y or Z, from where these motors stand to where they go, in millimetres, beginning where they stand after the run before. With speeds shown, each command is drawn in pieces which end at the same place; the range of the colours is found from the lowest and the highest speed through space, each computed to 1/100000, and lies between them and is not empty if one is at least twice the other; every speed between two different ones has one of 256 colours, and a higher speed never has a lower colour. A command begins in the colour of its first speed; the colours of its pieces rise if it gets faster and fall if it gets slower, and never pass the colour of its last speed.", "quantifier": "every sequence of commands for the motors in both passes, every number of steps per millimetre, every finite speed", "why_tests_cant": "the two passes share the position; pieces, colours and speeds are rounded floating point values and lie in range only by an argument over all of them", "anchors": ["src/gcode2ps.cc:SegmentQueuePrinter", "src/gcode2ps.cc:PrintSegment", "src/gcode2ps.cc:SetPass"]}
{"id": "C85", "title": "Text is drawn within its width", "statement": "Text drawn at 0 never leaves the width computed for it: between 0 and the width if aligned left, between minus the width and 0 if aligned right, and not further than half the width from 0 if centred, for texts of any number of lines. No line joins two characters: wherever a text is cut in two, the drawing of the rest begins with a move. Characters that are not printable ASCII change neither the width nor the drawing, apart from the end of a line. Every other printable character but the space is drawn. What follows the end of a line is drawn no higher than the position of the text.", "quantifier": "every text of up to 16 million characters, every size up to a million whose text width is 0 or at least 2^-100, every alignment, every way to cut the text in two", "why_tests_cant": "widths and positions are sums of rounded products, and the claim holds exactly only because both are rounded in the same order; texts are unbounded", "anchors": ["src/hershey.cc:TextWidth", "src/hershey.cc:DrawText"]}
