# Formal model of hzeller/beagleg in Coq

Layout of `rocq/theories`:

* `Model_*.v`  – executable model, function by function, no proofs. Every definition cites file and lines in `/repo`.
* `Spec_*.v`   – small specifications written independently of the model's helpers (where the property needs one).
* `Proofs_*.v` – lemmas and proofs.
* `Prop_*.v`   – the property theorems (`Theorem Cnn_...`), each followed by `Print Assumptions`, with `Example`s showing that the hypotheses are met by concrete non-trivial cases.
* `Base.v`, `Text.v`, `Lib_List.v` – shared definitions and list lemmas.

`properties.jsonl` has the properties, `MANIFEST.json` maps each to its theorems, `seeded/LOG.jsonl` records the wrong programs the theorems were tried against. Rows with `"survived": true` are edits under which everything still built when they were tried; `tightened` then names the theorems added or strengthened because of them. Some of them carry a `note` because no theorem settles them: some may be equivalent (the three of the PWM prescaler, `set_switch_option`), one has an effect smaller than the tolerance of the theorems (the first remainder in `travel_of`), the others show something the theorems do not say (the lower bound of `within`, parameters with an empty name).

Conventions

* Characters are `ascii`, strings are `list ascii`. The target is ARM (`char` is unsigned).
* C++ `int`/`uint32_t` values are `Z`; wrap-around is written explicitly where it can matter. Undefined behaviour and failed `assert`s are distinct outcomes (`Undefined`, `Bad`).
* Floating point is computed bit by bit (`SpecFloat`, binary32 and binary64, round to nearest even) where the code computes; theorems about accuracy relate it to real numbers with Flocq. The number reader, the mathematical library and conversions that C++ leaves undefined are parameters that the theorems quantify over.
* Loops without an evident bound take fuel and return a distinct out-of-fuel outcome; statements say that for all fuel above some bound the outcome is the stated one.
* Environment (results of read(), ready descriptors, pin levels, clock, firmware/host interleaving, answers of the receiver) is an explicit universally quantified input.
* A theorem named `..._refuted` shows by a concrete execution that a natural reading of the property is false of the code; the guarded statement is proved beside it. These are the findings listed below.
* A theorem named `..._partial` proves only part of a property; what is missing is said beside it.

## Plan per property

| Property | Model | Proof idea |
|---|---|---|
| C01, C02 | `Model_StringUtil` | induction on the string; specification by `concat`/prefix predicates |
| C03, C04, C05 | `Model_Linebuf` (byte buffer with offsets) | invariant relating buffer window to consumed stream; chunk independence by induction on the chunk list |
| C06 | `Model_RingDeque` | refinement to `list` for every operation sequence |
| C07 | `Model_Lexer` (trie) | induction over trie and input; longest-match specification over the keyword set |
| C08 | `Model_FdMux` | invariant over cycles, per-cycle trace characterisation |
| C09 | `Model_Streamer` on top of `Model_Linebuf` | simulation with the line splitting specification |
| C10, C11, C57 | `Model_Config` | induction on lines; expression grammar and evaluator specification |
| C12, C13 | `Model_Gcode` (expressions) | shift/reduce invariant on the operand stack against a precedence grammar (`Spec_Expr`) |
| C14 | `Model_Gcode` | the rest returned is a proper suffix; fuel bound linear in the line |
| C15 | `Model_Gcode` | event-trace automaton, invariant over all functions (`Proofs_Events`) |
| C16–C20, C22, C23, C61, C62, C68, C69 | `Model_Gcode` | lines are sequences of words (`Spec_Words`); the loop over the words of a command is a fold, characterised by induction on the word list; effect compared with specifications in terms of the last value per letter |
| C66 | `Model_Gcode` | simulation between states that differ only in the loop's own fields (`Proofs_Loop`); induction over the rounds against an inductive definition of the written-out loop (`Spec_Loop`) |
| C67 | `Model_Gcode` | induction over the chain of conditions (`Spec_If`: `chooses`) |
| C21, C59, C60, C65 | `Model_Arc` | induction over the segments; rounding error analysis with Flocq, over every library accurate to a millionth |
| C24, C25 | `Model_ParamFile` with a file-system model (crash = any prefix of operations) | case analysis over all prefixes for arbitrary content; round trip by induction on the table |
| C26–C28, C58 | `Model_Planner` | invariant: steps issued + steps queued = rounded target difference |
| C29 | `Model_Planner` | error analysis of the ramp formulas (`Proofs_Ramp`), of one segment (`Proofs_Profile`), of the backward and forward pass (`Proofs_Speeds`) and of what is sent (`Proofs_Joints`); limits of a sane configuration (`Proofs_Limits`, `Proofs_Path`); invariant over all calls. Left out: direct drives in the path |
| C72 | `Model_Planner` | error analysis of the angle between two legs (`Proofs_Corner`): at a sharp corner the joining speed is exactly 0; the invariant of C29 also bounds the speed at each joint by the joining speed (`Proofs_Speeds`, `Proofs_Joints`, `Proofs_Path`) |
| C73 | `Model_Chain`: the commands of `Model_Planner` handed to `Model_MotorOps` (with `Model_Speed`), its segments run by `Model_Pru` | composition of C26, C33 and C70; the speed of a divided constant motion is exact in doubles |
| C74 | `Model_Times`: the total time of the statistics | the rounding errors of a sum of non-negative floats, by induction with a factor (1 + 2^-23) for each operation; the duration of a motion is specified by v0 + aT = v1 and v0 T + aT^2/2 = steps |
| C75 | `Model_Gpio`: GPIO registers, host access, the firmware's pin routines, the pin tables of the capes | the levels by induction over the operations with the last write to a pin as specification; the firmware routines for any table whose pins are apart; the tables by computation |
| C76 | `Model_Outputs`: queue, host calls and registers together | what was last said, by induction over interleavings; the settled level with the invariant of the queue (C05); stop, M5 and end of file by witnesses whose spindle stays on for ever |
| C77 | `Model_Server`: the handlers of the G-code and status servers inside the event loop of `Model_FdMux`, with the descriptors of the process | an invariant of handler table and world, kept by every handler; the lines by extending runs of `Model_Streamer` (C09) |
| C78 | `Model_Irq`: WaitEvent of both kernel interfaces, the firmware's interrupt, controller and kernel, around `Model_PruQueue` | an invariant (a slot freed since the host looked leaves a trace of the interrupt); a rank with a helpful side for every state, which goes down in every fair schedule |
| C79 | `Model_Main`: main() from the command line to its exit as a trace of effects, each with the credentials it happens under; every answer of the system is a parameter | case analysis over options and answers; an induction for the split of `user:group` |
| C80 | `Model_Whole`: the planner (`Model_Planner`) performs the calls in the log of the machine control (`Model_Machine`), with the auxiliary bits of the moment; `Model_Chain` for the pulses | an automaton for the rules of the planner along the log, invariants over primitive actions; sums of legs between two halts |
| C81 | `Model_Joined`: the machine control (`Model_Machine`) is the receiver of the parser (`Model_Gcode`); arcs and splines by `Model_Arc`, steps by `Model_Planner` | an invariant over all commands of the parser; induction over its requests for the path of the planner |
| C82 | `Model_Audio`: the queue that writes the sound of the motors as a WAV file, with the delays of `Model_Sim` and the clock in doubles | simulation of the passes of `Model_Pru` by induction; an error bound for each addition to the clock |
| C83 | `Model_View`: the visualizer of `gcode2ps.cc` as receiver of the parser's calls, its two passes, what it tells the device | induction over the calls; rounding is monotone for the shades |
| C84 | `Model_MachineView`: the queue of `gcode2ps.cc` that draws the commands for the motors, in two passes, with and without speeds | induction over the commands; exact sums and monotone rounding for the pieces and the colours |
| C85 | `Model_Hershey`: the font and the functions of `hershey.cc` | induction over the text; the glyphs lie within their widths (computed for all of the font), rounding is monotone |
| C63, C64 | `Model_Planner` | bounds of one leg from its plan (`Proofs_Within`), an invariant weaker than that of C29 for legs that need not meet (`Proofs_Sound`), induction over all calls including direct drives (`Proofs_Keep`) |
| C30–C36 | `Model_MotorOps`, `Model_Pru`, `Model_Sim`, `Model_Speed` | exact arithmetic on Z with explicit wraps |
| C70 | `Model_MotorOps`, `Model_Speed`, `Model_Pru` | the integer recurrence of the delays has an invariant (`Proofs_Law`), the firmware computes just that recurrence (`Proofs_Timing`), error analysis of its start values (`Proofs_Delay`), both together against the plan (`Proofs_Ticks`, `Proofs_Pace`); `Spec_Timing` says what time and plan are |
| C71 | `Model_Machine` | `Spec_Commands` is a table of documented requests; every program is shown to add exactly its row to the log (`Proofs_Commands`), the spindle by induction over histories |
| C37–C40 | `Model_PruQueue` (small-step interleaving) | inductive invariant over all schedules |
| C41–C45 | `Model_Hardware` | invariants over operation sequences, bit lemmas |
| C46–C52 | `Model_Machine` | invariants over event sequences with an oracle environment |
| C53 | `Model_Spindle` | trace invariant |
| C54 | `Model_Spindle` (PWM timer part) | arithmetic with 32-bit wrap, rounding bounds |
| C55 | `Model_Stats` | induction over move list |
| C56 | `Model_StringUtil` | digit-string induction, strtoll with clamping |

## Trusted base

* The kernel of Coq 8.16.1 (vcheck also runs `coqchk` on the compiled files). No axioms, parameters, functors or module types of our own; no plugins.
* That the model is what the code does: read by hand from `/repo`, cited definition by definition; nothing was executed.
* Platform: BeagleBone ARM, plain `char` unsigned, `int` and `long` 32 bit, IEEE-754 binary32/binary64 with `FLT_EVAL_METHOD` 0 and without contraction to FMA, C++17 library.
* `Print Assumptions`: of the 342 theorems in the manifest at the time of writing 283 are closed under the global context. `C26_rounding` uses `ClassicalDedekindReals.sig_forall_dec` and `FunctionalExtensionality.functional_extensionality_dep`. The theorems that speak about real numbers through Flocq (`C17_renamed`, `C17_renamed_exactly`, `C18_start`, `C18_persistent`, `C29_smooth`, `C29_halt`, `C29_axis_change_refuted`, `C53_history_safe`, `C53_on`, `C53_off`, `C54_register_values`, `C54_history_legal`, `C54_output_effect`, `C55_*`, `C59_*`, `C60_spline`, `C62_parabola_refuted`, `C63_*`, `C64_*`, `C65_centre`, `C69_surface`, `C70_*`, `C72_*`, `C73_*`, `C74_time`, `C74_long_refuted`, `C82_time`, `C83_view`, `C83_tight`, `C83_shades`, `C84_between`, `C84_colours`, `C84_pieces`, `C84_ramp`, `C84_range`, `C84_span`, `C84_speed`, `C85_lines`, `C85_within`) use `ClassicalDedekindReals.sig_not_dec`, `ClassicalDedekindReals.sig_forall_dec`, `FunctionalExtensionality.functional_extensionality_dep` and `Classical_Prop.classic`. All are axioms of the standard library.

### Modelled

`common/string-util.cc`, `common/linebuf-reader`, `common/container.h` (RingDeque, EnumBitmap as bit sets), `common/fd-mux`, `gcode-parser/simple-lexer`, `gcode-parser/gcode-streamer.cc`, `gcode-parser/gcode-parser.cc` (all of it but message texts), `gcode-parser/arc-gen.cc`, `gcode-parser/gcode-parser-config.cc`, `config-parser.cc`, `machine-control-config.cc`, `gcode-machine-control.cc`, `planner.cc`, `motion-queue-motor-operations.cc`, `pru-motion-queue.cc`, `motor-interface-pru.p` with `idiv.hp`, `sim-firmware.cc`, `sim-audio-out.cc`, `gcode2ps.cc` (classes GCodePrintVisualizer and SegmentQueuePrinter), `hershey.cc`, `hardware-mapping.cc`, `spindle-control.cc`, `pwm-timer.cc` (registers), `determine-print-stats.cc` (coordinates and times), the servers and main() of `machine-control.cc`, `generic-gpio.cc`, `pru-generic-io-routines.hp`, the capes' `beagleg-pin-mapping.h` and the emergency input of `hardware/VGEN5/pru-io-routines.hp`.

### Not modelled

`gcode2ps.cc` (PostScript, command line), `adc.cc`, `logging.cc`, `machine-control.cc` (usage texts, log file, signal handlers), `uio-*-interface.cc` (except WaitEvent), the parts of `generic-gpio.cc` and `pwm-timer.cc` that map `/dev/mem`; texts of messages; the printed output and times of the simulator.

### Simplifications, by model

* Step counters: overflow of the host's `position_steps` and of sums or differences of two step counts is not modelled. Left shift of a negative `int64_t` is taken as defined (it is since C++20 and with gcc).
* FdMux: descriptors are at least 0 and below `FD_SETSIZE`.
* Shared queue: the two header bytes and the status word are accessed at once, memory accesses are in program order, shared memory starts zeroed.
* Firmware times (C70): a pass is counted as the firmware reckons it; the instructions it does not allow for (adding the fractions, setting the pins, looking at the emergency stop, the jump) make every pass longer by a constant.
* Hardware: the pins of the cape are a parameter; opening `/dev/mem` only succeeds or fails.
* Machine control: every reading of a switch or the clock is an answer of the environment; calls of planner and spindle are recorded, not executed; sleeping and messages are not modelled; the result of converting an out-of-range float to an integer is arbitrary.
* Configuration: reading the file and texts of messages are not modelled, `strtod` is abstract.
* Spindle: delays and log output are not modelled; the serial device answers with arbitrary bytes.
* Servers: the texts of messages and status answers are not modelled; a client's bytes are there when select() says so, a read at their end gives 0 or an error.
* Interrupts: the interrupt controller, uio_pdrv_genirq, uio_pruss and libprussdrv are not in the repository; `Model_Irq` states what is assumed of them. A firmware stopped by Shutdown may still raise its last interrupt in the model; nobody waits for it then.
* main(): the command line is a list of options as getopt_long gives it; a failing drop_privileges may leave other ids for the rest of the exit, which the trace does not show; the event loop is one effect.
* Machine control and planner together: the answers machine control gets from the planner (segments flushed, position before probing) stay free answers, not those of `Model_Planner`; the theorems hold for all of them.
* Parser and machine control together: the parameters an M-code reads from its line, the file of parameters and the moments the input is found idle are free (`j_pairs`, `j_read`, `j_load`, `j_idle`).
* Sound of the motors: the file can always be opened and written; messages are left out.
* Picture of a G-code file: frame, grid, measures, titles, the help lines of arcs and the machine path are left out; arcs come as the moves they are made of.
* Picture of the machine: comments, legend, line width and the options without a flag are left out; positions do not overflow.
* Text: C85_within is about text at x = 0 and C85_lines about text at y = 0, where the additions of the position are exact.
* GPIO: waiting for the clocks of the banks, and the pin multiplexer, are not modelled; a register write takes effect at once.
* Statistics: forwarding to the machine is not modelled; the time is a function of the sequence of pauses and motor commands.
* G-code parser: line numbers and message texts are not modelled (only the number of errors is); number reader, mathematical library and receiver are abstract.
* Planner: the buffer is a list (C06 shows RingDeque is one up to its capacity); `acos`, `cos`, out-of-range conversions and acceptance by the backend are abstract; debug output and WaitQueueEmpty are not modelled.
* Parameter file: printing and scanning `%f` are abstract; directory operations are immediate and ordered, file contents reach the disk only with `fdatasync`; `atoi` clamps.
* Arcs: `atan2f`, `hypotf`, `cosf`, `sinf`, `asinf` are abstract; an out-of-range conversion to int gives an arbitrary int.

## Findings

Behaviour of the code that contradicts its documentation or a natural reading of the property. Those with a theorem are proved of the model.

| Where | What | Theorem |
|---|---|---|
| LinebufReader | a line longer than the buffer stalls; an incomplete line can overflow; a lone CR can swallow a line | `C03_long_line_stalls_refuted`, `C03_flush_after_cr_refuted`, `C04_incomplete_line_overflow_refuted`, `C05_lone_cr_swallows_line_refuted` |
| GCodeStreamer | the last line of a connection is lost after a CR | `C09_last_line_after_cr_lost_refuted` |
| config-parser | a comment in an unterminated last line is not recognised; products with missing operands are accepted | `C10_last_comment_refuted`, `C11_malformed_refuted` |
| expressions | two non-literal minus signs overrun the operand stack | `C13_overflow_refuted` |
| parser | an unclosed `(` comment reads past the end; a wrong ternary prints with wrong arguments; nested WHILE changes the text being iterated | `C14_unclosed_comment_refuted`, `C14_choice_refuted`, `C14_nested_while_refuted` |
| parser | a loop with an uninitialised owner starts inside a loop | `C15_start_in_loop_refuted` |
| parser | G92 ignores the scale of G51 and scales rotary axes by the inch unit | `C17_scale_refuted`, `C17_rotary_refuted` |
| parser | assignments in the words of a command are executed twice | `C19_twice_refuted` |
| parser | a refused modal continuation changes the position all the same | `C20_continuation_refuted` |
| parser | the lines of a WHILE body are glued together without a newline, so that a comment in one swallows the next when they come from a stream; IF takes only the value 1 as true, WHILE and `?` any value but 0 | `C66_streamed_refuted`, `C67_nonzero_refuted` |
| arcs | an arc whose centre is its start is skipped silently | `C21_zero_radius_refuted` |
| arcs | G90.1 reports an error, then arcs run around a wrong centre | `C61_absolute_refuted` |
| splines | wrong second control point for G5.1; a missing P or Q and further axes are accepted; the example of the comment gives another curve | `C62_parabola_refuted`, `C62_checks_refuted` |
| parameter file | a crash between the renames leaves no main file; write errors and a failing fdatasync go unnoticed; a negative number stops saving | `C24_missing_refuted`, `C24_full_refuted`, `C24_sync_refuted`, `C25_negative_refuted` |
| planner | the default lookahead of 1024 does not fit the buffer of 1023; with lookahead 1 every move is reported as failed | `C27_default_refuted`, `C58_lookahead_one_refuted` |
| planner | a ramp up is cut to whole steps but its end speed kept: short ramps take up to twice the acceleration configured | `C64_whole_steps_refuted` |
| planner | at a corner between the threshold angle and 45 degrees the first axis that moves is not compared: another axis may lose half its speed at once | `C72_threshold_refuted` |
| planner, motor operations | a plan may slow down by next to nothing in a single step; the motor operations then compute a delay of 0, the firmware makes 43 seconds of it: the machine stops for 86 seconds in mid-motion | `C73_stall_refuted` |
| statistics | a move of a single step is planned from speed 0 to speed 0; its time is 2 / 0 and the time of the file is infinite | `C74_single_step_refuted` |
| statistics | the time is added up in a float: after 4.5 hours motions below a millisecond add nothing, so that any amount of time may be missing | `C74_long_refuted` |
| outputs | an emergency stop switches the outputs off at once, but the segments that are still in the queue switch them on again and nobody switches them off after the last one | `C76_stop_refuted` |
| spindle | M5 and the end of a file bring the path to a halt but do not wait for the queue, contrary to the comment: the spindle is switched off too early, then on again by the queued segments, and stays on | `C76_spindle_off_refuted` |
| servers | the machine goes on printing to the descriptor of a G-code client that has left; a status client that gets this number receives it | `C77_messages_refuted` |
| servers | a connection for which fcntl fails is neither served nor closed | `C77_dropped_refuted` |
| servers | a G-code file that cannot be opened is registered as descriptor -1: FD_SET(-1) is undefined | `C77_missing_file_refuted` |
| main | changing to a user and group keeps the supplementary groups of root; `--priv user` keeps its group too | `C79_groups_refuted` |
| main | if giving up root or creating the machine fails the program ends with the firmware still running | `C79_firmware_left_refuted` |
| main | a dry run, and a second start on a port in use, still tell a spindle at a serial port to stop | `C79_dry_run_refuted`, `C79_second_start_refuted` |
| main | with `-d` a relative name of a G-code file is taken relative to `/` | `C79_daemon_file_refuted` |
| main | a status port below 1024 is silently not served; `-f nan` is accepted | `C79_status_refuted`, `C79_speed_refuted` |
| machine | 1023 moves in a row with the default lookahead fail an assertion of the planner, on a machine that was just started | `C80_default_refuted`, see C27 |
| parser | a line with a bare coordinate that the machine refuses (`X500`) changes the parser's position all the same; the next relative move starts where the machine is not | `C81_refused_refuted` |
| parser | G28 sets the parser's position to the origin also for an axis without home switch, which does not move | `C81_home_refuted` |
| parser | an arc around its own start (`G2 X50 I0 J0`) is accepted without a move, but the parser takes its end as the position | `C81_arc_refuted` |
| hardware mapping | an emergency stop, pause, start or probe switch may be put on an input the cape does not have; min_ and max_ switches are refused there as possibly dangerous; the emergency stop then never answers (`C44_unconnected_refuted`) |
| sim-audio | the sizes in the header of the WAV file wrap at 2^32: after 6.8 hours of a run they are smaller than the file | `C82_long_refuted` |
| gcode2ps | homing one axis (`G28 X0`) goes to the origin of all axes in the picture | `C83_home_refuted` |
| gcode2ps | with the laser shown, a burn after a rapid move is black instead of in the shade of its power, if the power is the same as before | `C83_laser_refuted` |
| gcode2ps | an axis without homing switch is drawn from a wrong place in the second run, the moves of the first are forgotten | `C84_unhomed_refuted` |
| gcode2ps | a machine without Z (0 steps per mm) gets `nan` for Z in every point of the machine path | `C84_flat_refuted` |
| gcode2ps | with speeds shown and one speed only, 0/0 is converted to int (undefined, or a failed assertion) | `C84_steady_refuted` |
| planner | where the axis with most steps changes between two legs in one direction the speed jumps; a single step is planned with speed 0 | `C29_axis_change_refuted`, `C29_single_step_refuted` |
| motor operations | speed 0 is undefined behaviour | `C31_zero_speed_undefined_refuted` |
| firmware | accelerations beyond about 700 kHz lose steps; the simulator does not show it | `C32_fast_acceleration_loses_steps_refuted`, `C36_sim_hides_lost_steps_refuted` |
| motor operations, firmware | the start of a ramp is rounded to a whole half step: from 300 to 2000 steps/s in 20 steps ends 60 % too fast; a very slow change of a high speed gets a delay of 0, which becomes a pause of 43 s | `C70_overshoot_refuted`, `C70_stall_refuted` |
| pru-motion-queue | sixteen pending segments are reported as one | `C38_sixteen_reported_as_one_refuted` |
| machine control | NaN targets pass the range check; spindle and outputs can be switched on in soft e-stop; homing ignores an e-stop in the middle; the speed factor is applied twice | `C46_nan_refuted`, `C47_spindle_in_stop_refuted`, `C47_output_in_stop_refuted`, `C49_stop_while_homing_refuted`, `C51_factor_twice_refuted` |
| spindle | max-rpm 0 hangs; reverse start over serial can hang; large speeds overflow | `C53_no_max_rpm_refuted`, `C53_serial_reverse_refuted`, `C53_serial_overflow_refuted` |
| PWM | NaN is undefined behaviour | `C54_nan_refuted` |
| statistics | the minimum of Z starts at 0 | `C55_z_min_refuted` |

Seen while reading, without a theorem: G5 followed by another word on its line is refused and the rest of the line dropped (this is `C62_alone`); ELSE of an IF is found as a raw substring; the number reader takes the axis letter E for an exponent; LoadParams keeps upper-case names that no expression can reach; M2 does not reset the work coordinate system; M501 does not re-initialise the coordinate systems; a G18 plane is ordered X, Z, the reverse of RS274.
