{
 "claims": [
  {
   "property": "C01",
   "status": "proved",
   "theorems": [
    "C01_input_forwards_newer",
    "C01_input_in_program"
   ],
   "note": "Any number of ports, any schedule of arrivals and executions."
  },
  {
   "property": "C02",
   "status": "proved",
   "theorems": [
    "C02_bounded_port",
    "C02_running_sum"
   ],
   "note": "Exact contents for every history; the running sum over any ordered field."
  },
  {
   "property": "C03",
   "status": "proved",
   "theorems": [
    "C03_fires_once",
    "C03_may_emit_only_then",
    "C03_window_zero_never_emits"
   ],
   "note": "Every schedule of arrivals and executions; Difference is covered by C11."
  },
  {
   "property": "C04",
   "status": "proved",
   "theorems": [
    "C04_moving_average"
   ],
   "note": "Over any ordered field (exact arithmetic)."
  },
  {
   "property": "C05",
   "status": "partial",
   "theorems": [
    "C05_window_only_refuted",
    "C05_infinity_is_never_forgotten",
    "C05_integers_partial"
   ],
   "note": "REFUTED over binary64: the emitted average depends on values that left the window (drift, and NaN for ever after an infinity). Holds, correctly rounded, for integer-valued doubles with n*B <= 2^53."
  },
  {
   "property": "C06",
   "status": "proved",
   "theorems": [
    "C06_standard_deviation"
   ],
   "note": "Over any ordered field with the library square root as a parameter."
  },
  {
   "property": "C07",
   "status": "proved",
   "theorems": [
    "C07_fir"
   ],
   "note": "Any arithmetic."
  },
  {
   "property": "C08",
   "status": "partial",
   "theorems": [
    "C08_autoregressive_refuted",
    "C08_autoregressive_reversed_partial",
    "C08_autoregressive_symmetric_partial"
   ],
   "note": "REFUTED: the coefficients are applied in reverse order. The recurrence the code computes is proved, and the documented one for palindromic coefficients."
  },
  {
   "property": "C09",
   "status": "proved",
   "theorems": [
    "C09_peak_detector"
   ],
   "note": "Any arithmetic and schedule."
  },
  {
   "property": "C10",
   "status": "proved",
   "theorems": [
    "C10_count",
    "C10_cumulative_sum"
   ],
   "note": "Any arithmetic and schedule."
  },
  {
   "property": "C11",
   "status": "partial",
   "theorems": [
    "C11_difference_refuted",
    "C11_difference_undefined",
    "C11_difference_partial",
    "C11_difference_b64_partial"
   ],
   "note": "REFUTED for times above 2^53 (the time goes through double, undefined behaviour near 2^64); proved for times up to 2^53."
  },
  {
   "property": "C12",
   "status": "proved",
   "theorems": [
    "C12_maps",
    "C12_filters"
   ],
   "note": "Any arithmetic and schedule."
  },
  {
   "property": "C13",
   "status": "partial",
   "theorems": [
    "C13_time_shift_refuted",
    "C13_zero_shift",
    "C13_no_clamp",
    "C13_time_shift_partial"
   ],
   "note": "REFUTED: a zero shift sends every message to time 0 and negative results wrap around instead of being clamped. Proved when the shift is not zero and results stay in range."
  },
  {
   "property": "C14",
   "status": "proved",
   "theorems": [
    "C14_constant_resampler",
    "C14_grid_is_the_grid"
   ],
   "note": "Over every strictly increasing history: exactly the grid t0+k*d with the last value, uninitialised members arbitrary; no 64 bit overflow assumed (newest+d < 2^64)."
  },
  {
   "property": "C15",
   "status": "proved",
   "theorems": [
    "C15_cosine_resampler",
    "C14_grid_is_the_grid"
   ],
   "note": "Same grid, cosine interpolation of the surrounding messages; gaps below d*(2^31-3) because the loop counter is an int."
  },
  {
   "property": "C16",
   "status": "partial",
   "theorems": [
    "C16_hermite_grid_refuted",
    "C16_hermite_increasing_refuted",
    "C16_hermite_grid_partial"
   ],
   "note": "REFUTED in general (off the grid, not increasing); proved when the first interval holds a grid point."
  },
  {
   "property": "C17",
   "status": "proved",
   "theorems": [
    "C17_function_linear",
    "C17_through_the_points",
    "C17_order_of_points"
   ],
   "note": "Exact arithmetic (ordered field)."
  },
  {
   "property": "C18",
   "status": "partial",
   "theorems": [
    "C18_function_hermite_refuted",
    "C18_function_hermite_partial",
    "C18_unit_spacing_partial"
   ],
   "note": "REFUTED for straight lines; proved: passes through the points, exact error law on straight lines, lines reproduced for unit spacing."
  },
  {
   "property": "C19",
   "status": "proved",
   "theorems": [
    "C19_variable",
    "C19_every_answer_is_right",
    "C19_ordered_questions"
   ],
   "note": "Exact behaviour for every interleaving; an exception is possible only when the questions are out of time order."
  },
  {
   "property": "C20",
   "status": "partial",
   "theorems": [
    "C20_every_question_refuted",
    "C20_latest_question_partial"
   ],
   "note": "REFUTED: a question is lost when another arrives before data covers it; proved: the latest question is always answered exactly once."
  },
  {
   "property": "C21",
   "status": "proved",
   "theorems": [
    "C21_join_synchronized",
    "C21_common_times",
    "C21_join_exists"
   ],
   "note": "For every number of ports >= 2 and every interleaving of arrivals and executions with increasing times per port."
  },
  {
   "property": "C22",
   "status": "proved",
   "theorems": [
    "C22_join_keeps_pending",
    "C22_join_complete",
    "C22_join_interleaving"
   ],
   "note": "Pending common times stay queued; after as many executions as messages received all are emitted; the output depends only on what each port received."
  },
  {
   "property": "C23",
   "status": "partial",
   "theorems": [
    "C23_as_soon_as_complete_refuted",
    "C23_one_clock_partial",
    "C23_global_order_partial",
    "C23_lead_partial"
   ],
   "note": "REFUTED in general: a complete time can wait for a further execution when the ports carry unmatched times. Proved when all ports follow one clock and every arrival is followed by an execution (C23_one_clock_partial), when the arrivals come in order of their times over all the ports together, whatever the clocks (C23_global_order_partial), and when the other ports have all the times of one port, in any order of arrivals (C23_lead_partial)."
  },
  {
   "property": "C24",
   "status": "proved",
   "theorems": [
    "C24_two_input",
    "C24_two_input_complete",
    "C24_exact_values_comparable",
    "C24_numbers_are_comparable",
    "C24_and_is_not_symmetric_on_nan"
   ],
   "note": "All eight two-input operators, every interleaving. And/Or need values comparable with 0.5: every number is, a NaN is not (shown)."
  },
  {
   "property": "C25",
   "status": "partial",
   "theorems": [
    "C25_linear_refuted",
    "C25_linear_partial",
    "C25_linear_alphabetical_partial",
    "C25_ten_refuted"
   ],
   "note": "REFUTED from ten coefficients on: ports are taken in alphabetical order of their names. Proved up to nine coefficients; the exact pairing is proved for every number. C25_ten_refuted: every Linear with ten coefficients or more pairs its second coefficient with i10."
  },
  {
   "property": "C26",
   "status": "partial",
   "theorems": [
    "C26_skipped_time_refuted",
    "C26_demultiplexer_partial",
    "C26_routing_partial",
    "C26_never_fails_partial",
    "C26_complete_partial",
    "C26_given",
    "C26_exists"
   ],
   "note": "REFUTED in general: a control that goes past the time of a waiting message makes every execution throw, so a later complete message is not emitted. Proved: the exact behaviour (including the exception) for every interleaving; routing, order, completeness and absence of failures when no control is mismatched."
  },
  {
   "property": "C27",
   "status": "proved",
   "theorems": [
    "C27_wilder",
    "C27_any_schedule",
    "C27_in_range",
    "C27_extremes"
   ],
   "note": "exact arithmetic (any ordered field; n+1 < 2^64). C27_any_schedule covers several arrivals between executions"
  },
  {
   "property": "C28",
   "status": "proved",
   "theorems": [
    "C28_result",
    "C28_acyclic",
    "C28_next"
   ],
   "note": "for every program, state, batch and successful call; acyclic refinement gives the emissions of each operator"
  },
  {
   "property": "C29",
   "status": "partial",
   "theorems": [
    "C29_terminates",
    "C29_depth",
    "C29_fuel_irrelevant",
    "C29_no_endless_loop_partial",
    "C29_no_endless_loop_refuted"
   ],
   "note": "recursion depth is bounded on every acyclic program (C29_terminates, C29_depth). Endless loops inside one operator are excluded without a ConstantResampler and REFUTED with one: interval 2, times 2^64-4 then 2^64-1 loop forever"
  },
  {
   "property": "C30",
   "status": "partial",
   "theorems": [
    "C30_rejects_cycles_refuted",
    "C30_accepted",
    "C30_loops",
    "C30_first_message"
   ],
   "note": "REFUTED: loops are accepted. C30_accepted: creation only looks at whether connections can be resolved. C30_loops: in every accepted program with a loop of operators that answer every message at once (Add, Scale, Power, Constant, Identity, Count, CumulativeSum, TimeShift, Function), after every history and for every depth of the stack, a call that succeeds has sent nothing into the loop; C30_first_message: if an output of an Input entry is connected to the loop, the first message on that input never succeeds. C30_rejects_cycles_refuted: the smallest example, which overflows at every depth. Acyclic programs are covered by C29."
  },
  {
   "property": "C31",
   "status": "proved",
   "theorems": [
    "C31_state",
    "C31_output"
   ],
   "note": "state for every outcome, output for successful calls"
  },
  {
   "property": "C32",
   "status": "proved",
   "theorems": [
    "C32_operator",
    "C32_input",
    "C32_program",
    "C32_built"
   ],
   "note": "Operators: every constructor in Spec/Preserving.v (Input, Output, Collector, filters, arithmetic, MovingAverage, StandardDeviation, PeakDetector, FIR, RSI, Function, Join, two-input operators, Linear, Demultiplexer, Variable). Not covered by 'time preserving': TimeShift, resamplers, Difference (time passes through a double), AutoRegressive, Pipeline. C32_one_feed_needed shows the one-connection hypothesis is necessary."
  },
  {
   "property": "C33",
   "status": "partial",
   "theorems": [
    "C33_connection_order_refuted",
    "C33_outputs_partial",
    "C33_forest_partial",
    "C33_forest_definition",
    "C33_time_order_partial"
   ],
   "note": "REFUTED in general: exchanging two connections of an acyclic program with one connection per input port changes what a Join emits. C33_outputs_partial: true for every graph and every history, failures included, when the connections that leave the same output keep their order: the order of connections that leave different outputs never matters. C33_forest_partial: true for any order in acyclic programs in which every operator hears from at most one other operator (no diamonds) and no output port is connected twice to the same operator, as long as no call fails; C33_forest_definition gives a condition on the definition alone. C33_time_order_partial: true with diamonds, when the entry is an Input, no input port has two connections, every other operator answers at once and the messages sent have times that never decrease: every call returns the same on every port."
  },
  {
   "property": "C34",
   "status": "partial",
   "theorems": [
    "C34_interleaving_refuted",
    "C34_time_order_partial",
    "C22_join_interleaving",
    "C01_input_in_program"
   ],
   "note": "REFUTED for single calls: with a two-port Input and a Join the pairs emitted depend on the interleaving. Positive: for every interleaving in which times never decrease, every operator of a program whose operators answer at once emits the same stream (C34_time_order_partial); once executed often enough a Join emits the same for every interleaving (C22_join_interleaving), and an Input's ports do not influence each other (C01_input_in_program)."
  },
  {
   "property": "C35",
   "status": "proved",
   "theorems": [
    "C35_one_by_one",
    "C35_concatenation",
    "C35_split"
   ],
   "note": ""
  },
  {
   "property": "C36",
   "status": "partial",
   "theorems": [
    "C36_same_state",
    "C36_restricts_partial",
    "C36_restricts_refuted"
   ],
   "note": "exact restriction when no port is listed twice; REFUTED for a port listed twice (messages duplicated)"
  },
  {
   "property": "C37",
   "status": "partial",
   "theorems": [
    "C37_round_trip_partial",
    "C37_restores",
    "C37_cumulative_sum_refuted"
   ],
   "note": "REFUTED in one case: the snapshot of a CumulativeSum omits a message received but not processed yet. For every other operator except RelativeStrengthIndex and Pipeline (see C39), in every reachable state, restoring gives exactly the same state and consumes exactly the collected bytes. Values fit their C++ types (hypothesis fits)."
  },
  {
   "property": "C38",
   "status": "proved",
   "theorems": [
    "C38_continues",
    "C38_same_bytes",
    "C38_created"
   ],
   "note": "Every program of all operators except RelativeStrengthIndex and Pipeline (these are C39), every history including calls that ended in an exception, every future. C38_created: programs created from JSON text and restored by the bytes constructor. fits says the state fits the C++ types."
  },
  {
   "property": "C39",
   "status": "partial",
   "theorems": [
    "C39_continues_partial",
    "C39_created_partial",
    "C39_rsi_refuted",
    "C39_pipeline_refuted"
   ],
   "note": "REFUTED: a RelativeStrengthIndex restarts its averages after a restore (C39_rsi_refuted); the operators inside a Pipeline start anew (C39_pipeline_refuted). Proved for RelativeStrengthIndex while it has not emitted anything yet."
  },
  {
   "property": "C40",
   "status": "partial",
   "theorems": [
    "C40_truncated_partial",
    "C40_never_rejected_refuted",
    "C40_silent_loss_refuted"
   ],
   "note": "REFUTED: no truncated snapshot is ever rejected; it is undefined behaviour or, cut between operators, accepted with silently lost state."
  },
  {
   "property": "C41",
   "status": "proved",
   "theorems": [
    "C41_connect",
    "C41_creation",
    "C41_rejected",
    "created_well_formed",
    "C41_delivers"
   ],
   "note": "Creation wires exactly the listed connections in order, rejects unresolved ones; after any history every emitted message is delivered along exactly the listed connections. JSON text level (nlohmann parse/dump) is a parameter."
  },
  {
   "property": "C42",
   "status": "partial",
   "theorems": [
    "C42_accepted_partial",
    "C42_missing_rejected",
    "C42_control_inputs_accepted",
    "C42_control_inputs_refuted"
   ],
   "note": "REFUTED for entry operators with control inputs: the exception is built but not thrown (Program.cpp:65-76), an empty program results and every batch throws. Missing entry operators are rejected."
  },
  {
   "property": "C43",
   "status": "partial",
   "theorems": [
    "C43_round_trip_partial",
    "C43_rsi_refuted",
    "C43_function_refuted"
   ],
   "note": "REFUTED for RelativeStrengthIndex (n grows by one per round trip) and Function (cannot be read at all); proved for all other operators including nested Pipelines."
  },
  {
   "property": "C44",
   "status": "proved",
   "theorems": [
    "C44_isolated",
    "C44_others",
    "C44_context"
   ],
   "note": "Model of FactoryOp with all its calls and the bindings' processBatch; garbage members are a parameter of each creation."
  },
  {
   "property": "C45",
   "status": "partial",
   "theorems": [
    "C45_direct",
    "C45_buffered_partial",
    "C45_process_batch_partial",
    "C45_exception_keeps",
    "C45_exactly_once_refuted"
   ],
   "note": "REFUTED when processing throws: the buffer is kept and everything in it is processed again (C45_exception_keeps, C45_exactly_once_refuted). Proved whenever processing succeeds, for Process and processBatch."
  },
  {
   "property": "C46",
   "status": "partial",
   "theorems": [
    "C46_untouched",
    "C46_bytes",
    "C46_text_refuted"
   ],
   "note": "REFUTED for creation from a JSON definition: the reply is that of a success. The existing program is never touched; creation from bytes reports an error."
  },
  {
   "property": "C47",
   "status": "partial",
   "theorems": [
    "C47_forgotten_partial",
    "C47_direct_calls",
    "C47_pending_refuted"
   ],
   "note": "REFUTED when messages are pending: deleteProgram leaves the buffer, the new program processes the old messages. Proved when nothing is pending."
  },
  {
   "property": "C48",
   "status": "partial",
   "theorems": [
    "C48_colon_refuted",
    "C48_pending_refuted",
    "C48_inner",
    "C48_ports",
    "C48_behaves_partial",
    "C48_program_partial",
    "C48_history_partial",
    "C48_hidden",
    "C28_pipelines"
   ],
   "note": "REFUTED in two cases: a Pipeline around an operator whose id contains a colon refuses every message (C48_colon_refuted); when a Pipeline gets two messages before it is executed only the second may be answered (C48_pending_refuted). Proved otherwise: inner operators and ports are those of the definition, each message received and executed gives what the inner program reports (or its failure), over whole histories when the outputs feeding the Pipeline feed nothing else, and results never mention inner operators. Missing: diamonds into a Pipeline."
  },
  {
   "property": "C49",
   "status": "proved",
   "theorems": [
    "C49_direct",
    "C49_direct_plain",
    "C49_plain",
    "C49_no_input"
   ],
   "note": "Any sequence of C++ calls that builds operators and Composites, connects them and sends messages, in any order: every message gives the same outcome (failures included) when the operators created by the Composites are created and wired directly. Conditions: operators come from the library's constructors, and a Composite is given an input operator before the user sends it messages; without one it refuses messages and nothing changes (C49_no_input)."
  },
  {
   "property": "C50",
   "status": "partial",
   "theorems": [
    "C50_windows_partial",
    "C50_autoregressive_partial",
    "C50_synchronised_partial",
    "C50_join_refuted",
    "C50_demultiplexer_refuted"
   ],
   "note": "REFUTED for Join, the operators derived from it (shown: Join and Minus) and Demultiplexer: their buffers grow without bound while one input gets nothing, and every call succeeds. Proved for every other operator except AutoRegressive (also inside Pipelines): after any history of calls, failed ones included, no buffer holds more than its declared size; for AutoRegressive at the top level after every history without failed calls; for Join, two-input operators and Linear on one clock: no more messages than one port is ahead of another."
  },
  {
   "property": "C51",
   "status": "proved",
   "theorems": [
    "C51_calls",
    "C51_within_a_call"
   ],
   "note": ""
  },
  {
   "property": "C52",
   "status": "partial",
   "theorems": [
    "C52_demultiplexer_refuted",
    "C52_buffer_refuted",
    "C52_unknown_port_partial"
   ],
   "note": "REFUTED: after a Demultiplexer got a data message older than its pending control message every later message of the program throws, although without that message the following ones are processed. REFUTED also for the message buffer: a message for an input the entry operator does not have is accepted into the buffer, and from then on every call that processes the buffer of this program fails, whatever else is called, until the program is deleted (C52_buffer_refuted: any program text, any calls before and after). Proved: sent directly, a message for an input the entry operator does not have throws and has no effect on the results of any later calls (any entry operator, Pipelines included)."
  },
  {
   "property": "C53",
   "status": "partial",
   "theorems": [
    "C53_parameters_partial",
    "C53_variable_truncates",
    "C53_timeshift_refuted",
    "C53_variable_refuted"
   ],
   "note": "REFUTED for Variable (value truncated to int) and TimeShift (dt narrowed to int); proved for all other types and for values in the int range."
  },
  {
   "property": "C54",
   "status": "proved",
   "theorems": [
    "C54_reproducible",
    "C54_restored",
    "C54_manager"
   ],
   "note": "Programs created from JSON, restored from bytes, and whole sessions with the manager; also Pipelines. Replies that are snapshots are C55."
  },
  {
   "property": "C55",
   "status": "partial",
   "theorems": [
    "C55_snapshot_partial",
    "C55_snapshot_refuted"
   ],
   "note": "REFUTED: the snapshot of a ConstantResampler that has received nothing contains uninitialised members. Proved for all programs once every ConstantResampler has received a message."
  },
  {
   "property": "C56",
   "status": "proved",
   "theorems": [
    "C56_no_failure",
    "C56_rsi_refuted"
   ],
   "note": "All programs of the listed types, any nesting of Pipelines, any history of batches for existing inputs. That the conditions on the types are needed: C56_rsi_refuted for RelativeStrengthIndex with n = 0; C52_demultiplexer_refuted (Demultiplexer), C11_difference_undefined (Difference), C29_no_endless_loop_refuted (ConstantResampler), C48_colon_refuted (':' in an inner id) for other types. AutoRegressive, Variable, Function and the resamplers are not covered."
  },
  {
   "property": "C57",
   "status": "partial",
   "theorems": [
    "C57_created_partial",
    "C57_refused",
    "C57_join_refuted",
    "C57_linear_refuted",
    "C57_function_refuted"
   ],
   "note": "REFUTED in general: the schema requires neither numPorts of a Join nor coeff of a Linear, whose absence is undefined behaviour in createProgram (C57_join_refuted, C57_linear_refuted), and a valid Function always throws (C57_function_refuted). C57_created_partial: every other valid definition with parameters in the range of their C++ types (ready) is created when its connections link existing ports and its entry operator exists without control inputs; C57_refused: otherwise an exception and no change."
  },
  {
   "property": "C58",
   "status": "partial",
   "theorems": [
    "C58_rejected",
    "C58_history",
    "C58_only_valid",
    "C58_snapshot_refuted",
    "C58_connection"
   ],
   "note": "REFUTED for snapshots: createProgram from bytes does not validate the definition in them (C58_snapshot_refuted). For creation from text the property is proved in full: C58_rejected, C58_history, C58_only_valid."
  },
  {
   "property": "C59",
   "status": "partial",
   "theorems": [
    "C59_written_partial",
    "C59_timeshift_refuted",
    "C59_lessthan_refuted"
   ],
   "note": "REFUTED for RelativeStrengthIndex, Pipeline (not in the schema), LessThan with a fractional value, TimeShift by 2^31 and more, and others that in_schema lists; C59_written_partial says exactly for which operators it holds."
  },
  {
   "property": "C60",
   "status": "partial",
   "theorems": [
    "C60_available_partial",
    "C60_unknown_refuted",
    "C60_operator_refuted",
    "C60_factory_accepts"
   ],
   "note": "REFUTED for RelativeStrengthIndex and Pipeline (C60_unknown_refuted, C60_operator_refuted; FactoryOp itself accepts them, C60_factory_accepts) and for Function (C57_function_refuted); C60_available_partial: it holds for all other types."
  },
  {
   "property": "C61",
   "status": "partial",
   "theorems": [
    "C61_filter_partial",
    "C61_pattern_refuted"
   ],
   "note": "REFUTED: the pattern of the schema omits the letters u to z, so entries for operators such as \"out\" are not checked and a malformed one silently removes the filter (C61_pattern_refuted); C61_filter_partial: it holds when the keys match the pattern."
  },
  {
   "property": "C62",
   "status": "proved",
   "theorems": [
    "C62_any_length",
    "C62_drift"
   ],
   "note": "Over IEEE binary64. C62_any_length: any number of messages, with the bound (1+2^-53)^(2k+1)-1; C62_drift: the linear bound up to 2^51 messages."
  },
  {
   "property": "C63",
   "status": "proved",
   "theorems": [
    "C63_cumulative_sum",
    "C63_fir"
   ],
   "note": "Over IEEE binary64."
  },
  {
   "property": "C64",
   "status": "proved",
   "theorems": [
    "C64_in_range",
    "C64_number",
    "C64_always_a_number_refuted"
   ],
   "note": "Over IEEE binary64. Without the bound on the values a NaN is possible (C64_always_a_number_refuted: the difference of two finite values overflows)."
  },
  {
   "property": "C65",
   "status": "proved",
   "theorems": [
    "C65_standard_deviation"
   ],
   "note": "Over IEEE binary64; pow(x,2) is assumed to be a non-negative number for every number x (a_library shows such a pow)."
  },
  {
   "property": "C66",
   "status": "proved",
   "theorems": [
    "C66_run",
    "C66_rejected"
   ],
   "note": "For ports without ':' in their name, which all ports of created operators are; rows need at least one value."
  },
  {
   "property": "C67",
   "status": "partial",
   "theorems": [
    "C67_rerun_refuted",
    "C67_left",
    "C67_again_partial"
   ],
   "note": "REFUTED: a run that fails leaves its program and its buffered messages, and the next run continues with them. Proved: a run that succeeds leaves nothing and can be repeated."
  },
  {
   "property": "C68",
   "status": "partial",
   "theorems": [
    "C68_columns_refuted",
    "C68_columns_partial",
    "C68_ten_refuted"
   ],
   "note": "REFUTED: with ten inputs the second column goes to i10. Proved for entry operators with at most nine inputs. C68_ten_refuted: the same for every valid definition whose entry has ten inputs or more."
  },
  {
   "property": "C69",
   "status": "partial",
   "theorems": [
    "C69_python",
    "C69_duplicate_refuted",
    "C69_javascript",
    "C69_deleted",
    "C69_ids_refuted",
    "C69_entry_refuted",
    "C69_python_connection"
   ],
   "note": "REFUTED: JavaScript accepts the same id twice and keeps a deleted operator as entry operator; Python accepts the same connection twice. Proved: ends of connections are operators (both), ids are unique (Python), connections are unique (JavaScript), deleteOperator removes exactly the operator and its connections."
  },
  {
   "property": "C70",
   "status": "partial",
   "theorems": [
    "C70_delete_refuted",
    "C70_removed"
   ],
   "note": "REFUTED for every program: the connection is never removed; connections that differ in all four members are removed instead."
  },
  {
   "property": "C71",
   "status": "partial",
   "theorems": [
    "C71_date_refuted",
    "C71_output_refuted",
    "C71_parse_partial"
   ],
   "note": "REFUTED: without a date every definition is refused, with an output filter parse is a TypeError. Proved for valid definitions with a date and without unknown members, given that what json.dumps writes is read back."
  },
  {
   "property": "C72",
   "status": "partial",
   "theorems": [
    "C72_single_source",
    "C72_entry",
    "C72_output",
    "C72_inner_input",
    "C72_join",
    "C72_two_input",
    "C72_linear",
    "C72_join_any_order",
    "C72_two_input_any_order",
    "C72_linear_any_order",
    "C72_join_lead",
    "C72_two_input_lead",
    "C72_linear_lead"
   ],
   "note": "Proved for every acyclic program with at most one connection per input port: operators with one connected input, Output, Input (entry or not), for any times; Join, two-input operators and Linear (up to nine inputs) (1) when the messages sent have times that never decrease and everything upstream answers at once (C72_join, C72_two_input, C72_linear), or (2) for any operators upstream and any order of sending, when times increase on each input and the other inputs have all the times of one of them (C72_*_lead). Joins downstream of any operators, fed in any order, as long as times increase on each input: what they emit is right and in order, for an initial part of the times all inputs have, and the messages for the remaining times are still waiting in them (C72_*_any_order). Missing: that nothing is left waiting in that last case (false: C72_late_example, C33, C34); Linear with ten inputs or more (C25)."
  },
  {
   "property": "C73",
   "status": "partial",
   "theorems": [
    "C73_first_interval_partial",
    "C73_any_history_partial",
    "C73_through_messages",
    "C73_slope_refuted",
    "C73_hermite_curve_partial",
    "C73_hermite_through_messages_partial"
   ],
   "note": "REFUTED when the first interval holds no grid point (C73_slope_refuted). Proved for exact arithmetic: with a grid point in the first interval, the first four times below 2^30 and the first time not below the average gap, the run succeeds and every value, those of the first interval included, is on the curve (C73_first_interval_partial); for any history that does not fail, the values go through the messages (C73_through_messages)."
  },
  {
   "property": "C74",
   "status": "partial",
   "theorems": [
    "C74_run_partial",
    "C74_times_refuted",
    "C74_missing_refuted"
   ],
   "note": "REFUTED for times from 2^32 on (an unsigned long of wasm has 32 bits; milliseconds of dates exceed it) and for rows that lack a value, which are processed with whatever undefined becomes. Proved: for times below 2^32 and complete rows the outputs are exactly the program's answers, for every program and history; ports without ':' (all ports of created operators)."
  },
  {
   "property": "C75",
   "status": "partial",
   "theorems": [
    "C75_again_refuted",
    "C75_left",
    "C75_new_object_partial"
   ],
   "note": "REFUTED: run() again on the same object doubles every list of outputs; a run that fails leaves its program registered. Proved: with a new object a run that succeeded can be repeated with the same result."
  },
  {
   "property": "C76",
   "status": "partial",
   "theorems": [
    "C76_wrong_port_refuted",
    "C76_messages_partial"
   ],
   "note": "REFUTED: one message for an input that is not there makes every later call fail, whatever is done, also after stop and start. Proved: as long as the program alone processes the messages, each call is answered as by the program alone, and stop restores the library's state."
  },
  {
   "property": "C77",
   "status": "partial",
   "theorems": [
    "C77_own_answer_refuted",
    "C77_schedule_partial"
   ],
   "note": "REFUTED: of calls made at once the first gets the answer to all, the others an empty one. Proved for calls on one input, in debug mode or (if the output section lists no port twice) not in debug mode, for every interleaving: answers come in the order of the calls, all are good, and together they are exactly the outputs to all messages in order."
  },
  {
   "property": "C78",
   "status": "partial",
   "theorems": [
    "C78_done_refuted",
    "C78_reports_partial"
   ],
   "note": "REFUTED: 1 is never reported, and nothing is reported for fewer than 20 rows. Proved: from 20 rows on there are 20 to 39 reports, at equal distances, with increasing fractions."
  },
  {
   "property": "C79",
   "status": "partial",
   "theorems": [
    "C79_extended_partial",
    "C79_again_refuted"
   ],
   "note": "REFUTED for repeated runs on one object (C79_again_refuted: every element is there twice). Proved: a run adds exactly one element per row, in order, with the program's answers, and leaves nothing behind, for times below 2^32 and rows with a value for every entry port (otherwise see C74), with a callback or none."
  },
  {
   "property": "C80",
   "status": "partial",
   "theorems": [
    "C80_debug_partial",
    "C80_verbose_refuted"
   ],
   "note": "REFUTED: with the option verbose every file with at least twenty numeric rows makes the command fail (C80_verbose_refuted), because the option is passed as progress callback. Proved without the option, or for fewer rows: exactly the numeric rows with the program's answers, for times below 2^32. Reading and splitting the file and the conversion of texts to numbers are parameters."
  },
  {
   "property": "C81",
   "status": "partial",
   "theorems": [
    "C81_shown_partial",
    "C81_end_refuted",
    "C81_outputs_refuted",
    "C81_goes_on_partial"
   ],
   "note": "REFUTED: with any operator selected, going to one of the last ten iterations makes the tool fail (C81_end_refuted; so runs of at most ten rows cannot be looked at), and so does an iteration within the next eleven in which a selected operator has emitted on some of its outputs only (C81_outputs_refuted; a Demultiplexer always does). Proved, for operators with different ids, not empty and without ':': as long as the tool has not failed the table is right (C81_shown_partial), and it fails in no other case (C81_goes_on_partial)."
  },
  {
   "property": "C82",
   "status": "partial",
   "theorems": [
    "C82_straight_partial",
    "C82_from_zero_refuted",
    "C82_clock_refuted"
   ],
   "note": "REFUTED: if the first time is below the gap the point made up before it wraps around and the first value is off by about the slope times 2^63 (every such history, C82_from_zero_refuted); if the first time is 2^32 or later the conversion of a squared time is undefined (every such history, C82_clock_refuted). Proved for exact arithmetic when the first time is not below the gap and the fourth is below 2^30."
  },
  {
   "property": "C83",
   "status": "partial",
   "theorems": [
    "C83_arguments",
    "C83_positional",
    "C83_created_partial",
    "C83_meant_partial",
    "C83_linear_refuted",
    "C83_function_refuted",
    "C83_interpolation_refuted",
    "C83_unknown_refuted"
   ],
   "note": "REFUTED for Linear without coeff (documented as optional, always an exception), for Function (no Function made with the class can be created, its interpolation cannot be given) and for RelativeStrengthIndex and Pipeline (no class). Proved: what the object of every class and every call consists of, that positions and names are the same, that objects made by classes are created when their numbers are not too large, and that the created operator has the given parameters and the documented defaults. The text written by json.dumps is assumed to be read back (readable)."
  },
  {
   "property": "C84",
   "status": "partial",
   "theorems": [
    "C84_arguments",
    "C84_meant_partial",
    "C84_join_refuted",
    "C84_linear_refuted",
    "C84_function_refuted"
   ],
   "note": "REFUTED for Join without numPorts and Linear without coeff (accepted by the constructor, undefined behaviour in createProgram) and for Function. Proved: the members of the object for every class and arguments, and that with parameters in their ranges the created operator has them."
  },
  {
   "property": "C85",
   "status": "partial",
   "theorems": [
    "C85_created_partial",
    "C85_date_refuted"
   ],
   "note": "REFUTED without a date: the entry operator is not written, no program is created and Run fails. Proved: with a date, for every sequence of edits with operators from the classes (numbers not too large), the program is created with exactly the operators that were added."
  },
  {
   "property": "C86",
   "status": "proved",
   "theorems": [
    "C86_peaks"
   ],
   "note": "Over an ordered field (exact arithmetic); the rounding of doubles is the subject of C05 and C62-C65."
  },
  {
   "property": "C87",
   "status": "proved",
   "theorems": [
    "C87_bands",
    "C87_answered"
   ],
   "note": "Over an ordered field (exact arithmetic). That all calls are answered is proved for a fourth time below 2^30 (C87_answered); beyond it the resampler's line through the first messages can leave the range of the time type (C73, C82)."
  },
  {
   "property": "C88",
   "status": "proved",
   "theorems": [
    "C88_cause",
    "C88_no_failure",
    "C88_reliable"
   ],
   "note": "Any arithmetic. The contract theorem is applied to a shipped program in C87_answered."
  },
  {
   "property": "C89",
   "status": "proved",
   "theorems": [
    "C89_maxima",
    "C89_scales"
   ],
   "note": "the received messages are those later than all before them; ties count as peaks (C09)"
  },
  {
   "property": "C90",
   "status": "proved",
   "theorems": [
    "C90_switch",
    "C90_switch_doubles"
   ],
   "note": "for the rationals and for doubles (any pow and cos)"
  },
  {
   "property": "C91",
   "status": "proved",
   "theorems": [
    "C91_feedback",
    "C91_feedback_doubles",
    "C91_gap_refuted",
    "C91_any_times",
    "C91_any_times_doubles",
    "C91_silent"
   ],
   "note": "C91_feedback: for messages whose times are one apart from the fifteenth received message on; C91_any_times: for any times, the index is shown up to the first gap and nothing afterwards (C91_silent). The differences have to be comparable (always so for exact numbers; for doubles: no NaN). The formula is written as the program computes it, with vpow x (-1) for 1/x."
  },
  {
   "property": "C92",
   "status": "proved",
   "theorems": [
    "C92_same_index",
    "C92_any_times"
   ],
   "note": "Exact numbers with vpow x (-1) = 1/x for x <> 0 (a hypothesis of the theorems; qc_inverse shows it for the rationals). In doubles the two ways of computing differ by rounding, which is not covered."
  },
  {
   "property": "C93",
   "status": "partial",
   "theorems": [
    "C93_notebook_refuted",
    "C93_fibonacci",
    "C93_fibonacci_doubles",
    "C93_values",
    "C93_values_doubles"
   ],
   "note": "REFUTED as shipped: the definition of the notebook names no entry and is refused (C93_notebook_refuted). With the entry named the rest of the statement is proved for every history, with or without gaps."
  },
  {
   "property": "C94",
   "status": "partial",
   "theorems": [
    "C94_notebook_refuted",
    "C94_peaks"
   ],
   "note": "REFUTED as shipped: the definition of the notebook names no entry and is refused (C94_notebook_refuted). With the entry named the rest of the statement is proved for every history and all window sizes, with exact numbers."
  },
  {
   "property": "C95",
   "status": "partial",
   "theorems": [
    "C95_diagram",
    "C95_alone_refuted",
    "C95_ports_refuted"
   ],
   "note": "REFUTED: operators without connections are not shown (C95_alone_refuted), and a parsed program whose connections do not name their ports, or name missing operators, has no diagram (C95_ports_refuted). Proved for every program built with addOperator and addConnection: the text is written, and can be read back to exactly the connections. What an f-string makes of a value is a parameter that leaves strings unchanged."
  },
  {
   "property": "C96",
   "status": "proved",
   "theorems": [
    "C96_members",
    "C96_created",
    "C96_connection",
    "C96_policies"
   ],
   "note": "C96_members for Program (FactoryOp), C96_created for createProgram of the wrappers, C96_connection: the exception for connections, C96_policies: examples/data/debug-test.json, whose policies do nothing. Members of the operators inside a Pipeline are not compared (its prog must be the same)."
  },
  {
   "property": "C97",
   "status": "proved",
   "theorems": [
    "C97_names",
    "C97_order",
    "C97_twice",
    "C97_calls"
   ],
   "note": "Other names for the top-level operators (operators inside a Pipeline keep theirs), any order, calls in either mode, on the program itself or through the manager of programs (C97_calls: buffered messages, batches, entry, filter, ports, deletion). The ids have to be different: C97_twice and C97_example_twice say what happens otherwise."
  },
  {
   "property": "C98",
   "status": "proved",
   "theorems": [
    "C98_works",
    "C98_calls"
   ],
   "note": "Stated from the definition as JSON text: valid, usable parameters and connections, dependable types, no cycle. C98_works: creation and calls with a map of messages, debug or not. C98_calls: all functions of the interface after any earlier calls and mixed with calls about other programs. The excluded types are those that C56 excludes (see the notes there for what goes wrong with each)."
  }
 ]
}