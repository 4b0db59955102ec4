{
 "claims": [
  {
   "property": "C01",
   "status": "proved",
   "theorems": [
    "C01_normally_open",
    "C01_normally_closed",
    "C01_left_rail"
   ],
   "note": "Exact power and frame for NO and NC for every readable operand; left rail."
  },
  {
   "property": "C02",
   "status": "proved",
   "theorems": [
    "C02_wire",
    "C02_inverter",
    "C02_empty",
    "C02_empty_any_instruction",
    "C02_empty_in_scan"
   ],
   "note": "Exact power and frame for CONN, NEG; NOP changes nothing, and an empty cell has no power after the scan of a program without bars; for programs of any instructions the same holds for every empty cell not joined by a bar (C02_empty_any_instruction)."
  },
  {
   "property": "C03",
   "status": "proved",
   "theorems": [
    "C03_program",
    "C03_determined",
    "C03_order",
    "C03_series",
    "C03_rung"
   ],
   "note": "Every ladder logic program (contacts, edges, wires, inverters, comparisons, coils) without bars: one scan evaluates the cells in reading order, each from the power on its left and the registers at that moment; the evaluation is deterministic; contacts in series give the conjunction."
  },
  {
   "property": "C04",
   "status": "proved",
   "theorems": [
    "C04_any_instruction",
    "C04_any_program",
    "C04_groups"
   ],
   "note": "Every ladder logic program, whatever its bars, follows the step plan with OR joins (C04_any_program); programs made of complete groups evaluate group by group, column by column, every row carrying the OR (C04_groups). For programs of any instructions C04_any_instruction shows that every scan executes the cells in that order and joins each group by OR, and what may change in between."
  },
  {
   "property": "C05",
   "status": "proved",
   "theorems": [
    "C05_coil",
    "C05_flag_values",
    "C05_no_place"
   ],
   "note": "COIL exact write and frame; out-of-range operand changes no register."
  },
  {
   "property": "C06",
   "status": "proved",
   "theorems": [
    "C06_rising",
    "C06_falling",
    "C06_steady",
    "C06_run",
    "C06_run_falling"
   ],
   "note": "Per cycle: power of an RE/FE cell as function of the value it sees and of the value when the cycle began, for operands with a history (flags, digital outputs and inputs). Over a run of the task: for contacts in column 0 on a digital input that nothing writes during the scan, the powers are exactly the rises/falls of the sequence of input values."
  },
  {
   "property": "C07",
   "status": "proved",
   "theorems": [
    "C07_latch",
    "C07_unlatch",
    "C07_run",
    "C07_run_unlatch",
    "C07_for_ever"
   ],
   "note": "Per cycle and over runs, for a latch or unlatch that is the last instruction executed that may set its operand (so in particular a lone one); operands with a history (flags, digital outputs and inputs)."
  },
  {
   "property": "C08",
   "status": "partial",
   "theorems": [
    "C08_unlatch_last_actual",
    "C08_latch_last_actual",
    "C08_refuted"
   ],
   "note": "The claim is false of the code: both coils start from the value of the previous cycle, so only the one executed last counts. Proved: the refutation, and for all programs and runs that with the unlatch last the flag never gets set, with the latch last it never gets cleared."
  },
  {
   "property": "C09",
   "status": "proved",
   "theorems": [
    "C09_run",
    "C09_switch",
    "C09_frame",
    "C09_any_state",
    "C09_on_delay",
    "C09_done_iff",
    "C09_accumulator",
    "C09_monotone"
   ],
   "note": "History theorem over any number of executions and any clock; frame; accumulator bound. The accumulator shown while running is modulo 2^16 (see C12). C09_run lifts it to any run of the task on any program in which nothing else sets the timer; C09_switch gives the input of the timer as the value of a machine input in each cycle."
  },
  {
   "property": "C10",
   "status": "partial",
   "theorems": [
    "C10_run",
    "C10_switch",
    "C10_frame",
    "C10_any_state",
    "C10_off_delay",
    "C10_off_iff",
    "C10_never_on_actual"
   ],
   "note": "Off-delay history theorem and frame proved. Finding: a TOF whose input was never on starts with its output on (C10_never_on_actual). C10_run and C10_switch as for C09."
  },
  {
   "property": "C11",
   "status": "partial",
   "theorems": [
    "C11_run_partial",
    "C11_frame",
    "C11_any_state",
    "C11_pulse_partial",
    "C11_no_second_pulse_actual",
    "C11_retrigger_refuted"
   ],
   "note": "First pulse exact for every input/clock history. The second pulse never comes: C11_no_second_pulse_actual, C11_retrigger_refuted. C11_run_partial: the same in any run of the task."
  },
  {
   "property": "C12",
   "status": "partial",
   "theorems": [
    "C12_wrapped_actual",
    "C12_wrapped_off_actual",
    "C12_early_refuted",
    "C12_backwards_refuted"
   ],
   "note": "False of the code: C12_wrapped_actual characterises what happens for any preset, C12_early_refuted and C12_backwards_refuted are counterexamples. For products that fit 32 bits see C09."
  },
  {
   "property": "C13",
   "status": "partial",
   "theorems": [
    "C13_frame",
    "C13_count",
    "C13_reset_partial",
    "C13_reset_while_counting_actual",
    "C13_outputs",
    "C13_any_state",
    "C13_column_zero_actual",
    "C13_run",
    "C13_switch"
   ],
   "note": "Count = rising edges since the last reset, capped, for any history; frame and outputs exact. A reset while the count input is on leaves 1, not 0 (C13_reset_while_counting_actual); column 0: C13_column_zero_actual. C13_run: the count in any run of the task; C13_switch: the count is the number of rising edges of a machine input."
  },
  {
   "property": "C14",
   "status": "proved",
   "theorems": [
    "C14_frame",
    "C14_count",
    "C14_reset",
    "C14_outputs",
    "C14_any_state",
    "C14_unloaded_actual",
    "C14_run",
    "C14_switch"
   ],
   "note": "Count = preset minus rising edges for any history; frame and outputs exact; never-loaded counter wraps (C14_unloaded_actual). C14_run and C14_switch as for C13."
  },
  {
   "property": "C15",
   "status": "partial",
   "theorems": [
    "C15_run_never_reset_actual",
    "C15_reset_input_actual",
    "C15_no_reset_actual",
    "C15_reset_input_refuted"
   ],
   "note": "Violated: C15_reset_input_refuted is a program whose reset contact is closed and whose counter keeps its count. C15_reset_input_actual shows for every program that the reset input is off or, with a bar, equal to the count input whenever a counter is executed, and C15_no_reset_actual that a counter whose count input is off is never reset; cells behind continuation marks of multi-row instructions excepted. C15_run_never_reset_actual: over a whole run of the task such a counter counts all edges and is never reset."
  },
  {
   "property": "C16",
   "status": "partial",
   "theorems": [
    "C16_exact",
    "C16_div_by_zero",
    "C16_unpowered",
    "C16_sub",
    "C16_sub_unpowered",
    "C16_data_register",
    "C16_overflow_undefined",
    "C16_mod_undefined",
    "C16_sub_rows_refuted"
   ],
   "note": "Exact results and frames proved, with overflow / MOD by zero shown to be undefined behaviour (the English claim that they must not crash is false of the code). SUB always powers its first row too (C16_sub_rows_refuted)."
  },
  {
   "property": "C17",
   "status": "partial",
   "theorems": [
    "C17_or_xor",
    "C17_not",
    "C17_unpowered",
    "C17_and_actual",
    "C17_and_partial",
    "C17_and_refuted"
   ],
   "note": "OR, XOR, NOT proved. AND is false of the code: C17_and_actual gives what it does, C17_and_refuted the counterexample, C17_and_partial the operands for which it holds."
  },
  {
   "property": "C18",
   "status": "partial",
   "theorems": [
    "C18_shl",
    "C18_shr",
    "C18_rol_partial",
    "C18_ror_partial",
    "C18_rotate_inverse",
    "C18_rotate_zero_undefined",
    "C18_power_refuted"
   ],
   "note": "SHL/SHR exact; rotates exact for amounts not divisible by 32 (otherwise undefined: C18_rotate_zero_undefined). They act without power: C18_power_refuted."
  },
  {
   "property": "C19",
   "status": "proved",
   "theorems": [
    "C19_compare",
    "C19_unpowered"
   ],
   "note": "All six comparisons, powered and not, exact with frame."
  },
  {
   "property": "C20",
   "status": "partial",
   "theorems": [
    "C20_move_word",
    "C20_move_real",
    "C20_bits",
    "C20_mismatch",
    "C20_real_range",
    "C20_no_operands",
    "C20_power_refuted"
   ],
   "note": "MOVE exact for integer and real operands with faults and frame; it moves whatever the power is (C20_power_refuted)."
  },
  {
   "property": "C21",
   "status": "partial",
   "theorems": [
    "C21_copy",
    "C21_quantity",
    "C21_rejected",
    "C21_atomic_refuted",
    "C21_no_network_undefined"
   ],
   "note": "TMOVE copies whole blocks (overlap included), bad quantities move nothing, rejected moves change nothing. Not atomic when a destination cell has a wrong type (C21_atomic_refuted); network numbers beyond the program are undefined behaviour."
  },
  {
   "property": "C22",
   "status": "partial",
   "theorems": [
    "C22_call_partial",
    "C22_unregistered_partial",
    "C22_other_ids_actual",
    "C22_refuted"
   ],
   "note": "Exact for identifiers 0 and 1; every other identifier calls function 0 (C22_other_ids_actual, C22_refuted)."
  },
  {
   "property": "C23",
   "status": "partial",
   "theorems": [
    "C23_read",
    "C23_total",
    "C23_order",
    "C23_no_operand",
    "C23_real",
    "C23_real_nan_undefined",
    "C23_missing_bank",
    "C23_port_undefined",
    "C23_previous",
    "C23_previous_undefined"
   ],
   "note": "Reads exact and total for readable operands; ports beyond a module, previous values with a bad index and reals outside int32 are undefined behaviour (C23_port_undefined, C23_previous_undefined, C23_real_nan_undefined)."
  },
  {
   "property": "C24",
   "status": "proved",
   "theorems": [
    "C24_write",
    "C24_no_place",
    "C24_never",
    "C24_addressed"
   ],
   "note": "Writes exact with frame and error code for every operand type."
  },
  {
   "property": "C25",
   "status": "proved",
   "theorems": [
    "C25_disabled_untouched",
    "C25_only_enabled_run",
    "C25_executed"
   ],
   "note": "Write set of a scan for every program, environment and state; executed cells belong to enabled networks, in program order."
  },
  {
   "property": "C26",
   "status": "proved",
   "theorems": [
    "C26_terminates",
    "C26_watchdog_stops",
    "C26_no_interference",
    "C26_within_limit",
    "C26_iterations"
   ],
   "note": "Termination for every context; watchdog exact in both directions against an iteration count computed from the layout; bound on that count."
  },
  {
   "property": "C27",
   "status": "partial",
   "theorems": [
    "C27_stops_at_first_fault",
    "C27_fault_identified",
    "C27_invalid_code_refuted"
   ],
   "note": "Proved for instructions that return an error: order of execution, first failing cell stops the scan, last.* identify it. Refuted for invalid codes (out-of-bounds read of the side-effect table)."
  },
  {
   "property": "C28",
   "status": "partial",
   "theorems": [
    "C28_fault_outputs",
    "C28_flags_rolled_back",
    "C28_ends",
    "C28_analog_only_actual",
    "C28_analog_refuted"
   ],
   "note": "Proved for every faulting cycle and every module with digital outputs; flags, registers and the end of the task proved. Violated for modules that have analog outputs only: C28_analog_only_actual (universal) and C28_analog_refuted (witness)."
  },
  {
   "property": "C29",
   "status": "proved",
   "theorems": [
    "C29_order",
    "C29_order_fault",
    "C29_run"
   ],
   "note": "Order of calls of one cycle (normal and faulting) and of any number of cycles; reads precede the scan, writes get the outputs the scan left."
  },
  {
   "property": "C30",
   "status": "partial",
   "theorems": [
    "C30_runs",
    "C30_waiting",
    "C30_wakes",
    "C30_timeout",
    "C30_stop",
    "C30_request",
    "C30_no_hang",
    "C30_request_refuted"
   ],
   "note": "C30_runs and C30_waiting: a run is a chain of iterations, each of which first only calls the delay function while the state is not RUNNING (fewer than 1000 times) and then does one whole cycle. C30_wakes, C30_timeout: leaving the wait, and panic and end after 1000 delays. C30_stop, C30_request: a stop request ends the task after the cycle in which it was made. C30_no_hang: fuel is never the reason a run stops. The claim is violated when the scan-time watchdog fires in the cycle of the request: C30_request_refuted (the state ERROR replaces the request)."
  },
  {
   "property": "C31",
   "status": "partial",
   "theorems": [
    "C31_ended",
    "C31_returned_actual",
    "C31_missing",
    "C31_running",
    "C31_refuted"
   ],
   "note": "C31_ended: end_task is the last call, once, whenever the function ends at its end; C31_running: not before. Violated for a stop request seen while waiting: C31_refuted, and C31_returned_actual shows that this is the only early return of a complete context; C31_missing: with a missing function or bank the task returns NULLFN without any call."
  },
  {
   "property": "C32",
   "status": "proved",
   "theorems": [
    "C32_flags_outputs",
    "C32_inputs",
    "C32_run",
    "C32_waiting",
    "C32_operand"
   ],
   "note": "For every instruction reached in any cycle of any run; M, Cd, Cr, Td, Tr, Q, I operands and all ports with a history."
  },
  {
   "property": "C33",
   "status": "proved",
   "theorems": [
    "C33_statistics",
    "C33_ordered",
    "C33_wrap_undefined",
    "C33_measure",
    "C33_no_clock"
   ],
   "note": "Statistics described from the list of measured durations over any number of scans, ordering min<=avg<=max, the clock wrap of millis, the state change when the watchdog interval is exceeded; the wrap of the 32-bit scan counter divides by zero (C33_wrap_undefined)."
  },
  {
   "property": "C34",
   "status": "proved",
   "theorems": [
    "C34_padding",
    "C34_fault_no_delay"
   ],
   "note": "All delays of a cycle are the padding; none when faulting or without positive target."
  },
  {
   "property": "C35",
   "status": "proved",
   "theorems": [
    "C35_accepts",
    "C35_rejected",
    "C35_fresh",
    "C35_usable",
    "C35_no_memory",
    "C35_dangling_actual"
   ],
   "note": "Acceptance exactly for valid arguments with memory, fresh contents, failure outcomes; C35_dangling_actual records that a late allocation failure leaves a dangling network pointer."
  },
  {
   "property": "C36",
   "status": "proved",
   "theorems": [
    "C36_memory",
    "C36_program"
   ],
   "note": "Both clear functions: exact new contents and frame."
  },
  {
   "property": "C37",
   "status": "proved",
   "theorems": [
    "C37_only_in_error",
    "C37_recovers"
   ],
   "note": "Only in a fault state; all recovered registers, outputs and histories; frame."
  },
  {
   "property": "C38",
   "status": "proved",
   "theorems": [
    "C38_read",
    "C38_write",
    "C38_reads",
    "C38_writes"
   ],
   "note": "Single registrations and arbitrary series of them, with refused allocations and failing initialisers."
  },
  {
   "property": "C39",
   "status": "partial",
   "theorems": [
    "C39_places",
    "C39_no_memory_actual",
    "C39_unregistered",
    "C39_code_undefined",
    "C39_preserves"
   ],
   "note": "Exact acceptance condition, marking, frame, and preservation of existing instructions over arbitrary series of placements. When memory runs out the span is changed although the call fails (C39_no_memory_actual), so the claim that a failure changes no cell holds only otherwise; codes outside the table are undefined behaviour (C39_code_undefined)."
  },
  {
   "property": "C40",
   "status": "partial",
   "theorems": [
    "C40_accepts",
    "C40_finishes",
    "C40_safe_partial",
    "C40_task_partial",
    "C40_time_base",
    "C40_operand_refuted",
    "C40_table_refuted",
    "C40_module_refuted",
    "C40_real_refuted"
   ],
   "note": "ladder_program_check is modelled whole (Check.v). C40_accepts characterises exactly the accepted programs by independent rules (indices of all register operands except reals, ports of all I/O operands, operand types, timers, rows of multi-row instructions). C40_safe_partial and C40_task_partial: on a machine laid out as configured, an accepted program that is also complete (all operands present, instruction codes exist, tables of TMOVE exist) is scanned and run without any access outside banks, modules and cells. C40_finishes: the checker itself is defined and names a cell. The full claim is violated: C40_operand_refuted (missing operands), C40_table_refuted (TMOVE), C40_real_refuted (R indices unchecked), C40_module_refuted (module number equal to the count: the checker reads outside the module table). C40_time_base: valid timers with time base 10 ms or 1 min are refused."
  },
  {
   "property": "C41",
   "status": "partial",
   "theorems": [
    "C41_scans",
    "C41_scans_exact",
    "C41_task",
    "C41_task_exact",
    "C41_built"
   ],
   "note": "Proved for explicitly well-formed machines: any number of scans and any number of task cycles run without out-of-bounds access, null dereference or endless loop and keep the machine well formed (C41_scans, C41_task); with the arithmetic conditions of exact_program no undefined behaviour at all is left except the division by zero when the scan counter wraps after 2^32 cycles (C41_scans_exact, C41_task_exact). C41_built: machines made by ladder_ctx_init and any sequence of registration, cron, placing and clearing calls are well formed and stay so when operands are entered and networks enabled, if the program conditions hold. Partial because arithmetic undefined behaviour and the counter wrap remain possible in the code, and module initialisation functions and callbacks are assumed to respect the data layout."
  },
  {
   "property": "C42",
   "status": "proved",
   "theorems": [
    "C42_write_set",
    "C42_unnamed_register",
    "C42_inputs"
   ],
   "note": "Frame of a whole scan for every program, with foreign functions, hooks and clock changing any given set of non-layout places."
  },
  {
   "property": "C43",
   "status": "proved",
   "theorems": [
    "C43_scan",
    "C43_end_of_scan",
    "C43_others",
    "C43_each_job",
    "C43_job_by_job",
    "C43_shared_flag_actual",
    "C43_before_2000_undefined"
   ],
   "note": "For every scan: the time is read once, the flags of the enabled auto-reset jobs are cleared, then the jobs fire in order, before the first instruction; M registers that are no job's flag are untouched; per-job form and job-by-job form with the condition under which they agree. The clearing happens for all jobs before the first one fires, which differs from the literal job-by-job reading only when jobs share registers (C43_shared_flag_actual). Dates before 2000 read outside the year map (C43_before_2000_undefined)."
  },
  {
   "property": "C44",
   "status": "partial",
   "theorems": [
    "C44_after_init",
    "C44_scan_actual",
    "C44_task_actual",
    "C44_refuted"
   ],
   "note": "Violated by the code: the cron structure is always allocated, and with no job in use every scan stops in state INV. The universal theorems say what happens instead (C44_scan_actual, C44_task_actual); C44_refuted is a concrete fresh context. The positive statement is false, so it is not proved."
  },
  {
   "property": "C45",
   "status": "partial",
   "theorems": [
    "C45_field",
    "C45_expression",
    "C45_sound",
    "C45_rejects",
    "C45_total",
    "C45_field_total",
    "C45_plain_total",
    "C45_step_zero_diverges",
    "C45_step_zero_hangs",
    "C45_overflow_undefined",
    "C45_wrapped_step_refuted",
    "C45_out_of_range_refuted"
   ],
   "note": "Field lists with items in range and steps >= 1 set exactly the denoted values (C45_field), seven-field expressions match exactly the times in all seven fields (C45_expression), accepted text is well formed and in range (C45_sound, C45_rejects), parsing is total except for steps that are 0 mod 2^64 and ranges starting at 2^64-1 mod 2^64 (C45_total). The full statement is false of the code: a zero step never terminates, 2^64-1 ranges write outside the map, wrapped stepped ranges set other values unless the step divides max+1, n/step with n above the range and numbers above 2^64 are accepted."
  },
  {
   "property": "C46",
   "status": "proved",
   "theorems": [
    "C46_evaluation_safe",
    "C46_stored",
    "C46_accepts",
    "C46_refused",
    "C46_invariant",
    "C46_fresh",
    "C46_init",
    "C46_no_flags_actual"
   ],
   "note": "For all argument values and all series of cron_init/cron_add calls; evaluation of such a table touches only existing M registers."
  },
  {
   "property": "C47",
   "status": "partial",
   "theorems": [
    "C47_adds",
    "C47_limit",
    "C47_limit_refuted"
   ],
   "note": "C47_adds and C47_limit; the limit of 100 is violated through the 32-bit wrap of the requested quantity (C47_limit_refuted)."
  },
  {
   "property": "C48",
   "status": "partial",
   "theorems": [
    "C48_left_executed_first_actual",
    "C48_branch_ignored_actual",
    "C48_branch_refuted"
   ],
   "note": "Violated: C48_branch_refuted; C48_branch_ignored_actual shows for every ladder logic program that such a branch contributes nothing, and C48_left_executed_first_actual for programs of any instructions that a cell gives no power before it is executed."
  },
  {
   "property": "C49",
   "status": "partial",
   "theorems": [
    "C49_joined_actual",
    "C49_merge_refuted"
   ],
   "note": "Violated: C49_merge_refuted places an ADD below a rung with ladder_fn_cell and the rung's coil turns on; C49_joined_actual shows that every multi-row block with operands placed below the top row is joined to the row above."
  },
  {
   "property": "C50",
   "status": "partial",
   "theorems": [
    "C50_exact",
    "C50_first",
    "C50_sound",
    "C50_endless_actual",
    "C50_quarter_zone_actual"
   ],
   "note": "Proved for every clock whose local time is a whole number of half hours ahead (regular clocks; zone_regular shows that the Gregorian calendar at any such offset is one): C50_exact says for every expression and time what the function does, C50_first and C50_sound that the result is the first match. Violated otherwise: for offsets such as Nepal's the daily midnight expression never returns (C50_quarter_zone_actual, universal), dates that do not exist make the loop endless (C50_endless_actual), and years past the map are read outside it (C50_exact)."
  },
  {
   "property": "C51",
   "status": "proved",
   "theorems": [
    "C51_parse",
    "C51_expressions"
   ],
   "note": "Parsing of any number of texts with the index of the first bad one and the frame of the others; OR and AND over any number of good expressions at every calendar time."
  },
  {
   "property": "C52",
   "status": "proved",
   "theorems": [
    "C52_accepts",
    "C52_program"
   ],
   "note": "C52_accepts: with memory available a document is accepted iff it describes networks (grammar of numbers, ports, symbols, types and time bases in SpecJson.v); C52_program: the resulting program and the frame, for every accepted document. Conversion of reals and the count read past the table for occupied cells are parameters."
  },
  {
   "property": "C53",
   "status": "partial",
   "theorems": [
    "C53_refused",
    "C53_safe",
    "C53_rows_actual",
    "C53_memory_actual",
    "C53_numbers_actual",
    "C53_occupied_actual",
    "C53_again_actual"
   ],
   "note": "C53_refused: what each refusal leaves, for every file; C53_safe: no undefined behaviour for documents whose numbers fit, whose networks have the announced rows and which have no occupied cells, whatever else they contain and whichever allocations of rows and operands fail. Violated: the old program is lost (C53_refused), null dereference when rows are missing or memory for them runs out (C53_rows_actual, C53_memory_actual, universal), undefined conversions (C53_numbers_actual), a read past the instruction table for occupied cells (C53_occupied_actual), and a refused document that makes the next load crash (C53_again_actual)."
  },
  {
   "property": "C54",
   "status": "partial",
   "theorems": [
    "C54_saves",
    "C54_accepted",
    "C54_restored",
    "C54_lost_actual",
    "C54_not_storable_actual"
   ],
   "note": "Exact for all complete programs: C54_saves (saved iff no strings, else a value never written is read), C54_accepted (accepted again iff storable: known instructions, no constants except counter presets, no millisecond timers), C54_restored (then the same program iff reals survive their text; module and port, all 32-bit numbers do; but every network is enabled). Violated for all other programs: C54_lost_actual and C54_not_storable_actual show that constants, millisecond timers and, in strict C, instructions of several rows are never read back and the loading context is emptied."
  },
  {
   "property": "C55",
   "status": "partial",
   "theorems": [
    "C55_exact",
    "C55_meaning",
    "C55_answers",
    "C55_files",
    "C55_integer_actual",
    "C55_if_actual",
    "C55_required_actual",
    "C55_additional_actual",
    "C55_else_actual",
    "C55_case_actual"
   ],
   "note": "C55_exact: exact for every plain schema (one type, conditions alone, required names listed, additional items and properties allowed or not) and every document with numbers within int and no names that differ from listed ones in case only; the shipped schema is plain. C55_meaning: the rules have exactly one model. C55_answers: for every schema the check ends, with an answer or an undefined conversion. Violated beyond: C55_integer_actual (undefined conversion), C55_if_actual, C55_else_actual, C55_required_actual, C55_additional_actual (keywords ignored), C55_case_actual (names compared without case), all universal. Simplification: lengths of texts count bytes; cJSON_Compare is a parameter."
  },
  {
   "property": "C56",
   "status": "partial",
   "theorems": [
    "C56_valid",
    "C56_answer",
    "C56_loads",
    "C56_refused_actual",
    "C56_unlisted_actual",
    "C56_saved",
    "C56_saved_answer",
    "C56_invalid_actual"
   ],
   "note": "Proved: exactly which documents the shipped schema allows and that the validator decides it; exactly which valid documents the loader accepts; exactly which programs are saved as valid documents. The agreement claimed does not hold: valid documents with NEG, SHL, SHR, ROL, ROR, TMOV or TOF are always refused, TOFF and FOREIGN are never valid, occupied cells (also those of the sample program) are looked up past the table of instructions, and saved moves, negations, off-delay timers, rotations, shifts, table moves, foreign functions and times in milliseconds are not valid (C56_refused_actual, C56_unlisted_actual, C56_invalid_actual)."
  },
  {
   "property": "C57",
   "status": "partial",
   "theorems": [
    "C57_laid_out",
    "C57_safe_partial",
    "C57_task_partial",
    "C57_rows_actual",
    "C57_columns_refuted",
    "C57_tables_refuted"
   ],
   "note": "C57_laid_out, C57_safe_partial, C57_task_partial: for every document without networks of zero columns, every machine and every environment, a program loaded and accepted, whose table moves name networks of the program, is scanned and run with no undefined behaviour other than its own arithmetic. The full claim is violated: C57_columns_refuted (a network of zero columns is loaded, accepted and then read outside its rows), C57_tables_refuted (TMOV from a network that does not exist). C57_rows_actual: accepted programs with instructions of more than one row can only be loaded through a read past the end of ladder_fn_iocd."
  },
  {
   "property": "C58",
   "status": "partial",
   "theorems": [
    "C58_safe",
    "C58_loaded_partial",
    "C58_foreign_actual",
    "C58_unregistered_actual",
    "C58_operand_refuted",
    "C58_nan_refuted"
   ],
   "note": "C58_safe: every program whose cells can be drawn (each cell there, up to three operands for a figure with as many rows, strings present, reals not NaN, foreign functions registered) is drawn whatever memory there is; C58_loaded_partial: so is every loaded program without foreign functions whose reals are not NaN. The full claim is violated: C58_foreign_actual (every program with a foreign function first, loaded from a file, dereferences NULL), C58_unregistered_actual (an id that is not registered is used before the check), C58_operand_refuted (an accepted program with fewer operands than rows), C58_nan_refuted. ladder_print.c is modelled whole; colours and the name callback are parameters or plain text."
  },
  {
   "property": "C59",
   "status": "partial",
   "theorems": [
    "C59_shows",
    "C59_accepted",
    "C59_aligned",
    "C59_ragged_refuted",
    "C59_bar_refuted"
   ],
   "note": "C59_shows, C59_accepted: the drawing consists of the networks in order and shows every instruction, for networks of at most 32 rows and 255 columns (larger ones are announced, not drawn). C59_aligned: lines have equal length if all operands are narrow and there is no foreign function. Violated otherwise: C59_ragged_refuted (a number of five digits shifts the edge), C59_bar_refuted (bars below an empty cell or the last row of a box are not drawn)."
  },
  {
   "property": "C60",
   "status": "partial",
   "theorems": [
    "C60_digits",
    "C60_large",
    "C60_sign_refuted"
   ],
   "note": "C60_digits: for every pattern of magnitude up to a million the figures are within half a hundredth (and 1/131072 of one, the rounding of the fraction in float) of the value; C60_large: OVF above. Violated for the sign of numbers between -1 and 0 (C60_sign_refuted). powf(10,2) is taken to be 100."
  },
  {
   "property": "C61",
   "status": "proved",
   "theorems": [
    "C61_same_task",
    "C61_same_scan",
    "C61_calls",
    "C61_scan_calls",
    "C61_hooks"
   ],
   "note": "C61_same_task, C61_same_scan: environments alike in the calls that belong to the machine give the same run; C61_calls, C61_scan_calls, C61_hooks: every recorded call belongs to the machine, and the shape of the context is kept. For environments whose functions keep the shape (sizes, tables, program without operand values)."
  },
  {
   "property": "C62",
   "status": "partial",
   "theorems": [
    "C62_task_partial",
    "C62_same_partial",
    "C62_built_partial",
    "C62_adds_input",
    "C62_adds_output",
    "C62_keys",
    "C62_no_key",
    "C62_display",
    "C62_foreign",
    "C62_panic_refuted"
   ],
   "note": "C62_task_partial, C62_same_partial, C62_built_partial: well-formed machines large enough for the display run safely, and what the port does where it is undefined in C has no influence, when no panic handler is set; C62_panic_refuted: with the handler the run can depend on memory behind the table of error names. C64_port: with the handler set it is never called on machines that are equipped and have room. C62_adds_input, C62_adds_output, C62_keys, C62_no_key, C62_display, C62_foreign: effects of the functions."
  },
  {
   "property": "C63",
   "status": "partial",
   "theorems": [
    "C63_report_partial",
    "C63_mismatch",
    "C63_outside",
    "C63_limit",
    "C63_clock",
    "C63_clock_monotone",
    "C63_delay"
   ],
   "note": "C63_report_partial: right names for all instructions and the first eight errors; the claim is false for the others: C63_mismatch (printed as FAIL), C63_outside (reads behind the table), C63_limit (happens whenever a network exceeds the cycle limit). C63_clock, C63_clock_monotone, C63_delay: full."
  },
  {
   "property": "C64",
   "status": "proved",
   "theorems": [
    "C64_task",
    "C64_same",
    "C64_scan",
    "C64_port"
   ],
   "note": "C64_task, C64_scan: no call of the panic hook and always running or asked to end (a scan may end in state INV, after which the task ends); C64_same: the hook has no influence; C64_port: the example port with its panic handler set runs safely on such machines. C64_example_needed: the requirements matter."
  },
  {
   "property": "C65",
   "status": "proved",
   "theorems": [
    "C65_scan",
    "C65_only_limit",
    "C65_others",
    "C65_task",
    "C65_port"
   ],
   "note": "C65_scan, C65_only_limit: scans; C65_task: the task is still running and in state RUNNING; C65_port: with the example port, until somebody types q; C65_others: every other instruction of the dispatch table can fail."
  },
  {
   "property": "C66",
   "status": "partial",
   "theorems": [
    "C66_owned",
    "C66_released",
    "C66_hollow",
    "C66_only_null",
    "C66_safe",
    "C66_init",
    "C66_init_args",
    "C66_init_succeeds",
    "C66_init_leaks",
    "C66_bare",
    "C66_twice",
    "C66_cron",
    "C66_load_breaks"
   ],
   "note": "The full statement is false of the code: C66_init_leaks (a failing ladder_ctx_init loses the rows), C66_bare and C66_twice (release of a machine without networks, second release), C66_cron (no memory for the jobs), C66_load_breaks and C66_hollow (networks with rows and no cells). What holds: C66_owned (the machine reaches exactly the live blocks), C66_released and C66_safe (everything comes back), C66_only_null (no double release, use after release or access outside a block), C66_init (what is lost by a failing initialisation, exactly). Values are left out of this model and the port is the example one."
  },
  {
   "property": "C67",
   "status": "proved",
   "theorems": [
    "C67_int",
    "C67_agrees",
    "C67_overflow",
    "C67_differs",
    "C67_float",
    "C67_exact",
    "C67_float_real",
    "C67_no_operand",
    "C67_index_undefined"
   ],
   "note": "Agreement with the accessor of the instructions (C67_agrees), values and frame (C67_int, C67_float, C67_float_real, C67_no_operand), the overflow mark (C67_overflow) and where the two accessors differ (C67_differs). nearest compares with every single, so rounding is fully specified; C67_exact gives exactness up to 2^24. Finding: C67_index_undefined, no index check for C, T, D and R."
  },
  {
   "property": "C68",
   "status": "partial",
   "theorems": [
    "C68_compact",
    "C68_compact_twice",
    "C68_compact_fails",
    "C68_compact_ok",
    "C68_save_load",
    "C68_save_accepted",
    "C68_save_ok",
    "C68_save_fails_actual",
    "C68_full_disk_actual",
    "C68_nul"
   ],
   "note": "Compaction: C68_compact, C68_compact_twice, C68_compact_ok, C68_compact_fails (errors change nothing). Saving: C68_save_ok (when a save succeeds), C68_save_accepted (when it is read back), C68_save_load over C54. The last sentence is false of the code: ladder_program_to_json empties the file before it builds the tree, so every later error destroys the old file (C68_save_fails_actual), and writes are not checked, so a full disk is reported as success (C68_full_disk_actual). cJSON is a parameter; the theorems assume that it reads back what it printed for the document in question."
  },
  {
   "property": "C69",
   "status": "partial",
   "theorems": [
    "C69_setup",
    "C69_memory",
    "C69_cron_actual",
    "C69_endings",
    "C69_before",
    "C69_files",
    "C69_copies",
    "C69_safe_partial",
    "C69_shipped_partial",
    "C69_shipped_actual",
    "C69_bare_refuted"
   ],
   "note": "C69_setup and C69_memory (the machine it sets up), C69_endings (what each ending means; no run without validation, loading, saving, compacting and checking), C69_before (nothing outside is touched before the run), C69_files and C69_copies (the files it writes). The full claim, no undefined behaviour for any document, is false of the code: C69_cron_actual (no memory for the jobs), C69_bare_refuted (a refused document), C69_shipped_actual (its own program, read behind a table). C69_safe_partial proves it for documents the loader can handle and programs with what the checker does not look at, C69_shipped_partial that the shipped program runs when the read behind the table gives 0."
  },
  {
   "property": "C70",
   "status": "proved",
   "theorems": [
    "C70_scan",
    "C70_scans",
    "C70_no_reading",
    "C70_task",
    "C70_task_values",
    "C70_limits",
    "C70_timers"
   ],
   "note": "C70_scan, C70_scans: environments that differ only in clock and in what reading it does give the same scans; C70_no_reading: no reading of the clock is recorded; C70_timers: with any of the three timers a scan does depend on the clock. C70_task, C70_task_values: whole task runs with different clocks end alike except for the statistics and the values read, without watchdog and target; C70_limits: both conditions are needed. For environments whose functions keep the shape (sizes, tables, program without operand values)."
  }
 ]
}