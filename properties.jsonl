{"id": "C01", "title": "Contacts pass power exactly when their operand allows it", "statement": "Executing a normally-open contact makes the cell's power the AND of the power on its left and 'operand is non-zero'; a normally-closed contact the AND with 'operand is zero'; at column 0 the left power is always on. Nothing else in the context changes (registers, inputs, outputs, other cells, timers, counters, program).", "quantifier": "every context, every register type and operand value, every cell position", "why_tests_cant": "The operand may live in any register bank with any value and the frame ('nothing else changes') ranges over the whole context; tests sample a few cells.", "anchors": ["source/instructions/fn_NO.c:fn_NO", "source/instructions/fn_NC.c:fn_NC", "source/include/ladder_fn_commons.h:ladder_get_data_value", "source/include/ladder_instructions.h:CELL_STATE_LEFT"]}
{"id": "C02", "title": "Wires, inverters and empty cells", "statement": "CONN copies the left power, NEG inverts it, NOP leaves the cell unpowered during a scan; none of them touches any register, input or output.", "quantifier": "every context and cell position", "why_tests_cant": "Frame conditions quantify over every location of the context.", "anchors": ["source/instructions/fn_CONN.c:fn_CONN", "source/instructions/fn_NEG.c:fn_NEG", "source/instructions/fn_NOP.c:fn_NOP"]}
{"id": "C03", "title": "A rung evaluates as its left-to-right boolean expression", "statement": "In one scan, a stand-alone rung made of contacts, wires, inverters, comparisons and coils evaluates left to right: the power after each cell is the cell's function of the power before it and of the register values at that moment, and each coil writes exactly the power reaching it. The whole program's effect on M and Q is the sequential effect of its rungs, in network order and then row order.", "quantifier": "every number of networks, rows and columns, every mix of those instructions, every register content", "why_tests_cant": "Program size and shape are unbounded; a test runs fixed programs.", "anchors": ["source/ladder_scan.c:ladder_scan", "source/instructions/fn_COIL.c:fn_COIL"]}
{"id": "C04", "title": "Parallel branches OR their power", "statement": "Rows joined by vertical bars in a column form one group: after the column is executed all rows of the group carry the OR of what each row's instruction produced from its own left power, and the group counts as a single rung.", "quantifier": "every group height, every column count, every contact content", "why_tests_cant": "Unbounded number of branches and all power combinations.", "anchors": ["source/ladder_scan.c:ladder_scan"]}
{"id": "C05", "title": "A coil writes its operand and only its operand", "statement": "COIL sets its M/Q/Cd/Cr/Td/Tr operand to 1 when powered and 0 when not, forwards the power, and changes no other location; an operand outside the configured range changes nothing at all.", "quantifier": "every context, every operand register and index (also negative and out of range)", "why_tests_cant": "Range of indices and the frame condition are not enumerable by tests.", "anchors": ["source/instructions/fn_COIL.c:fn_COIL", "source/include/ladder_fn_commons.h:ladder_set_data_value", "source/include/ladder_fn_commons.h:safe_get_register_index"]}
{"id": "C06", "title": "Edge contacts fire for exactly one scan per edge", "statement": "With the task loop running a program, an RE contact on an input is powered in a cycle exactly when the input is non-zero in this cycle and was zero in the previous cycle; FE exactly on the opposite transition. Hence one pulse per edge over the whole run.", "quantifier": "every input history of any length, every clock, every callback that leaves the context alone", "why_tests_cant": "Histories are unbounded; a missed or duplicated edge depends on the order of history copy, read, scan and save.", "anchors": ["source/instructions/fn_RE.c:fn_RE", "source/instructions/fn_FE.c:fn_FE", "source/ladder_task.c:ladder_task", "source/ladder_general.c:ladder_save_previous_values"]}
{"id": "C07", "title": "Latch and unlatch coils remember across cycles", "statement": "COILL sets its operand when powered and otherwise keeps the value it had at the end of the previous cycle; COILU clears it when powered and otherwise keeps that value. So a lone COILL on a flag holds 1 for ever after the first powered cycle, and a lone COILU holds 0.", "quantifier": "every power history of any length", "why_tests_cant": "Memory over unbounded histories.", "anchors": ["source/instructions/fn_COILL.c:fn_COILL", "source/instructions/fn_COILU.c:fn_COILU", "source/include/ladder_fn_commons.h:ladder_get_previous_value", "source/ladder_general.c:ladder_save_previous_values"]}
{"id": "C08", "title": "Latch and unlatch on one flag form a set/reset pair", "statement": "When COILL and COILU in different rungs drive the same flag (the documented set/reset pairing), the flag is set by powering the latch, stays set until the unlatch is powered, and then stays reset.", "quantifier": "every order of the two rungs, every history of set and reset inputs", "why_tests_cant": "Interaction of two coils over histories; each coil alone passes its tests.", "anchors": ["source/instructions/fn_COILL.c:fn_COILL", "source/instructions/fn_COILU.c:fn_COILU", "README.md"]}
{"id": "C09", "title": "On-delay timer follows its input and the clock", "statement": "TON's done output is on exactly when its input has been on without interruption and at least preset x basetime milliseconds passed on the clock between the start scan and this scan; the running output is on while timing; the accumulator never exceeds the preset and equals it when done; any off scan resets all three. Other timers are untouched.", "quantifier": "every history of input power and of clock readings (also a wrapping or stalling clock), every preset and basetime whose product fits in 32 bits", "why_tests_cant": "Timing behaviour over unbounded schedules of scans.", "anchors": ["source/instructions/fn_TON.c:fn_TON", "source/instructions/fn_commons.c:basetime_factor"]}
{"id": "C10", "title": "Off-delay timer holds its output for the preset time", "statement": "TOF's output is on while the input is on and for preset x basetime milliseconds of off scans after it; input on resets the timer; when the time elapsed the output goes off and stays off until the next on.", "quantifier": "every history of input power and clock readings, every preset/basetime whose product fits in 32 bits", "why_tests_cant": "Unbounded schedules.", "anchors": ["source/instructions/fn_TOF.c:fn_TOF"]}
{"id": "C11", "title": "Pulse timer emits one pulse of the preset length", "statement": "TP, once started by a powered input, keeps its output on until preset x basetime milliseconds passed whatever the input does meanwhile, then turns it off. A rising input after the pulse ended starts a new pulse.", "quantifier": "every history of input power and clock readings", "why_tests_cant": "Unbounded schedules; retrigger behaviour needs two pulses.", "anchors": ["source/instructions/fn_TP.c:fn_TP", "source/include/ladder_fn_commons.h:ladder_get_previous_value"]}
{"id": "C12", "title": "Timers respect presets of any size", "statement": "A timer whose preset x basetime does not fit in 32 bits must not report done before that much time passed, and its accumulator must not run backwards.", "quantifier": "every preset and basetime", "why_tests_cant": "Wrap-around happens only for huge presets or very long runs that tests never reach.", "anchors": ["source/instructions/fn_TON.c:fn_TON", "source/instructions/fn_TOF.c:fn_TOF", "source/instructions/fn_TP.c:fn_TP"]}
{"id": "C13", "title": "Up counter counts rising edges up to its preset", "statement": "Away from column 0 and with its reset input off, CTU's count equals the number of off-to-on transitions of its input (starting from a reset counter) capped at the preset; done is on exactly when the count reached the preset; a powered reset input zeroes the count and done flag.", "quantifier": "every power history of any length, every preset in 1..2^31-1", "why_tests_cant": "Counting over unbounded histories.", "anchors": ["source/instructions/fn_CTU.c:fn_CTU"]}
{"id": "C14", "title": "Down counter counts rising edges down from its preset", "statement": "Away from column 0, after a reset loaded the preset, CTD's count equals preset minus the number of rising edges, stops at zero, and done is on exactly when it is zero.", "quantifier": "every power history of any length, every preset in 1..2^31-1", "why_tests_cant": "Counting over unbounded histories.", "anchors": ["source/instructions/fn_CTD.c:fn_CTD"]}
{"id": "C15", "title": "Counter reset input is independent of the count input", "statement": "In a program, a contact placed left of a counter's second row resets the counter when closed, independently of the count input on the first row.", "quantifier": "every program placing a counter right of column 0 and every input history", "why_tests_cant": "The order in which the scan visits the two rows decides; instruction-level tests preset the cell states by hand.", "anchors": ["source/instructions/fn_CTU.c:fn_CTU", "source/instructions/fn_CTD.c:fn_CTD", "source/ladder_scan.c:ladder_scan"]}
{"id": "C16", "title": "Arithmetic is exact or signalled", "statement": "When powered, ADD/SUB/MUL/DIV/MOD store the exact 32-bit mathematical result (C truncation for DIV/MOD) into the third operand and change nothing else; DIV by zero stores zero; when not powered they store nothing. SUB also powers its first, second or third row for greater, equal, less. Results outside 32 bits and MOD by zero must not crash the task.", "quantifier": "every pair of 32-bit operands from every register bank, every destination", "why_tests_cant": "2^64 operand pairs per instruction and destination bank.", "anchors": ["source/instructions/fn_ADD.c:fn_ADD", "source/instructions/fn_SUB.c:fn_SUB", "source/instructions/fn_MUL.c:fn_MUL", "source/instructions/fn_DIV.c:fn_DIV", "source/instructions/fn_MOD.c:fn_MOD"]}
{"id": "C17", "title": "Bitwise instructions act on all 32 bits", "statement": "When powered, AND, OR, XOR and NOT store the bitwise result of the 32-bit operands and change nothing else; when not powered they store nothing.", "quantifier": "every pair of 32-bit operands, every destination", "why_tests_cant": "2^64 operand pairs.", "anchors": ["source/instructions/fn_AND.c:fn_AND", "source/instructions/fn_OR.c:fn_OR", "source/instructions/fn_XOR.c:fn_XOR", "source/instructions/fn_NOT.c:fn_NOT"]}
{"id": "C18", "title": "Shifts and rotates match their mathematical meaning", "statement": "SHL/SHR multiply / divide the unsigned 32-bit operand by 2^(amount mod 32); ROL/ROR rotate by amount mod 32, are inverse to each other and lose no bits; they act only when powered.", "quantifier": "every 32-bit operand and amount (also negative and multiples of 32)", "why_tests_cant": "2^64 combinations; amount 0 mod 32 is the dangerous one.", "anchors": ["source/instructions/fn_SHL.c:fn_SHL", "source/instructions/fn_SHR.c:fn_SHR", "source/instructions/fn_ROL.c:fn_ROL", "source/instructions/fn_ROR.c:fn_ROR"]}
{"id": "C19", "title": "Comparisons decide the signed order of their operands", "statement": "EQ, NE, GT, GE, LT, LE power the cell exactly when the left power is on and the relation holds between the two operand values as signed 32-bit numbers; nothing else changes.", "quantifier": "every pair of operand values from every bank", "why_tests_cant": "2^64 operand pairs.", "anchors": ["source/instructions/fn_EQ.c:fn_EQ", "source/instructions/fn_GT.c:fn_GT", "source/instructions/fn_GE.c:fn_GE", "source/instructions/fn_LT.c:fn_LT", "source/instructions/fn_LE.c:fn_LE", "source/instructions/fn_NE.c:fn_NE"]}
{"id": "C20", "title": "MOVE copies 32 bits between compatible registers and nothing else", "statement": "MOVE between numeric registers copies the 32-bit value bit for bit (also for reals), changes no other location, and faults the program on incompatible types or an unwritable destination. It moves only when powered.", "quantifier": "every source and destination register, every value", "why_tests_cant": "All type pairs x all values, plus the frame.", "anchors": ["source/instructions/fn_MOVE.c:fn_MOVE"]}
{"id": "C21", "title": "TMOVE copies a block between data tables atomically", "statement": "TMOVE copies qty consecutive table values from the source position to the destination position of disabled networks, correctly also when the ranges overlap; on any error no value is changed.", "quantifier": "every table size, position, quantity and overlap, every cell content", "why_tests_cant": "Overlap and mid-block errors combine with unbounded sizes.", "anchors": ["source/instructions/fn_TMOVE.c:fn_TMOVE", "source/instructions/fn_TMOVE.c:ladder_get_table_i32", "source/instructions/fn_TMOVE.c:ladder_set_table_i32"]}
{"id": "C22", "title": "FOREIGN calls the function whose id is in its data", "statement": "A FOREIGN cell calls exactly the registered foreign function with the id stored in the cell, with this cell's coordinates, returns its error code, and faults if the id is not registered.", "quantifier": "every id and every number of registered functions", "why_tests_cant": "All ids x all registration counts.", "anchors": ["source/instructions/fn_FOREIGN.c:fn_FOREIGN", "source/include/ladder_fn_commons.h:to_integer"]}
{"id": "C23", "title": "Operand reads are total and side-effect free on registers", "statement": "Reading an operand of an executing cell never changes any register, input, output or cell; a register index outside the configured quantity reads as zero and is reported in last.err; in-range indices return the stored value.", "quantifier": "every register type, every index (negative, huge), every context", "why_tests_cant": "Index space and frame.", "anchors": ["source/include/ladder_fn_commons.h:ladder_get_data_value", "source/include/ladder_fn_commons.h:ladder_get_previous_value"]}
{"id": "C24", "title": "Operand writes hit one location or none", "statement": "Writing an operand changes exactly the addressed element when the address is inside the configured quantities and otherwise changes nothing and reports an error; string, timer, constant and invalid operands are never written.", "quantifier": "every register type, index, module, port and value", "why_tests_cant": "Address space and frame.", "anchors": ["source/include/ladder_fn_commons.h:ladder_set_data_value", "source/include/ladder_fn_commons.h:safe_check_module_port"]}
{"id": "C25", "title": "Disabled networks are never executed or altered by a scan", "statement": "A scan runs no instruction of a disabled network and leaves its cells as they were, except table values written by TMOVE.", "quantifier": "every program with any mix of enabled and disabled networks", "why_tests_cant": "Unbounded programs.", "anchors": ["source/ladder_scan.c:ladder_scan"]}
{"id": "C26", "title": "Every scan terminates and the cycle watchdog is exact", "statement": "A scan of any program whose callbacks leave the program shape alone terminates; if it needs more iterations than max_scan_cycles in one network it stops with state ERROR and last.err OVERFLOW, otherwise the watchdog does not interfere.", "quantifier": "every program, every max_scan_cycles", "why_tests_cant": "Termination and exact bounds over all program shapes.", "anchors": ["source/ladder_scan.c:ladder_scan"]}
{"id": "C27", "title": "A faulting instruction stops the scan and is identified", "statement": "When an instruction returns an error or a cell holds an invalid code, no later instruction of that scan is executed, the state becomes INV, and last.network/row/column/instr/err identify exactly that cell and error.", "quantifier": "every program, every position of the faulting cell", "why_tests_cant": "Position and preceding program are unbounded.", "anchors": ["source/ladder_scan.c:ladder_scan"]}
{"id": "C28", "title": "After a fault the outputs are the last good ones or zero", "statement": "When a scan faults, the values handed to every write function in that cycle are those of the previous cycle if write_on_fault is set, and zero otherwise; M, counter and timer flags are rolled back and counters, timers, D and R are zero; the task then ends.", "quantifier": "every program, every faulting cell, every number of modules, digital or analog", "why_tests_cant": "The partial effects to undo depend on how far the scan got.", "anchors": ["source/ladder_task.c:ladder_task", "source/ladder_general.c:ladder_save_previous_values"]}
{"id": "C29", "title": "Each task cycle performs I/O in a fixed order", "statement": "Every cycle calls: clock, task_before, each read function once in order, the scan, each write function once in order, clock, optional padding delay, task_after; reads precede all instructions and writes follow them; outputs handed to the writers are those the scan computed.", "quantifier": "every number of cycles, modules and callbacks", "why_tests_cant": "Order over unbounded runs.", "anchors": ["source/ladder_task.c:ladder_task"]}
{"id": "C30", "title": "The task does not run the program while stopped and cannot hang waiting", "statement": "While the state is not RUNNING no read, instruction or write happens; after at most 1000 delays the task reports panic and ends; a stop request (EXIT_TSK) ends it at the latest after the current cycle.", "quantifier": "every history of state changes made by other code", "why_tests_cant": "Schedules of external state changes.", "anchors": ["source/ladder_task.c:ladder_task"]}
{"id": "C31", "title": "end_task is called exactly once, last", "statement": "Whenever the task function ends, end_task has been called exactly once and nothing is called after it.", "quantifier": "every way the task can end", "why_tests_cant": "All exit paths under arbitrary external state changes.", "anchors": ["source/ladder_task.c:ladder_task"]}
{"id": "C32", "title": "History registers hold the previous cycle's values", "statement": "At every instruction of a cycle the previous-value of an M, Q, Cd, Cr, Td, Tr or I operand is the value it had when the previous cycle ended (inputs: when read in the previous cycle).", "quantifier": "every run of the task, every operand", "why_tests_cant": "Unbounded runs.", "anchors": ["source/ladder_task.c:ladder_task", "source/ladder_general.c:ladder_save_previous_values"]}
{"id": "C33", "title": "Scan-time statistics are consistent", "statement": "After any number of scans min <= avg <= max, total is the sum of all scan times, count is the number of scans, overrun is set exactly when the last scan exceeded the positive target, and the time watchdog sets ERROR exactly when a scan exceeded it; a wrapping clock gives the correct difference.", "quantifier": "every sequence of clock readings of any length below the counters' wrap", "why_tests_cant": "Unbounded sequences, clock wrap.", "anchors": ["source/ladder_general.c:ladder_scan_time"]}
{"id": "C34", "title": "Cycles are padded to the target period", "statement": "With a positive target and a cycle shorter than it, the task delays exactly target minus actual milliseconds once; otherwise it does not delay.", "quantifier": "every clock history and target", "why_tests_cant": "All clock values.", "anchors": ["source/ladder_task.c:ladder_task"]}
{"id": "C35", "title": "Context initialisation establishes a usable context", "statement": "ladder_ctx_init accepts exactly the documented parameter ranges; on success every register bank has the requested size and is zero, every network has the requested shape with empty cells and is disabled, statistics are reset, and state is STOPPED; on rejected parameters the context is untouched.", "quantifier": "every parameter tuple", "why_tests_cant": "15 parameters over full integer ranges.", "anchors": ["source/ladder_general.c:ladder_ctx_init"]}
{"id": "C36", "title": "Clearing program or memory", "statement": "ladder_clear_program leaves every cell of every network empty and no register changed; ladder_clear_memory zeroes M and the counter/timer flags with their histories and changes nothing else.", "quantifier": "every context", "why_tests_cant": "Unbounded program and memory sizes.", "anchors": ["source/ladder_general.c:ladder_clear_program", "source/ladder_general.c:ladder_clear_memory"]}
{"id": "C37", "title": "Fault recovery resets to a safe state", "statement": "ladder_fault_clear acts only in state ERROR; on success the state is RUNNING, timers, counters, D, R and all outputs with their histories are zero, M and inputs are kept; otherwise nothing changes.", "quantifier": "every context", "why_tests_cant": "Unbounded sizes.", "anchors": ["source/ladder_general.c:ladder_fault_clear"]}
{"id": "C38", "title": "Registering I/O functions keeps existing modules", "statement": "Adding a read or write module either appends exactly one module keeping all earlier ones, or fails leaving the module list and count as before; at most 255 modules are accepted.", "quantifier": "every sequence of registrations with any outcome of init callbacks and allocations", "why_tests_cant": "Sequences and allocation failures.", "anchors": ["source/ladder_general.c:ladder_add_read_fn", "source/ladder_general.c:ladder_add_write_fn"]}
{"id": "C39", "title": "Placing instructions never overlaps or overflows the network", "statement": "ladder_fn_cell places an instruction only if its whole span is inside the network and free; it marks the span, allocates the documented number of data slots and changes no other cell; if it fails no cell changes.", "quantifier": "every context, position, instruction and sequence of placements", "why_tests_cant": "All placement sequences.", "anchors": ["source/ladder_general.c:ladder_fn_cell", "source/instructions/fn_commons.c:ladder_fn_iocd"]}
{"id": "C40", "title": "A program accepted by the checker runs without memory errors", "statement": "If ladder_program_check accepts a program then every operand access during scans stays inside the configured register banks and modules.", "quantifier": "every program and every execution", "why_tests_cant": "All programs.", "anchors": ["utils/ladder_program_check.c:ladder_program_check"]}
{"id": "C41", "title": "Well-formed programs never reach undefined behaviour", "statement": "For a context built by the API whose program satisfies an explicit well-formedness condition, every scan and every task run executes without out-of-bounds access, null dereference or undefined arithmetic, and the context stays well formed.", "quantifier": "every well-formed program, every run length, every input, clock and callback behaviour preserving well-formedness", "why_tests_cant": "All programs and all runs.", "anchors": ["source/ladder_scan.c:ladder_scan", "source/ladder_task.c:ladder_task"]}
{"id": "C42", "title": "A scan changes only what the program writes", "statement": "A register that no coil, destination operand, timer, counter, cron job or foreign function of an enabled network names has the same value after a scan; inputs are never changed by a scan unless named as destination.", "quantifier": "every program, register and run", "why_tests_cant": "Frame over all programs.", "anchors": ["source/ladder_scan.c:ladder_scan"]}
{"id": "C43", "title": "Cron jobs set their flag exactly at matching times", "statement": "At each scan, for each job in order, an auto-reset job's flag is cleared and then, if the current local time matches the job's expression, its flag is set to the value of its enable register; other M registers are untouched.", "quantifier": "every number of jobs and every time", "why_tests_cant": "Unbounded jobs x all times.", "anchors": ["optional/cron/ladderlib_cron.c:ladderlib_cron_eval", "source/ladder_scan.c:ladder_scan"]}
{"id": "C44", "title": "A program without cron jobs runs", "statement": "A freshly initialised context without any cron job can be run by the task.", "quantifier": "every context produced by ladder_ctx_init without cron jobs", "why_tests_cant": "Shipped tests set the cron pointer to NULL by hand, which hides the behaviour.", "anchors": ["source/ladder_scan.c:ladder_scan", "optional/cron/ladderlib_cron.c:ladderlib_cron_eval", "source/ladder_general.c:ladder_ctx_init"]}
{"id": "C45", "title": "Cron expressions denote the documented sets", "statement": "Parsing a field list of '*', n, a-b, with optional /step, sets exactly the values the expression denotes within the field's range; expressions outside the range are rejected; parsing terminates on every string; matching is the AND over all seven fields.", "quantifier": "every string and every time", "why_tests_cant": "All strings.", "anchors": ["optional/cron/lwdtc/lwdtc.c:prv_get_and_parse_next_token", "optional/cron/lwdtc/lwdtc.c:lwdtc_cron_is_valid_for_time"]}
{"id": "C46", "title": "Adding cron jobs validates registers and capacity", "statement": "ladderlib_cron_add accepts a job only if a slot is free and both register numbers are inside M, stores it in the next slot and keeps earlier jobs; so cron evaluation never writes outside M.", "quantifier": "every sequence of additions", "why_tests_cant": "Sequences.", "anchors": ["optional/cron/ladderlib_cron.c:ladderlib_cron_add", "optional/cron/ladderlib_cron.c:ladderlib_cron_init"]}
{"id": "C47", "title": "Registering foreign functions", "statement": "Each successful ladder_add_foreign appends one function with id equal to the previous count and keeps the others; failures change no registered function; at most 100 are accepted.", "quantifier": "every sequence of registrations", "why_tests_cant": "Sequences.", "anchors": ["source/ladder_general.c:ladder_add_foreign"]}
{"id": "C48", "title": "A branch spanning several columns contributes its power", "statement": "A parallel branch whose vertical bar joins the main rung at a column greater than 0 contributes the conjunction of its contacts to the main rung.", "quantifier": "every program with such a branch", "why_tests_cant": "Depends on scan order of rows; unbounded shapes.", "anchors": ["source/ladder_scan.c:ladder_scan"]}
{"id": "C49", "title": "Multi-row instructions do not merge neighbouring rungs", "statement": "Placing a timer, counter or arithmetic block with ladder_fn_cell does not change the power of the rung above it.", "quantifier": "every program built with ladder_fn_cell", "why_tests_cant": "Depends on the bars written by placement and how the scan groups rows.", "anchors": ["source/ladder_general.c:ladder_fn_cell", "source/ladder_scan.c:ladder_scan"]}
{"id": "C50", "title": "The next time of a cron expression is the first match after now", "statement": "lwdtc_cron_next returns the first time strictly after the given time at which the expression matches local time; it skips no match, and it ends whenever a match exists.", "quantifier": "every expression, every time and every clock", "why_tests_cant": "The loop jumps over half hours and minutes; whether a jump can skip a match depends on the expression, the time and the time zone.", "anchors": ["optional/cron/lwdtc/lwdtc.c:lwdtc_cron_next"]}
{"id": "C51", "title": "Several cron expressions are parsed and combined by OR and AND", "statement": "lwdtc_cron_parse_multi parses each expression into its own map and reports the index of the first bad one; the multi OR test succeeds exactly when at least one expression matches the time, the multi AND test exactly when all do.", "quantifier": "every number of expressions and every time", "why_tests_cant": "Unbounded number of expressions times all times.", "anchors": ["optional/cron/lwdtc/lwdtc.c:lwdtc_cron_parse_multi", "optional/cron/lwdtc/lwdtc.c:lwdtc_cron_is_valid_for_time_multi_or", "optional/cron/lwdtc/lwdtc.c:lwdtc_cron_is_valid_for_time_multi_and"]}
{"id": "C52", "title": "A program loaded from JSON is the described program", "statement": "ladder_json_to_program accepts exactly the documents that describe networks of the program (position, size, and for each cell a known symbol, a bar and the operands of its instruction), and the program is then the described one: described networks as their last description says, all others empty, nothing else changed.", "quantifier": "every document, every context with a complete program", "why_tests_cant": "Documents are unbounded trees with free text in the operands; no set of files covers the accepted language.", "anchors": ["utils/ladder_program_json.c:ladder_json_to_program", "utils/ladder_program_json.c:get_instruction_code", "utils/ladder_program_json.c:parse_module_port"]}
{"id": "C53", "title": "Loading a bad document is safe and leaves the program usable", "statement": "A document that is refused, or memory that runs out, leads to an error code without undefined behaviour, and the program in memory stays intact.", "quantifier": "every document, every pattern of failing allocations", "why_tests_cant": "The failing element can be anywhere in a document of any size, with any allocation failing.", "anchors": ["utils/ladder_program_json.c:ladder_json_to_program", "source/ladder_general.c:ladder_clear_program"]}
{"id": "C54", "title": "A saved program can be loaded again", "statement": "ladder_program_to_json writes every program without undefined behaviour, and ladder_json_to_program accepts what was written and restores the same program: sizes, enabled networks, bars, instructions and operands.", "quantifier": "every complete program, every context it is loaded into", "why_tests_cant": "Programs are unbounded, with all instructions and operand types and values; text conversion has to be inverted for each.", "anchors": ["utils/ladder_program_json.c:ladder_program_to_json", "utils/ladder_program_json.c:ladder_json_to_program", "utils/ladder_program_json.c:get_data_name"]}
{"id": "C55", "title": "The validator follows the rules of JSON Schema", "statement": "ladder_validate_json_file answers true exactly when both files are JSON and the document is valid against the schema, by the draft 7 meaning of the keywords type, enum, const, minimum, maximum, minLength, maxLength, items, additionalItems, minItems, maxItems, properties, required, additionalProperties, allOf, if, then and else; it always answers.", "quantifier": "every document, every schema, of any size and depth", "why_tests_cant": "Schemas nest without bound and their keywords interact; a test tries one schema and a few documents.", "anchors": ["utils/ladder_program_json.c:validate_json", "utils/ladder_program_json.c:ladder_validate_json_file"]}
{"id": "C56", "title": "The shipped schema, the loader and the saver agree", "statement": "Every document valid against ladder_networks_schema.json is accepted by ladder_json_to_program when its networks exist with the announced sizes and its values are readable, and every document ladder_program_to_json writes is valid against that schema.", "quantifier": "every document, every program, of any number of networks, rows, columns and operands", "why_tests_cant": "The schema, the symbol and name tables of the saver and the operand counts of the loader are maintained separately; a test compares them on a few sample programs only.", "anchors": ["ladder_networks_schema.json", "ladder_networks.json", "utils/ladder_program_json.c:ladder_json_to_program", "utils/ladder_program_json.c:ladder_program_to_json", "utils/ladder_program_json.c:ladder_validate_json_file"]}
{"id": "C57", "title": "A loaded and checked program runs without memory errors", "statement": "A program that ladder_json_to_program loads and ladder_program_check accepts is scanned and run by ladder_task without reading or writing outside the arrays of the machine.", "quantifier": "every document, every machine laid out as configured, every environment, every number of scans", "why_tests_cant": "The guarantee spans the loader, the checker and the interpreter for every document; tests run the shipped sample.", "anchors": ["utils/ladder_program_json.c:ladder_json_to_program", "utils/ladder_program_check.c:ladder_program_check", "source/ladder_task.c:ladder_task"]}
{"id": "C58", "title": "Drawing a program as text is safe", "statement": "ladder_print draws every program that ladder_json_to_program loads or ladder_program_check accepts without reading outside the program and without undefined conversions, whatever memory it gets.", "quantifier": "every program, of any number of networks, rows, columns and operands, every outcome of the allocations", "why_tests_cant": "The drawing reads operands by the rows of the figure and not by their count; only programs with unusual cells show it.", "anchors": ["utils/ladder_print.c:ladder_print", "utils/ladder_print.c:print_ladder_network", "utils/ladder_print.c:fn_to_str"]}
{"id": "C59", "title": "The drawing shows the program", "statement": "The text ladder_print writes for a program consists of its networks in order, each with number and state, drawn row by row; every instruction shows its symbol and its operands at its place, the marks of its bars where cells are joined, and all lines of a network have the same length.", "quantifier": "every accepted program, of any number of networks and, up to the drawn size, rows and columns", "why_tests_cant": "Each figure is assembled from pieces of text cut and padded by the values of operands; expected drawings cover a few values.", "anchors": ["utils/ladder_print.c:fn_to_str", "utils/ladder_print.c:print_ladder_network", "utils/ladder_print.c:ladder_print"]}
{"id": "C60", "title": "Real operands are drawn rounded to two places", "statement": "ftos writes a real number as its decimal value with sign, rounded to two places, and OVF if the magnitude exceeds a million.", "quantifier": "every 32-bit pattern that denotes a number or an infinity", "why_tests_cant": "There are 2^32 patterns, and the fraction is computed with rounding of its own.", "anchors": ["utils/ladder_print.c:ftos"]}
{"id": "C61", "title": "Only registered functions are called, on the machine they were registered for", "statement": "While the task runs, every call out of the library goes to a function that is registered: a hook that is set, a read or write function of a module inside its table (with the module's own arrays), a registered foreign function, the clock or the delay function; initialisers are not called. Calls are made on contexts of the configured shape only, and what the functions would do in other situations has no influence on the run.", "quantifier": "all programs, contexts and environments whose functions keep sizes and tables as they are, any number of iterations", "why_tests_cant": "Tests exercise the calls that are made; that no other call is possible, after any fault and in any order of events, needs all runs.", "anchors": ["source/ladder_task.c:ladder_task", "source/ladder_scan.c:ladder_scan", "source/instructions/fn_FOREIGN.c:fn_FOREIGN", "source/include/ladder_fn_commons.h:ladder_get_data_value"]}
{"id": "C62", "title": "The example port runs machines safely", "statement": "With the shipped port and the shipped foreign function, a machine that is well formed and has the registers and modules the port displays runs any number of cycles without any of the port's functions touching memory outside an array; modules added with the port's initialisation functions have eight digital and eight analog ports, zeroed; the key pressed last ends the task or switches exactly that input; displaying changes nothing; the foreign function hands on the power on its left.", "quantifier": "all programs, contexts, keys, times of day and outcomes of allocations, any number of iterations", "why_tests_cant": "The port reads fixed positions of arrays whose sizes are chosen by the user and is called from many places of the task; which contexts it can be called on needs all runs.", "anchors": ["port/dummy/port_dummy.c:dummy_read", "port/dummy/port_dummy.c:dummy_write", "port/dummy/port_dummy.c:dummy_init_read", "port/dummy/port_dummy.c:dummy_init_write", "foreign_functions/fn_dummy/fn_dummy.c:dummy_exec"]}
{"id": "C63", "title": "Reports and times of the example port", "statement": "The panic handler of the shipped port prints the names of the state, the last instruction and the last error for every panic the library can raise; its clock shows whole milliseconds and does not run backwards when the time of day does not; its delay sleeps exactly as long as asked.", "quantifier": "all contexts, all times of day, all delays", "why_tests_cant": "The tables of names must cover every error and instruction code; tests see the panics they provoke.", "anchors": ["port/dummy/port_dummy.c:dummy_on_panic", "port/dummy/port_dummy.c:dummy_millis", "port/dummy/port_dummy.c:dummy_delay", "ladder.h:ladder_err_t"]}
{"id": "C64", "title": "A well-equipped machine never panics", "statement": "A machine that has its register banks, networks, modules, time functions and a function in every used I/O slot, no watchdog time, and a cycle limit with room for its networks never calls the panic hook: started running, it is running or asked to end at every moment of the task, and what the hook would do has no influence on it.", "quantifier": "all such machines, programs, inputs, clocks, environments that leave the shape alone, any number of cycles", "why_tests_cant": "Panics are raised from dozens of places in the library depending on registers, inputs and elapsed time; a test run sees one path through them.", "anchors": ["source/ladder_task.c:ladder_task", "source/ladder_scan.c:ladder_scan", "source/include/ladder_fn_commons.h:ladder_get_data_value", "port/dummy/port_dummy.c:dummy_on_panic"]}
{"id": "C65", "title": "Programs of instructions that cannot fail never stop", "statement": "Contacts, coils, edge detectors, timers, counters, arithmetic, logic and comparison instructions never return an error, whatever their operands; a scan of a program made of them executes all of them unless it exceeds the cycle limit, and a task with such a program, everything it needs and room in its limit is still running after any number of cycles unless a call asks for its end. Every other instruction can fail.", "quantifier": "all programs of these instructions, all operands and register contents, all inputs, clocks and call histories, any number of cycles", "why_tests_cant": "The operands may address anything and the number of cycles is unbounded; a test runs a few programs for a few cycles.", "anchors": ["source/ladder_scan.c:ladder_scan", "source/ladder_task.c:ladder_task", "source/instructions/fn_DIV.c:fn_DIV", "source/instructions/fn_TON.c:fn_TON"]}
{"id": "C66", "title": "Memory is released once, and all of it", "statement": "Between ladder_ctx_init and ladder_ctx_deinit the machine points to exactly the blocks allocated for it that are not released, whatever calls are made and whatever requests for memory are refused; ladder_ctx_deinit gives back all of them, each once, and no block is used after its release or outside its size. An initialisation that fails keeps nothing.", "quantifier": "all initial heaps, all sizes, all sequences of add_read, add_write, add_foreign, cron_init, fn_cell, clear_program and JSON loads, all patterns of refused requests", "why_tests_cant": "Leaks and double releases depend on which of the many requests is refused and on the order of calls; a test under a leak checker sees one combination.", "anchors": ["source/ladder_general.c:ladder_ctx_init", "source/ladder_general.c:ladder_ctx_deinit", "source/ladder_general.c:ladder_fn_cell", "source/ladder_general.c:ladder_add_read_fn", "utils/ladder_program_json.c:ladder_json_to_program", "optional/cron/ladderlib_cron.c:ladderlib_cron_init"]}
{"id": "C67", "title": "Typed access to operands", "statement": "ladder_get_data_int32 yields the same number as the accessor of the instructions for every operand whose index is within the configured quantity, except that a counter or time of 2^31 or more yields 0 and an overflow mark. ladder_get_data_float yields the IEEE-754 single nearest to the operand's number, halves to even, exact up to 2^24, and a real register unchanged. Neither changes anything but the error mark. Outside the arrays of C, T, D and R registers both read out of bounds.", "quantifier": "all machines, cells, operands, register types, indices and register contents", "why_tests_cant": "Rounding and overflow depend on each of the 2^32 counter values and 2^64 times; the project has no test for these accessors.", "anchors": ["source/include/ladder_fn_commons.h:ladder_get_data_int32", "source/include/ladder_fn_commons.h:ladder_get_data_float"]}
{"id": "C68", "title": "Program files keep their meaning", "statement": "A compacted file stands for the same document as the original: it loads, validates and compacts again the same. A program saved to a file is loaded from it again. A call that reports an error leaves every file as it was, and a call that reports success has written the whole text.", "quantifier": "all disks, paths (input and output may be equal), file contents, programs, all failures of opening, memory and writing, all faithful JSON libraries", "why_tests_cant": "Refused memory and full disks are not produced by tests; the project never reads a compacted file back.", "anchors": ["utils/ladder_program_json.c:read_file", "utils/ladder_program_json.c:write_file", "utils/ladder_program_json.c:ladder_compact_json_file", "utils/ladder_program_json.c:ladder_program_to_json", "utils/ladder_program_json.c:ladder_validate_json_file"]}
{"id": "C69", "title": "The example application runs only what it has checked", "statement": "The example application sets up the machine its source describes. It runs a program only if its document is valid by the schema, is loaded, saved and compacted, and passes the checker; otherwise it touches no input or output and reports the step that failed. It writes only its two output files, which hold the program it runs. It has no undefined behaviour, never panics, and gives back everything when it ends; the shipped program runs until q is pressed.", "quantifier": "all documents, disks, keys, clocks, refused allocations, failures of files, numbers of cycles", "why_tests_cant": "The application is the project's only integration test and is run by hand with one document; refused memory, other documents and long runs are never tried.", "anchors": ["test/ladderlib_test.c:main", "test/ladderlib_test.c:functions_str", "ladder_networks.json", "ladder_networks_schema.json"]}
{"id": "C70", "title": "Programs without timers do not depend on the clock", "statement": "A scan of a program without TON, TOF and TP never reads the millisecond clock, and its result does not depend on it: with the same registers, inputs and functions it ends in the same state after the same calls, whatever the clock shows and whatever reading it would do. The same holds for any number of scans in a row. The time of day matters only if there are cron jobs. Each of the three timers does depend on the clock. A whole task run of such a program, with no watchdog and no target for the duration of a scan, makes the same calls apart from the readings of the clock and leaves the same values apart from the statistics; with a watchdog or a target it can differ.", "quantifier": "all programs without timers, all register contents, all pairs of clocks, all environments whose functions keep the shape of the context (for the task: and do not depend on the statistics), any number of scans or cycles", "why_tests_cant": "It compares all pairs of clock histories for all programs; a test sees one clock.", "anchors": ["source/ladder_scan.c:ladder_scan", "source/instructions/fn_TON.c:fn_TON", "source/instructions/fn_TOF.c:fn_TOF", "source/instructions/fn_TP.c:fn_TP", "source/ladder_task.c:ladder_task"]}
