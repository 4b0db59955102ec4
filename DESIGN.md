# Formal model of ladderlib in Rocq (Coq 8.16.1)

The source is `/repo` (read as text, never built). The model lives in `rocq/theories`. `properties.jsonl` lists the
properties, `MANIFEST.json` maps them to theorems, `seeded/LOG.jsonl` records the wrong programs the theorems were
tested against.

## How the code is modelled

* Outcomes. Every C function becomes a Gallina function in a state monad `M A := st -> res (A * st)` with
  `res A := Ok a | Bad u | NoFuel`. `Bad` is undefined behaviour (null dereference, access outside an array, signed
  overflow, division by zero, oversized shift, reading a `bool` object that holds neither 0 nor 1, float conversion out
  of range). `NoFuel` marks a loop that ran past its fuel; theorems show that it is not reached or return it explicitly.
* State. `st` is the context (`ctx`, a record mirroring `ladder_ctx_t`) and the trace of external calls so far.
* Environment. Everything outside the library is a parameter `E : env`: the clock `clk` (a value per call), the effect
  `act` of each callback on the context (an arbitrary function of the number of calls so far, the call, and the
  context), foreign functions `fexec`, wall time `wall`, success of external initialisers `ext_ok`, `finit`. Theorems
  state which restrictions on `E` they need.
* Numbers. Registers are `Z` with explicit wrap-around at each conversion; sizes and positions are `nat`. The 32-bit
  union in an operand is one `Z`; module and port are its two low bytes (little endian). `R` registers are raw 32-bit
  patterns with an explicit IEEE-754 decode for the conversion to `int32_t`.
* Arrays are `option (list _)`, `None` being `NULL`; every access is bounds-checked into `Bad`.

## What is modelled

| Source | Lines | Model file |
|--------|-------|------------|
| `ladder.h`, `source/include/ladder_internals.h` | types, quantities, callbacks | `Types.v` |
| `source/include/ladder_fn_commons.h` | operand access used by the instructions | `Commons.v` |
| `source/include/ladder_fn_commons.h` | 382-443, 619-669, typed access used by no `.c` file | `Reader.v` |
| `source/include/ladder_instructions.h` | the macros | `Commons.v`, `Instr.v` |
| `source/instructions/fn_*.c` | all 37 files | `Instr.v` |
| `source/ladder_scan.c` | 84-312, whole | `Scan.v` |
| `source/ladder_task.c` | 42-307, whole | `Task.v` |
| `source/ladder_general.c` | 44-842, whole | `General.v` |
| `optional/cron/ladderlib_cron.c` | whole | `Cron.v` |
| `optional/cron/lwdtc/lwdtc.c` | 54-376, 404-438, parser and matcher | `Lwdtc.v` |
| `optional/cron/lwdtc/lwdtc.c` | 377-403, 441-535, next time and several expressions | `CronNext.v` |
| `utils/ladder_program_check.c` | 46-355, whole | `Check.v` |
| `utils/ladder_program_json.c` | 49-236, 603-1056, loader and saver over parsed trees | `Json.v` |
| `utils/ladder_program_json.c` | 263-599, 1096-1127, schema validation over parsed trees | `Schema.v` |
| `utils/ladder_program_json.c` | 238-262, 603-613, 903-907, 1044-1127, files | `Files.v` |
| `ladder_networks_schema.json`, `ladder_networks.json` | whole | `Shipped.v` |
| `utils/ladder_print.c` | whole | `Print.v` |
| `port/dummy/port_dummy.c` | 47-419, without the text printed | `Port.v` |
| `foreign_functions/fn_dummy/fn_dummy.c` | whole | `Port.v` |
| `test/ladderlib_test.c` | 94-268, `main` of the example application with cron, after its tests | `App.v` |
| `ladder_general.c`, `ladder_program_json.c`, `ladderlib_cron.c`, `port_dummy.c`, `fn_dummy.c`: allocation and release | general 233-842, json 602-904, cron 42-61, port 285-414, foreign 44-69 | `Heap.v` |

`Base.v` holds outcomes, machine integers and arrays.

## What is not modelled

* Heap addresses and aliasing. Which blocks are allocated, owned and given back is modelled apart from the values, in `Heap.v`;
  the two models are not linked by a proof. Data races between threads (other code acts only at external calls), stack use,
  compiler specifics.
* `memcpy`/`memset` of zero bytes on `NULL` is treated as a no-op. Row pointers of a network and the function pointer of
  a registered foreign function are never `NULL`. The context argument of an interface function is never `NULL`.
* The unspecified evaluation order of the two operand reads of one expression is fixed left to right; C23_order shows that it does not matter when both
  operands can be read.
* `get_effective_type` (a table used by no `.c` file).
* `test`: the text printed (the 37 test functions are run on the model, see `Suite.v`); of `port/dummy`: settings of the terminal, the text printed, interrupted sleeps.
* `utils/ladder_program_json.c`: the cJSON library itself (a document is its parsed tree, numbers are exact binary fractions; printing
  and parsing of text are parameters of the theorems about files), special files, conversion between reals and text (`strtof`,
  `%f`: parameters of the theorems), comparison of values (`cJSON_Compare`: likewise), refused allocations inside `cJSON_Add*`.

## Trusted base

Coq's kernel; the reading of the C source recorded in the comments of the model files; the specification vocabulary
(`Spec*.v`) and the statements in `Props_*.v`; the environment assumptions spelled out in each theorem.
`Print Assumptions` is run under every property theorem in `Props_*.v` and prints "Closed under the global context" for
every one of them: no axiom is used, neither from the standard library nor from elsewhere. (The build loads ssreflect's
`ssrunder`, whose axioms no theorem uses.) No kernel check is switched off.

## Checking the model against the code

The code is never run here. `Suite.v` transcribes the 37 functions of `test/ladderlib_test_functions.c` statement by
statement and evaluates them on the model: every assertion the project makes about its own code holds of the model. This is a
test of the model's fidelity, not one of the properties.

## Layout of `rocq/theories`

* Model: the files in the table above.
* Specification vocabulary, readable without the proofs and, apart from the types, without the model's helpers:
  `Spec.v` (places `loc`, `peek`, what operands denote, `changes_only`), `SpecRun.v` (one instruction), `SpecTime.v`
  (histories of timers and counters), `SpecScan.v` (a scan, its steps, its write set), `SpecRung.v` (ladder logic
  evaluator), `SpecGen.v` (context management), `SpecTask.v` (cycles, runs, traces), `SpecCron.v`, `SpecParse.v`
  (grammar and denotation of cron expressions), `SpecNext.v` (clocks and a calendar), `SpecSafe.v` (well-formed machines), `SpecCheck.v` (rules of the checker),
  `SpecJson.v` (grammar of program documents), `SpecSchema.v` (meaning of schemas),
  `SpecShipped.v` (documents of the shipped schema), `SpecFlow.v` (loaded programs that are run),
  `SpecPrint.v` (drawings), `SpecCall.v` (calls of the task), `SpecPort.v` (the example port), `SpecOrder.v`
  (runs of programs of any instructions), `SpecCalm.v` (machines without panics, instructions that cannot fail), `SpecHist.v` (timers and counters in running programs), `SpecReader.v` (rounding to singles), `SpecFiles.v` (files), `SpecApp.v` (the example application), `SpecStill.v` (programs without timers), `SpecHeap.v` (who owns
  which memory).
* Lemmas: `Lib View Ops InstrLemmas Effects Timers Counters Frame FrameInstr ScanFrame CronStep Plan ScanOutcome Rung
  Groups Parse Trace Hist Cycle ScanPoint Loop Safe SafeScan SafeTask SafeApi Checking JsonFacts SaveFacts SchemaFacts
  ShippedFacts ShippedLoad FlowFacts PrintFacts PrintFigures PrintShow CallFacts StillFacts DriftFacts PortFacts OrderFacts CalmFacts CalmTask
  TurnFacts HistFacts HeapFacts HeapTree HeapJson HeapCell HeapMach HeapEnd HeapInit HeapFull ReaderFacts AppFacts AppEnd AppRun AppShip`.
* Concrete machines for the examples: `Demo DemoScan DemoTask DemoSafe DemoCheck DemoJson DemoSchema DemoPrint DemoCalm DemoApp`.
* Property theorems: `P_X.v` contains the proofs (lemmas `Cnn_name_l`), `Props_X.v` only the statements, `Print
  Assumptions` for each and concrete `Example`s that meet the hypotheses. Read `Props_*.v` and `Spec*.v` to see what is
  claimed.

## Testing the theorems

Each line of `seeded/LOG.jsonl` is one realistic bug put into a scratch copy of the model, which is then rebuilt.
`proofs_broken_at` lists the proofs at which the build stopped: this is what was observed.
`theorems_failed_in_own_proof` lists the property theorems among them. `theorems_failed_through_a_lemma` lists the property
theorems that use a broken lemma, found by following names through the sources; these no longer build, but that alone does
not show that their statements are false of the edited model: a lemma's proof script can break while the theorem above it
could be proved in another way. `claim_tested` says which of the two holds for the claim the bug breaks. For most
entries it is `through a lemma`, so the log is evidence that the theorems depend on the edited code, and weaker
evidence that their statements exclude the bug. `refuted_on_the_edited_model` names theorems for which this was shown
directly: the negation of the theorem's statement, copied as it stands, is proved of the edited model on a concrete case, and
`Print Assumptions` finds that proof closed (so it uses none of the lemmas set aside). The proofs are in
`seeded/refutations.jsonl`; they are no part of the build. This test found that the statements about CTU did not exclude S011,
whence C13_any_state and C14_any_state. When no theorem of the claim was reached, the broken lemmas were assumed
(in the scratch copy only) and the build repeated, up to six times; failures of these later passes are listed with the others.

## Findings

What the theorems and counterexamples show about the code (with the property they belong to):

* Scan. Bars set by `ladder_fn_cell` on the upper cells of a block are read as joins with the row above, so a block placed
  below a rung merges with it (C49). Cells of a parallel branch spanning several columns are not evaluated as a branch:
  only columns with bars are (C48). A counter's reset input is read before the cell left of it in the next row is
  evaluated, so it is seen off, or equal to the count input where a bar joins them (C15); a counter in column 0 is reset in each scan (C13). COILL and COILU on one operand
  both start from the value of the previous cycle, only the later one counts (C08). Instruction codes outside the table
  read outside it (C27).
* Instructions. AND is a logical operation on non-zero operands (C17). MOVE, TMOVE, shifts and rotates act without power
  (C18, C20); rotates by a multiple of 32 are undefined (C18). SUB powers its first row always (C16). TMOVE is not atomic
  and does not check network numbers (C21). FOREIGN ids from 2 on run function 0 (C22). TP fires once only (C11); TOF starts
  with its output on (C10); presets above 2^32 ms wrap, accumulators are truncated to 16 bits (C12). CTD that was never loaded
  wraps (C14). Ports of I/O operands, indices of previous values and reals outside `int32_t` are not checked (C23).
* Task. A stop request seen while waiting returns without `end_task` (C31). The watchdog state replaces a stop request made
  in the same cycle (C30). Analog outputs of modules without digital outputs are not reverted after a fault (C28). The
  32-bit scan counter wraps to 0 and then divides by zero (C33).
* Construction. A late allocation failure in `ladder_ctx_init` leaves a dangling network pointer (C35). `ladder_fn_cell` leaves
  a partly changed span when memory runs out (C39). The limit of foreign functions wraps (C47).
* Cron. A context without jobs faults in its first scan (C44). Flags of all auto-reset jobs are cleared before the first job
  fires (C43). Steps of 0 never terminate, ranges from 2^64-1 write outside the map, numbers wrap (C45). The
  search for the next time fails in time zones that are not a multiple of half an hour and never ends for dates that do not
  exist (C50).
* Checker. Missing operands, `R` indices, tables of TMOVE and a module number equal to the count pass; valid timers with time
  base 10 ms or 1 min are refused; the status is uninitialised for a program without cells (C40).
* JSON. Loading a document that is then refused destroys the program in memory; wrong or missing rows, or memory running out
  for them, end in a null dereference; a refused document can make the next load crash (C53). Documents with "occupied"
  cells, such as the shipped `ladder_networks.json`, make the loader read past `ladder_fn_iocd` (C53). Names of time bases
  pass as types of ordinary operands, and the empty text as 0 (C52).
  Constants are saved as type "K" and millisecond times likewise, which the loader refuses; saving strings reads a buffer that
  was never written; the enable flag of networks is not saved (C54).
* The shipped schema. It asks for other operands than the loader counts for `NEG`, `SHL`, `SHR`, `ROL`, `ROR` and `TMOV`, spells
  `TOFF` as `TOF`, lacks `FOREIGN`, and allows `occupied`, which the loader looks up past its table. The saver names the first
  operand of a move `value` instead of `from` and writes other operands than the schema wants for the same instructions (C56).
* From file to machine. A network of zero columns is loaded and accepted, and the scan reads outside its rows; instructions of
  more than one row cannot be loaded and accepted without reading past `ladder_fn_iocd` (C57).
* Schemas. The validator ignores `else`, all keywords next to `if` and `then`, names that are required but not listed, and
  schemas for additional items or properties; it allows names that differ in case from listed ones; integers outside int are
  an undefined conversion (C55).
* Drawing. A foreign function loaded from a file has no operand and is drawn through `NULL`; an unregistered id is used before
  it is checked; a figure of several rows reads as many operands as rows; NaN is converted to int (C58). Numbers of more than
  four characters shift the frame, bars below an empty cell or a box are not drawn (C59). The minus sign of numbers
  between -1 and 0 is lost (C60).
* The example port. Its table of error names lacks TYPEMISMATCH, OVERFLOW and NULL, so a type mismatch is reported as FAIL and
  the panic handler reads behind the table after OVERFLOW, NULL and FAIL; every abort by the cycle limit does so (C63, C62). The
  display needs seven timers and counters, eight memory bits (eighteen with cron) and modules of eight digital ports (C62).
* Memory. A request refused in `ladder_ctx_init` after the second loses the rows allocated so far, because the quantities that
  `ladder_ctx_deinit` uses are set last. A machine initialised without networks cannot be released, nor can one be released
  twice; `ladderlib_cron_init` writes through NULL when memory runs out; a loaded network with rows but without columns or cells
  makes the next load, clearing or release use NULL. Apart from these nothing is lost, released twice or used after release (C66).
* Example application. If only the table of jobs cannot be allocated its setup follows a null pointer; a document with rows and
  no columns that its schema lets through makes it follow one at its end; loading its own program reads behind a table (C69).

## Plan and result per property

'Plan' is what is modelled and how the property is proved, 'result' what came out (also in `MANIFEST.json`).
A property whose English claim is false of the code is 'partial': `…_refuted` theorems are counterexamples,
`…_actual` and `…_undefined` theorems say for all inputs what the code does instead, `…_partial` theorems are proved
under the extra hypotheses named in their comments.

**C01 Contacts pass power exactly when their operand allows it** (proved)  
Plan: `fn_*` functions of `Instr.v`; exact result and frame through the location view `peek` of a context.  
Result: Exact power and frame for NO and NC for every readable operand; left rail.  
Theorems: `C01_normally_open`, `C01_normally_closed`, `C01_left_rail`.

**C02 Wires, inverters and empty cells** (proved)  
Plan: `fn_*` functions of `Instr.v`; exact result and frame through the location view `peek` of a context.  
Result: Exact power and frame for CONN, NEG; NOP changes nothing, and an empty cell has no power after the scan of a program without bars; for programs of any instructions the same holds for every empty cell not joined by a bar (C02_empty_any_instruction).  
Theorems: `C02_wire`, `C02_inverter`, `C02_empty`, `C02_empty_any_instruction`, `C02_empty_in_scan`.

**C03 A rung evaluates as its left-to-right boolean expression** (proved)  
Plan: `ladder_scan` (`Scan.v`); induction over columns, rows and networks, refinement to an independent rung evaluator (`SpecRung.v`).  
Result: Every ladder logic program (contacts, edges, wires, inverters, comparisons, coils) without bars: one scan evaluates the cells in reading order, each from the power on its left and the registers at that moment; the evaluation is deterministic; contacts in series give the conjunction.  
Theorems: `C03_program`, `C03_determined`, `C03_order`, `C03_series`, `C03_rung`.

**C04 Parallel branches OR their power** (proved)  
Plan: `ladder_scan` (`Scan.v`); induction over columns, rows and networks, refinement to an independent rung evaluator (`SpecRung.v`).  
Result: Every ladder logic program, whatever its bars, follows the step plan with OR joins (C04_any_program); programs made of complete groups evaluate group by group, column by column, every row carrying the OR (C04_groups). For programs of any instructions C04_any_instruction shows that every scan executes the cells in that order and joins each group by OR, and what may change in between.  
Theorems: `C04_any_instruction`, `C04_any_program`, `C04_groups`.

**C05 A coil writes its operand and only its operand** (proved)  
Plan: `fn_*` functions of `Instr.v`; exact result and frame through the location view `peek` of a context.  
Result: COIL exact write and frame; out-of-range operand changes no register.  
Theorems: `C05_coil`, `C05_flag_values`, `C05_no_place`.

**C06 Edge contacts fire for exactly one scan per edge** (proved)  
Plan: `ladder_task` cycles (`Task.v`); induction over cycles with a history invariant (`Hist.v`, `Cycle.v`, `Loop.v`).  
Result: Per cycle: power of an RE/FE cell as function of the value it sees and of the value when the cycle began, for operands with a history (flags, digital outputs and inputs). Over a run of the task: for contacts in column 0 on a digital input that nothing writes during the scan, the powers are exactly the rises/falls of the sequence of input values.  
Theorems: `C06_rising`, `C06_falling`, `C06_steady`, `C06_run`, `C06_run_falling`.

**C07 Latch and unlatch coils remember across cycles** (proved)  
Plan: `ladder_task` cycles (`Task.v`); induction over cycles with a history invariant (`Hist.v`, `Cycle.v`, `Loop.v`).  
Result: Per cycle and over runs, for a latch or unlatch that is the last instruction executed that may set its operand (so in particular a lone one); operands with a history (flags, digital outputs and inputs).  
Theorems: `C07_latch`, `C07_unlatch`, `C07_run`, `C07_run_unlatch`, `C07_for_ever`.

**C08 Latch and unlatch on one flag form a set/reset pair** (partial)  
Plan: `ladder_task` cycles (`Task.v`); induction over cycles with a history invariant (`Hist.v`, `Cycle.v`, `Loop.v`).  
Result: The claim is false of the code: both coils start from the value of the previous cycle, so only the one executed last counts. Proved: the refutation, and for all programs and runs that with the unlatch last the flag never gets set, with the latch last it never gets cleared.  
Theorems: `C08_unlatch_last_actual`, `C08_latch_last_actual`, `C08_refuted`.

**C09 On-delay timer follows its input and the clock** (proved)  
Plan: Timers of `Instr.v`; induction over histories of executions with arbitrary clock and arbitrary other code in between (`SpecTime.v`).  
Result: History theorem over any number of executions and any clock; frame; accumulator bound. The accumulator shown while running is modulo 2^16 (see C12). C09_run lifts it to any run of the task on any program in which nothing else sets the timer; C09_switch gives the input of the timer as the value of a machine input in each cycle.  
Theorems: `C09_run`, `C09_switch`, `C09_frame`, `C09_any_state`, `C09_on_delay`, `C09_done_iff`, `C09_accumulator`, `C09_monotone`.

**C10 Off-delay timer holds its output for the preset time** (partial)  
Plan: Timers of `Instr.v`; induction over histories of executions with arbitrary clock and arbitrary other code in between (`SpecTime.v`).  
Result: Off-delay history theorem and frame proved. Finding: a TOF whose input was never on starts with its output on (C10_never_on_actual). C10_run and C10_switch as for C09.  
Theorems: `C10_run`, `C10_switch`, `C10_frame`, `C10_any_state`, `C10_off_delay`, `C10_off_iff`, `C10_never_on_actual`.

**C11 Pulse timer emits one pulse of the preset length** (partial)  
Plan: Timers of `Instr.v`; induction over histories of executions with arbitrary clock and arbitrary other code in between (`SpecTime.v`).  
Result: First pulse exact for every input/clock history. The second pulse never comes: C11_no_second_pulse_actual, C11_retrigger_refuted. C11_run_partial: the same in any run of the task.  
Theorems: `C11_run_partial`, `C11_frame`, `C11_any_state`, `C11_pulse_partial`, `C11_no_second_pulse_actual`, `C11_retrigger_refuted`.

**C12 Timers respect presets of any size** (partial)  
Plan: Timers of `Instr.v`; induction over histories of executions with arbitrary clock and arbitrary other code in between (`SpecTime.v`).  
Result: False of the code: C12_wrapped_actual characterises what happens for any preset, C12_early_refuted and C12_backwards_refuted are counterexamples. For products that fit 32 bits see C09.  
Theorems: `C12_wrapped_actual`, `C12_wrapped_off_actual`, `C12_early_refuted`, `C12_backwards_refuted`.

**C13 Up counter counts rising edges up to its preset** (partial)  
Plan: Counters of `Instr.v`; induction over histories of executions.  
Result: Count = rising edges since the last reset, capped, for any history; frame and outputs exact. A reset while the count input is on leaves 1, not 0 (C13_reset_while_counting_actual); column 0: C13_column_zero_actual. C13_run: the count in any run of the task; C13_switch: the count is the number of rising edges of a machine input.  
Theorems: `C13_frame`, `C13_count`, `C13_reset_partial`, `C13_reset_while_counting_actual`, `C13_outputs`, `C13_any_state`, `C13_column_zero_actual`, `C13_run`, `C13_switch`.

**C14 Down counter counts rising edges down from its preset** (proved)  
Plan: Counters of `Instr.v`; induction over histories of executions.  
Result: Count = preset minus rising edges for any history; frame and outputs exact; never-loaded counter wraps (C14_unloaded_actual). C14_run and C14_switch as for C13.  
Theorems: `C14_frame`, `C14_count`, `C14_reset`, `C14_outputs`, `C14_any_state`, `C14_unloaded_actual`, `C14_run`, `C14_switch`.

**C15 Counter reset input is independent of the count input** (partial)  
Plan: `ladder_scan`, `ladder_fn_cell`; the code violates these, so counterexample and universal description.  
Result: Violated: C15_reset_input_refuted is a program whose reset contact is closed and whose counter keeps its count. C15_reset_input_actual shows for every program that the reset input is off or, with a bar, equal to the count input whenever a counter is executed, and C15_no_reset_actual that a counter whose count input is off is never reset; cells behind continuation marks of multi-row instructions excepted. C15_run_never_reset_actual: over a whole run of the task such a counter counts all edges and is never reset.  
Theorems: `C15_run_never_reset_actual`, `C15_reset_input_actual`, `C15_no_reset_actual`, `C15_reset_input_refuted`.

**C16 Arithmetic is exact or signalled** (partial)  
Plan: `fn_*` functions; exact result and frame, undefined cases shown to be exactly the stated ones.  
Result: Exact results and frames proved, with overflow / MOD by zero shown to be undefined behaviour (the English claim that they must not crash is false of the code). SUB always powers its first row too (C16_sub_rows_refuted).  
Theorems: `C16_exact`, `C16_div_by_zero`, `C16_unpowered`, `C16_sub`, `C16_sub_unpowered`, `C16_data_register`, `C16_overflow_undefined`, `C16_mod_undefined`, `C16_sub_rows_refuted`.

**C17 Bitwise instructions act on all 32 bits** (partial)  
Plan: `fn_*` functions; exact result and frame, undefined cases shown to be exactly the stated ones.  
Result: OR, XOR, NOT proved. AND is false of the code: C17_and_actual gives what it does, C17_and_refuted the counterexample, C17_and_partial the operands for which it holds.  
Theorems: `C17_or_xor`, `C17_not`, `C17_unpowered`, `C17_and_actual`, `C17_and_partial`, `C17_and_refuted`.

**C18 Shifts and rotates match their mathematical meaning** (partial)  
Plan: `fn_*` functions; exact result and frame, undefined cases shown to be exactly the stated ones.  
Result: SHL/SHR exact; rotates exact for amounts not divisible by 32 (otherwise undefined: C18_rotate_zero_undefined). They act without power: C18_power_refuted.  
Theorems: `C18_shl`, `C18_shr`, `C18_rol_partial`, `C18_ror_partial`, `C18_rotate_inverse`, `C18_rotate_zero_undefined`, `C18_power_refuted`.

**C19 Comparisons decide the signed order of their operands** (proved)  
Plan: `fn_*` functions of `Instr.v`; exact result and frame through the location view `peek` of a context.  
Result: All six comparisons, powered and not, exact with frame.  
Theorems: `C19_compare`, `C19_unpowered`.

**C20 MOVE copies 32 bits between compatible registers and nothing else** (partial)  
Plan: `fn_*` functions; exact result and frame, undefined cases shown to be exactly the stated ones.  
Result: MOVE exact for integer and real operands with faults and frame; it moves whatever the power is (C20_power_refuted).  
Theorems: `C20_move_word`, `C20_move_real`, `C20_bits`, `C20_mismatch`, `C20_real_range`, `C20_no_operands`, `C20_power_refuted`.

**C21 TMOVE copies a block between data tables atomically** (partial)  
Plan: `fn_*` functions; exact result and frame, undefined cases shown to be exactly the stated ones.  
Result: TMOVE copies whole blocks (overlap included), bad quantities move nothing, rejected moves change nothing. Not atomic when a destination cell has a wrong type (C21_atomic_refuted); network numbers beyond the program are undefined behaviour.  
Theorems: `C21_copy`, `C21_quantity`, `C21_rejected`, `C21_atomic_refuted`, `C21_no_network_undefined`.

**C22 FOREIGN calls the function whose id is in its data** (partial)  
Plan: `fn_*` functions; exact result and frame, undefined cases shown to be exactly the stated ones.  
Result: Exact for identifiers 0 and 1; every other identifier calls function 0 (C22_other_ids_actual, C22_refuted).  
Theorems: `C22_call_partial`, `C22_unregistered_partial`, `C22_other_ids_actual`, `C22_refuted`.

**C23 Operand reads are total and side-effect free on registers** (partial)  
Plan: `ladder_fn_commons.h` accessors (`Commons.v`); case analysis with frame.  
Result: Reads exact and total for readable operands; ports beyond a module, previous values with a bad index and reals outside int32 are undefined behaviour (C23_port_undefined, C23_previous_undefined, C23_real_nan_undefined).  
Theorems: `C23_read`, `C23_total`, `C23_order`, `C23_no_operand`, `C23_real`, `C23_real_nan_undefined`, `C23_missing_bank`, `C23_port_undefined`, `C23_previous`, `C23_previous_undefined`.

**C24 Operand writes hit one location or none** (proved)  
Plan: `ladder_fn_commons.h` accessors (`Commons.v`); case analysis with frame.  
Result: Writes exact with frame and error code for every operand type.  
Theorems: `C24_write`, `C24_no_place`, `C24_never`, `C24_addressed`.

**C25 Disabled networks are never executed or altered by a scan** (proved)  
Plan: `ladder_scan`; invariants carried through all loops with a weakest-precondition calculus (`Frame.v`), step plan of the scan (`Plan.v`).  
Result: Write set of a scan for every program, environment and state; executed cells belong to enabled networks, in program order.  
Theorems: `C25_disabled_untouched`, `C25_only_enabled_run`, `C25_executed`.

**C26 Every scan terminates and the cycle watchdog is exact** (proved)  
Plan: `ladder_scan`; invariants carried through all loops with a weakest-precondition calculus (`Frame.v`), step plan of the scan (`Plan.v`).  
Result: Termination for every context; watchdog exact in both directions against an iteration count computed from the layout; bound on that count.  
Theorems: `C26_terminates`, `C26_watchdog_stops`, `C26_no_interference`, `C26_within_limit`, `C26_iterations`.

**C27 A faulting instruction stops the scan and is identified** (partial)  
Plan: `ladder_scan`; invariants carried through all loops with a weakest-precondition calculus (`Frame.v`), step plan of the scan (`Plan.v`).  
Result: Proved for instructions that return an error: order of execution, first failing cell stops the scan, last.* identify it. Refuted for invalid codes (out-of-bounds read of the side-effect table).  
Theorems: `C27_stops_at_first_fault`, `C27_fault_identified`, `C27_invalid_code_refuted`.

**C28 After a fault the outputs are the last good ones or zero** (partial)  
Plan: `ladder_task`; trace invariants over cycles and runs.  
Result: Proved for every faulting cycle and every module with digital outputs; flags, registers and the end of the task proved. Violated for modules that have analog outputs only: C28_analog_only_actual (universal) and C28_analog_refuted (witness).  
Theorems: `C28_fault_outputs`, `C28_flags_rolled_back`, `C28_ends`, `C28_analog_only_actual`, `C28_analog_refuted`.

**C29 Each task cycle performs I/O in a fixed order** (proved)  
Plan: `ladder_task`; trace invariants over cycles and runs.  
Result: Order of calls of one cycle (normal and faulting) and of any number of cycles; reads precede the scan, writes get the outputs the scan left.  
Theorems: `C29_order`, `C29_order_fault`, `C29_run`.

**C30 The task does not run the program while stopped and cannot hang waiting** (partial)  
Plan: `ladder_task`; trace invariants over cycles and runs.  
Result: C30_runs and C30_waiting: a run is a chain of iterations, each of which first only calls the delay function while the state is not RUNNING (fewer than 1000 times) and then does one whole cycle. C30_wakes, C30_timeout: leaving the wait, and panic and end after 1000 delays. C30_stop, C30_request: a stop request ends the task after the cycle in which it was made. C30_no_hang: fuel is never the reason a run stops. The claim is violated when the scan-time watchdog fires in the cycle of the request: C30_request_refuted (the state ERROR replaces the request).  
Theorems: `C30_runs`, `C30_waiting`, `C30_wakes`, `C30_timeout`, `C30_stop`, `C30_request`, `C30_no_hang`, `C30_request_refuted`.

**C31 end_task is called exactly once, last** (partial)  
Plan: `ladder_task`; trace invariants over cycles and runs.  
Result: C31_ended: end_task is the last call, once, whenever the function ends at its end; C31_running: not before. Violated for a stop request seen while waiting: C31_refuted, and C31_returned_actual shows that this is the only early return of a complete context; C31_missing: with a missing function or bank the task returns NULLFN without any call.  
Theorems: `C31_ended`, `C31_returned_actual`, `C31_missing`, `C31_running`, `C31_refuted`.

**C32 History registers hold the previous cycle's values** (proved)  
Plan: `ladder_task` cycles (`Task.v`); induction over cycles with a history invariant (`Hist.v`, `Cycle.v`, `Loop.v`).  
Result: For every instruction reached in any cycle of any run; M, Cd, Cr, Td, Tr, Q, I operands and all ports with a history.  
Theorems: `C32_flags_outputs`, `C32_inputs`, `C32_run`, `C32_waiting`, `C32_operand`.

**C33 Scan-time statistics are consistent** (proved)  
Plan: `ladder_scan_time`; invariant over sequences of scans.  
Result: Statistics described from the list of measured durations over any number of scans, ordering min<=avg<=max, the clock wrap of millis, the state change when the watchdog interval is exceeded; the wrap of the 32-bit scan counter divides by zero (C33_wrap_undefined).  
Theorems: `C33_statistics`, `C33_ordered`, `C33_wrap_undefined`, `C33_measure`, `C33_no_clock`.

**C34 Cycles are padded to the target period** (proved)  
Plan: `ladder_task`; trace invariants over cycles and runs.  
Result: All delays of a cycle are the padding; none when faulting or without positive target.  
Theorems: `C34_padding`, `C34_fault_no_delay`.

**C35 Context initialisation establishes a usable context** (proved)  
Plan: `ladder_general.c` (`General.v`); direct, and induction over sequences of calls.  
Result: Acceptance exactly for valid arguments with memory, fresh contents, failure outcomes; C35_dangling_actual records that a late allocation failure leaves a dangling network pointer.  
Theorems: `C35_accepts`, `C35_rejected`, `C35_fresh`, `C35_usable`, `C35_no_memory`, `C35_dangling_actual`.

**C36 Clearing program or memory** (proved)  
Plan: `ladder_general.c` (`General.v`); direct, and induction over sequences of calls.  
Result: Both clear functions: exact new contents and frame.  
Theorems: `C36_memory`, `C36_program`.

**C37 Fault recovery resets to a safe state** (proved)  
Plan: `ladder_general.c` (`General.v`); direct, and induction over sequences of calls.  
Result: Only in a fault state; all recovered registers, outputs and histories; frame.  
Theorems: `C37_only_in_error`, `C37_recovers`.

**C38 Registering I/O functions keeps existing modules** (proved)  
Plan: `ladder_general.c` (`General.v`); direct, and induction over sequences of calls.  
Result: Single registrations and arbitrary series of them, with refused allocations and failing initialisers.  
Theorems: `C38_read`, `C38_write`, `C38_reads`, `C38_writes`.

**C39 Placing instructions never overlaps or overflows the network** (partial)  
Plan: `ladder_general.c` (`General.v`); direct, and induction over sequences of calls.  
Result: Exact acceptance condition, marking, frame, and preservation of existing instructions over arbitrary series of placements. When memory runs out the span is changed although the call fails (C39_no_memory_actual), so the claim that a failure changes no cell holds only otherwise; codes outside the table are undefined behaviour (C39_code_undefined).  
Theorems: `C39_places`, `C39_no_memory_actual`, `C39_unregistered`, `C39_code_undefined`, `C39_preserves`.

**C40 A program accepted by the checker runs without memory errors** (partial)  
Plan: `ladder_program_check` (`Check.v`); exact characterisation by independent rules (`SpecCheck.v`), soundness through the well-formedness of C41.  
Result: ladder_program_check is modelled whole (Check.v). C40_accepts characterises exactly the accepted programs by independent rules (indices of all register operands except reals, ports of all I/O operands, operand types, timers, rows of multi-row instructions). C40_safe_partial and C40_task_partial: on a machine laid out as configured, an accepted program that is also complete (all operands present, instruction codes exist, tables of TMOVE exist) is scanned and run without any access outside banks, modules and cells. C40_finishes: the checker itself is defined and names a cell. The full claim is violated: C40_operand_refuted (missing operands), C40_table_refuted (TMOVE), C40_real_refuted (R indices unchecked), C40_module_refuted (module number equal to the count: the checker reads outside the module table). C40_time_base: valid timers with time base 10 ms or 1 min are refused.  
Theorems: `C40_accepts`, `C40_finishes`, `C40_safe_partial`, `C40_task_partial`, `C40_time_base`, `C40_operand_refuted`, `C40_table_refuted`, `C40_module_refuted`, `C40_real_refuted`.

**C41 Well-formed programs never reach undefined behaviour** (partial)  
Plan: Scan, task and construction; well-formedness invariant (`SpecSafe.v`, `Safe.v`, `SafeScan.v`, `SafeTask.v`, `SafeApi.v`).  
Result: Proved for explicitly well-formed machines: any number of scans and any number of task cycles run without out-of-bounds access, null dereference or endless loop and keep the machine well formed (C41_scans, C41_task); with the arithmetic conditions of exact_program no undefined behaviour at all is left except the division by zero when the scan counter wraps after 2^32 cycles (C41_scans_exact, C41_task_exact). C41_built: machines made by ladder_ctx_init and any sequence of registration, cron, placing and clearing calls are well formed and stay so when operands are entered and networks enabled, if the program conditions hold. Partial because arithmetic undefined behaviour and the counter wrap remain possible in the code, and module initialisation functions and callbacks are assumed to respect the data layout.  
Theorems: `C41_scans`, `C41_scans_exact`, `C41_task`, `C41_task_exact`, `C41_built`.

**C42 A scan changes only what the program writes** (proved)  
Plan: `ladder_scan`; invariants carried through all loops with a weakest-precondition calculus (`Frame.v`), step plan of the scan (`Plan.v`).  
Result: Frame of a whole scan for every program, with foreign functions, hooks and clock changing any given set of non-layout places.  
Theorems: `C42_write_set`, `C42_unnamed_register`, `C42_inputs`.

**C43 Cron jobs set their flag exactly at matching times** (proved)  
Plan: Cron add-on (`Cron.v`); fold over the job table, scan and task lemmas.  
Result: For every scan: the time is read once, the flags of the enabled auto-reset jobs are cleared, then the jobs fire in order, before the first instruction; M registers that are no job's flag are untouched; per-job form and job-by-job form with the condition under which they agree. The clearing happens for all jobs before the first one fires, which differs from the literal job-by-job reading only when jobs share registers (C43_shared_flag_actual). Dates before 2000 read outside the year map (C43_before_2000_undefined).  
Theorems: `C43_scan`, `C43_end_of_scan`, `C43_others`, `C43_each_job`, `C43_job_by_job`, `C43_shared_flag_actual`, `C43_before_2000_undefined`.

**C44 A program without cron jobs runs** (partial)  
Plan: Cron add-on (`Cron.v`); fold over the job table, scan and task lemmas.  
Result: Violated by the code: the cron structure is always allocated, and with no job in use every scan stops in state INV. The universal theorems say what happens instead (C44_scan_actual, C44_task_actual); C44_refuted is a concrete fresh context. The positive statement is false, so it is not proved.  
Theorems: `C44_after_init`, `C44_scan_actual`, `C44_task_actual`, `C44_refuted`.

**C45 Cron expressions denote the documented sets** (partial)  
Plan: `lwdtc.c` parser (`Lwdtc.v`) against an independent grammar and denotation (`SpecParse.v`); induction over text.  
Result: Field lists with items in range and steps >= 1 set exactly the denoted values (C45_field), seven-field expressions match exactly the times in all seven fields (C45_expression), accepted text is well formed and in range (C45_sound, C45_rejects), parsing is total except for steps that are 0 mod 2^64 and ranges starting at 2^64-1 mod 2^64 (C45_total). The full statement is false of the code: a zero step never terminates, 2^64-1 ranges write outside the map, wrapped stepped ranges set other values unless the step divides max+1, n/step with n above the range and numbers above 2^64 are accepted.  
Theorems: `C45_field`, `C45_expression`, `C45_sound`, `C45_rejects`, `C45_total`, `C45_field_total`, `C45_plain_total`, `C45_step_zero_diverges`, `C45_step_zero_hangs`, `C45_overflow_undefined`, `C45_wrapped_step_refuted`, `C45_out_of_range_refuted`.

**C46 Adding cron jobs validates registers and capacity** (proved)  
Plan: Cron add-on (`Cron.v`); fold over the job table, scan and task lemmas.  
Result: For all argument values and all series of cron_init/cron_add calls; evaluation of such a table touches only existing M registers.  
Theorems: `C46_evaluation_safe`, `C46_stored`, `C46_accepts`, `C46_refused`, `C46_invariant`, `C46_fresh`, `C46_init`, `C46_no_flags_actual`.

**C47 Registering foreign functions** (partial)  
Plan: `ladder_general.c` (`General.v`); direct, and induction over sequences of calls.  
Result: C47_adds and C47_limit; the limit of 100 is violated through the 32-bit wrap of the requested quantity (C47_limit_refuted).  
Theorems: `C47_adds`, `C47_limit`, `C47_limit_refuted`.

**C48 A branch spanning several columns contributes its power** (partial)  
Plan: `ladder_scan`, `ladder_fn_cell`; the code violates these, so counterexample and universal description.  
Result: Violated: C48_branch_refuted; C48_branch_ignored_actual shows for every ladder logic program that such a branch contributes nothing, and C48_left_executed_first_actual for programs of any instructions that a cell gives no power before it is executed.  
Theorems: `C48_left_executed_first_actual`, `C48_branch_ignored_actual`, `C48_branch_refuted`.

**C49 Multi-row instructions do not merge neighbouring rungs** (partial)  
Plan: `ladder_scan`, `ladder_fn_cell`; the code violates these, so counterexample and universal description.  
Result: Violated: C49_merge_refuted places an ADD below a rung with ladder_fn_cell and the rung's coil turns on; C49_joined_actual shows that every multi-row block with operands placed below the top row is joined to the row above.  
Theorems: `C49_joined_actual`, `C49_merge_refuted`.

**C50 The next time of a cron expression is the first match after now** (partial)  
Plan: `lwdtc_cron_next` (`CronNext.v`) over an arbitrary local-time function; induction over iterations, with a Gregorian calendar as instance.  
Result: Proved for every clock whose local time is a whole number of half hours ahead (regular clocks; zone_regular shows that the Gregorian calendar at any such offset is one): C50_exact says for every expression and time what the function does, C50_first and C50_sound that the result is the first match. Violated otherwise: for offsets such as Nepal's the daily midnight expression never returns (C50_quarter_zone_actual, universal), dates that do not exist make the loop endless (C50_endless_actual), and years past the map are read outside it (C50_exact).  
Theorems: `C50_exact`, `C50_first`, `C50_sound`, `C50_endless_actual`, `C50_quarter_zone_actual`.

**C51 Several cron expressions are parsed and combined by OR and AND** (proved)  
Plan: `lwdtc.c` functions for several expressions (`CronNext.v`); induction over the lists, on top of C45.  
Result: Parsing of any number of texts with the index of the first bad one and the frame of the others; OR and AND over any number of good expressions at every calendar time.  
Theorems: `C51_parse`, `C51_expressions`.

**C52 A program loaded from JSON is the described program** (proved)  
Plan: The loader of `ladder_program_json.c` over parsed trees (`Json.v`) against a grammar of documents (`SpecJson.v`); soundness and completeness by induction over the tree.  
Result: C52_accepts: with memory available a document is accepted iff it describes networks (grammar of numbers, ports, symbols, types and time bases in SpecJson.v); C52_program: the resulting program and the frame, for every accepted document. Conversion of reals and the count read past the table for occupied cells are parameters.  
Theorems: `C52_accepts`, `C52_program`.

**C53 Loading a bad document is safe and leaves the program usable** (partial)  
Plan: The same model with arbitrary allocation failures; totality for tame documents, universal theorems about the rest.  
Result: C53_refused: what each refusal leaves, for every file; C53_safe: no undefined behaviour for documents whose numbers fit, whose networks have the announced rows and which have no occupied cells, whatever else they contain and whichever allocations of rows and operands fail. Violated: the old program is lost (C53_refused), null dereference when rows are missing or memory for them runs out (C53_rows_actual, C53_memory_actual, universal), undefined conversions (C53_numbers_actual), a read past the instruction table for occupied cells (C53_occupied_actual), and a refused document that makes the next load crash (C53_again_actual).  
Theorems: `C53_refused`, `C53_safe`, `C53_rows_actual`, `C53_memory_actual`, `C53_numbers_actual`, `C53_occupied_actual`, `C53_again_actual`.

**C54 A saved program can be loaded again** (partial)  
Plan: The saver (`Json.v`) composed with the loader; printed numbers are inverted by induction on digits, documents by induction over the program.  
Result: Exact for all complete programs: C54_saves (saved iff no strings, else a value never written is read), C54_accepted (accepted again iff storable: known instructions, no constants except counter presets, no millisecond timers), C54_restored (then the same program iff reals survive their text; module and port, all 32-bit numbers do; but every network is enabled). Violated for all other programs: C54_lost_actual and C54_not_storable_actual show that constants, millisecond timers and, in strict C, instructions of several rows are never read back and the loading context is emptied.  
Theorems: `C54_saves`, `C54_accepted`, `C54_restored`, `C54_lost_actual`, `C54_not_storable_actual`.

**C55 The validator follows the rules of JSON Schema** (partial)  
Plan: `validate_json` (`Schema.v`) against the rules of draft 7 as one clause per keyword (`SpecSchema.v`); induction over the depth of the schema; existence and uniqueness of the specified relation are proved too.  
Result: C55_exact: exact for every plain schema (one type, conditions alone, required names listed, additional items and properties allowed or not) and every document with numbers within int and no names that differ from listed ones in case only; the shipped schema is plain. C55_meaning: the rules have exactly one model. C55_answers: for every schema the check ends, with an answer or an undefined conversion. Violated beyond: C55_integer_actual (undefined conversion), C55_if_actual, C55_else_actual, C55_required_actual, C55_additional_actual (keywords ignored), C55_case_actual (names compared without case), all universal. Simplification: lengths of texts count bytes; cJSON_Compare is a parameter.  
Theorems: `C55_exact`, `C55_meaning`, `C55_answers`, `C55_files`, `C55_integer_actual`, `C55_if_actual`, `C55_required_actual`, `C55_additional_actual`, `C55_else_actual`, `C55_case_actual`.

**C56 The shipped schema, the loader and the saver agree** (partial)  
Plan: The schema and the sample program as data (`Shipped.v`, generated from the two files); the table of forms the schema allows as specification (`SpecShipped.v`); its equivalence with the schema through the rules of draft 7, then with the grammar of C52 and the saver of C54 by tables computed per symbol, type and operand and lifted by induction over cells, rows and networks (`ShippedFacts.v`, `ShippedLoad.v`).  
Result: Proved: exactly which documents the shipped schema allows and that the validator decides it; exactly which valid documents the loader accepts; exactly which programs are saved as valid documents. The agreement claimed does not hold: valid documents with NEG, SHL, SHR, ROL, ROR, TMOV or TOF are always refused, TOFF and FOREIGN are never valid, occupied cells (also those of the sample program) are looked up past the table of instructions, and saved moves, negations, off-delay timers, rotations, shifts, table moves, foreign functions and times in milliseconds are not valid (C56_refused_actual, C56_unlisted_actual, C56_invalid_actual).  
Theorems: `C56_valid`, `C56_answer`, `C56_loads`, `C56_refused_actual`, `C56_unlisted_actual`, `C56_saved`, `C56_saved_answer`, `C56_invalid_actual`.

**C57 A loaded and checked program runs without memory errors** (partial)  
Plan: Composition of loader (C52), checker (C40) and interpreter (C41): invariants of the cells the loader writes and clears, lifted from cells to networks and the machine (`SpecFlow.v`, `FlowFacts.v`).  
Result: C57_laid_out, C57_safe_partial, C57_task_partial: for every document without networks of zero columns, every machine and every environment, a program loaded and accepted, whose table moves name networks of the program, is scanned and run with no undefined behaviour other than its own arithmetic. The full claim is violated: C57_columns_refuted (a network of zero columns is loaded, accepted and then read outside its rows), C57_tables_refuted (TMOV from a network that does not exist). C57_rows_actual: accepted programs with instructions of more than one row can only be loaded through a read past the end of ladder_fn_iocd.  
Theorems: `C57_laid_out`, `C57_safe_partial`, `C57_task_partial`, `C57_rows_actual`, `C57_columns_refuted`, `C57_tables_refuted`.

**C58 Drawing a program as text is safe** (partial)  
Plan: `ladder_print` (`Print.v`): loops over rows and columns by induction; every figure reads only what `printable` (`SpecPrint.v`) asks for; composition with the loader for loaded programs.  
Result: C58_safe: every program whose cells can be drawn (each cell there, up to three operands for a figure with as many rows, strings present, reals not NaN, foreign functions registered) is drawn whatever memory there is; C58_loaded_partial: so is every loaded program without foreign functions whose reals are not NaN. The full claim is violated: C58_foreign_actual (every program with a foreign function first, loaded from a file, dereferences NULL), C58_unregistered_actual (an id that is not registered is used before the check), C58_operand_refuted (an accepted program with fewer operands than rows), C58_nan_refuted. ladder_print.c is modelled whole; colours and the name callback are parameters or plain text.  
Theorems: `C58_safe`, `C58_loaded_partial`, `C58_foreign_actual`, `C58_unregistered_actual`, `C58_operand_refuted`, `C58_nan_refuted`.

**C59 The drawing shows the program** (partial)  
Plan: The drawing as a picture cell by cell (`SpecPrint.v`); a figure of several rows is stored in the rows below when its first row is drawn, so the invariant over a column says which lines are already there (`PrintFacts.v`, `PrintShow.v`); texts of figures in `PrintFigures.v`.  
Result: C59_shows, C59_accepted: the drawing consists of the networks in order and shows every instruction, for networks of at most 32 rows and 255 columns (larger ones are announced, not drawn). C59_aligned: lines have equal length if all operands are narrow and there is no foreign function. Violated otherwise: C59_ragged_refuted (a number of five digits shifts the edge), C59_bar_refuted (bars below an empty cell or the last row of a box are not drawn).  
Theorems: `C59_shows`, `C59_accepted`, `C59_aligned`, `C59_ragged_refuted`, `C59_bar_refuted`.

**C60 Real operands are drawn rounded to two places** (partial)  
Plan: The value of the pattern as m * 2^e; the two roundings of the fraction are bounded for every mantissa.  
Result: C60_digits: for every pattern of magnitude up to a million the figures are within half a hundredth (and 1/131072 of one, the rounding of the fraction in float) of the value; C60_large: OVF above. Violated for the sign of numbers between -1 and 0 (C60_sign_refuted). powf(10,2) is taken to be 100.  
Theorems: `C60_digits`, `C60_large`, `C60_sign_refuted`.

**C61 Only registered functions are called, on the machine they were registered for** (proved)  
Plan: Shape of a context and calls due to it as separate specifications; every updater keeps the shape, and agreement of two environments is carried through scan and task by induction.  
Result: C61_same_task, C61_same_scan: environments alike in the calls that belong to the machine give the same run; C61_calls, C61_scan_calls, C61_hooks: every recorded call belongs to the machine, and the shape of the context is kept. For environments whose functions keep the shape (sizes, tables, program without operand values).  
Theorems: `C61_same_task`, `C61_same_scan`, `C61_calls`, `C61_scan_calls`, `C61_hooks`.

**C62 The example port runs machines safely** (partial)  
Plan: Port and foreign function as functions with explicit undefined behaviour; definedness depends on the shape of the context only, so C61 shows that no undefined call is made, and C41 gives safety.  
Result: C62_task_partial, C62_same_partial, C62_built_partial: well-formed machines large enough for the display run safely, and what the port does where it is undefined in C has no influence, when no panic handler is set; C62_panic_refuted: with the handler the run can depend on memory behind the table of error names. C64_port: with the handler set it is never called on machines that are equipped and have room. C62_adds_input, C62_adds_output, C62_keys, C62_no_key, C62_display, C62_foreign: effects of the functions.  
Theorems: `C62_task_partial`, `C62_same_partial`, `C62_built_partial`, `C62_adds_input`, `C62_adds_output`, `C62_keys`, `C62_no_key`, `C62_display`, `C62_foreign`, `C62_panic_refuted`.

**C63 Reports and times of the example port** (partial)  
Plan: Name tables indexed by the codes of the enumerations; arithmetic for clock and delay.  
Result: C63_report_partial: right names for all instructions and the first eight errors; the claim is false for the others: C63_mismatch (printed as FAIL), C63_outside (reads behind the table), C63_limit (happens whenever a network exceeds the cycle limit). C63_clock, C63_clock_monotone, C63_delay: full.  
Theorems: `C63_report_partial`, `C63_mismatch`, `C63_outside`, `C63_limit`, `C63_clock`, `C63_clock_monotone`, `C63_delay`.

**C64 A well-equipped machine never panics** (proved)  
Plan: Two runs side by side, one with the hook and one with any other hook: an invariant over the trace shows that they agree and that no panic call was made, function by function; the cycle counter stays below rows * (1 + columns * rows).  
Result: C64_task, C64_scan: no call of the panic hook and always running or asked to end (a scan may end in state INV, after which the task ends); C64_same: the hook has no influence; C64_port: the example port with its panic handler set runs safely on such machines. C64_example_needed: the requirements matter.  
Theorems: `C64_task`, `C64_same`, `C64_scan`, `C64_port`.

**C65 Programs of instructions that cannot fail never stop** (proved)  
Plan: Scan: the three ways a scan can end (C27), of which a fault needs an instruction function that returns an error; the functions are shown to return none. Task: the invariant of C64 strengthened to state RUNNING and unchanged cron table.  
Result: C65_scan, C65_only_limit: scans; C65_task: the task is still running and in state RUNNING; C65_port: with the example port, until somebody types q; C65_others: every other instruction of the dispatch table can fail.  
Theorems: `C65_scan`, `C65_only_limit`, `C65_others`, `C65_task`, `C65_port`.

**C66 Memory is released once, and all of it** (partial)  
Plan: A model of the same functions on a heap of blocks, with an oracle that refuses requests; the state is described by trees whose blocks are a permutation of the heap, and each function is shown to keep such a description; reachability by pointers is then the set of blocks of the trees.  
Result: The full statement is false of the code: C66_init_leaks (a failing ladder_ctx_init loses the rows), C66_bare and C66_twice (release of a machine without networks, second release), C66_cron (no memory for the jobs), C66_load_breaks and C66_hollow (networks with rows and no cells). What holds: C66_owned (the machine reaches exactly the live blocks), C66_released and C66_safe (everything comes back), C66_only_null (no double release, use after release or access outside a block), C66_init (what is lost by a failing initialisation, exactly). Values are left out of this model and the port is the example one.  
Theorems: `C66_owned`, `C66_released`, `C66_hollow`, `C66_only_null`, `C66_safe`, `C66_init`, `C66_init_args`, `C66_init_succeeds`, `C66_init_leaks`, `C66_bare`, `C66_twice`, `C66_cron`, `C66_load_breaks`.

**C67 Typed access to operands** (proved)  
Plan: Model of the two accessors with an integer to single conversion; rounding is compared with every other single in units of the smallest one, by cases on the binary exponent; the rest by cases on the register type over the lemmas of C23.  
Result: Agreement with the accessor of the instructions (C67_agrees), values and frame (C67_int, C67_float, C67_float_real, C67_no_operand), the overflow mark (C67_overflow) and where the two accessors differ (C67_differs). nearest compares with every single, so rounding is fully specified; C67_exact gives exactness up to 2^24. Finding: C67_index_undefined, no index check for C, T, D and R.  
Theorems: `C67_int`, `C67_agrees`, `C67_overflow`, `C67_differs`, `C67_float`, `C67_exact`, `C67_float_real`, `C67_no_operand`, `C67_index_undefined`.

**C68 Program files keep their meaning** (partial)  
Plan: Model of the functions that take paths over a disk of named byte strings, with the cJSON library and the operating system as parameters; by cases on their outcomes, and over C54 for the round trip.  
Result: Compaction: C68_compact, C68_compact_twice, C68_compact_ok, C68_compact_fails (errors change nothing). Saving: C68_save_ok (when a save succeeds), C68_save_accepted (when it is read back), C68_save_load over C54. The last sentence is false of the code: ladder_program_to_json empties the file before it builds the tree, so every later error destroys the old file (C68_save_fails_actual), and writes are not checked, so a full disk is reported as success (C68_full_disk_actual). cJSON is a parameter; the theorems assume that it reads back what it printed for the document in question.  
Theorems: `C68_compact`, `C68_compact_twice`, `C68_compact_fails`, `C68_compact_ok`, `C68_save_load`, `C68_save_accepted`, `C68_save_ok`, `C68_save_fails_actual`, `C68_full_disk_actual`, `C68_nul`.

**C69 The example application runs only what it has checked** (partial)  
Plan: Model of main over the models of its parts, with one record for memory, files and library; the setup is evaluated stage by stage, the release over any endable machine, and the run is put together from C53, C54, C55, C57, C58, C40 and C64; the shipped program by deciders over C41, C64 and C65.  
Result: C69_setup and C69_memory (the machine it sets up), C69_endings (what each ending means; no run without validation, loading, saving, compacting and checking), C69_before (nothing outside is touched before the run), C69_files and C69_copies (the files it writes). The full claim, no undefined behaviour for any document, is false of the code: C69_cron_actual (no memory for the jobs), C69_bare_refuted (a refused document), C69_shipped_actual (its own program, read behind a table). C69_safe_partial proves it for documents the loader can handle and programs with what the checker does not look at, C69_shipped_partial that the shipped program runs when the read behind the table gives 0.  
Theorems: `C69_setup`, `C69_memory`, `C69_cron_actual`, `C69_endings`, `C69_before`, `C69_files`, `C69_copies`, `C69_safe_partial`, `C69_shipped_partial`, `C69_shipped_actual`, `C69_bare_refuted`.

**C70 Programs without timers do not depend on the clock** (proved)  
Plan: The two-run relation of C61 again, without the clock: every function keeps it except the three timers, which the hypothesis excludes by the shape of the program. For the task the relation lets the two machines differ in their statistics, with which every other function commutes.  
Result: C70_scan, C70_scans: environments that differ only in clock and in what reading it does give the same scans; C70_no_reading: no reading of the clock is recorded; C70_timers: with any of the three timers a scan does depend on the clock. C70_task, C70_task_values: whole task runs with different clocks end alike except for the statistics and the values read, without watchdog and target; C70_limits: both conditions are needed. For environments whose functions keep the shape (sizes, tables, program without operand values).  
Theorems: `C70_scan`, `C70_scans`, `C70_no_reading`, `C70_task`, `C70_task_values`, `C70_limits`, `C70_timers`.
