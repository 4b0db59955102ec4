(** Vocabulary for statements about the scan task. *)
From Verif Require Export SpecGen Task.

(** ** Calls out of the library *)

(** The calls made between two states, oldest first. *)
Definition calls (s s' : st) (l : list event) : Prop := s_tr s' = rev l ++ s_tr s.
(** The calls a scan can make. *)
Definition scan_call (ev : event) : Prop :=
  match ev with EvMillis _ | EvPanic | EvInstr | EvScanEnd | EvForeign _ _ _ | EvTime => True | _ => False end.
(** The function called on the event [ev] changes only places in [W ev]; no called function touches the layout of the
    program, the sizes of arrays or the configuration. *)
Record callbacks (E : env) (W : event -> loc -> Prop) : Prop := {
  cb_act : forall k ev c, changes_only c (act E k ev c) (W ev);
  cb_foreign : forall k id col row c, changes_only c (snd (fexec E k id col row c)) (W (EvForeign id col row));
  cb_layout : forall ev l, W ev l -> ~ is_layout l }.
Definition during_scan (W : event -> loc -> Prop) (l : loc) : Prop := exists ev, scan_call ev /\ W ev l.

(** ** Histories *)

(** The place that remembers the previous value of a place. *)
Definition past (l : loc) : option loc :=
  match l with
  | LReg B_M i => Some (LReg B_Mh i) | LReg B_Cd i => Some (LReg B_Cdh i) | LReg B_Cr i => Some (LReg B_Crh i)
  | LReg B_Td i => Some (LReg B_Tdh i) | LReg B_Tr i => Some (LReg B_Trh i)
  | LOut m K_Q i => Some (LOut m K_Qh i) | LOut m K_QW i => Some (LOut m K_QWh i)
  | LIn m K_I i => Some (LIn m K_Ih i) | LIn m K_IW i => Some (LIn m K_IWh i)
  | _ => None
  end.
(** The configured flags of memory, counters and timers. *)
Definition flag_place (c : ctx) (l : loc) : Prop :=
  exists b i, In b [B_M; B_Cd; B_Cr; B_Td; B_Tr] /\ (i < bank_qty b (x_q c))%nat /\ l = LReg b i.
(** The ports of the output and input modules in use whose module keeps a history of them. *)
Definition output_place (c : ctx) (l : loc) : Prop :=
  exists m id qd qa i, (m < io_wq (x_io c))%nat /\ peek c (LOutMeta m) = Some (VMeta id qd qa) /\
    ((l = LOut m K_Q i /\ (i < qd)%nat /\ peek c (LOutLen m K_Q) <> None /\ peek c (LOutLen m K_Qh) <> None)
     \/ (l = LOut m K_QW i /\ (i < qa)%nat /\ peek c (LOutLen m K_QW) <> None /\ peek c (LOutLen m K_QWh) <> None)).
Definition input_place (c : ctx) (l : loc) : Prop :=
  exists m id qd qa i, (m < io_rq (x_io c))%nat /\ peek c (LInMeta m) = Some (VMeta id qd qa) /\
    ((l = LIn m K_I i /\ (i < qd)%nat /\ peek c (LInLen m K_I) <> None /\ peek c (LInLen m K_Ih) <> None)
     \/ (l = LIn m K_IW i /\ (i < qa)%nat /\ peek c (LInLen m K_IW) <> None /\ peek c (LInLen m K_IWh) <> None)).
(** The module of a port also has digital ports with a history. *)
Definition with_digital (c : ctx) (l : loc) : Prop :=
  match l with
  | LOut m _ _ => exists id qd qa, peek c (LOutMeta m) = Some (VMeta id qd qa) /\ (0 < qd)%nat
                    /\ peek c (LOutLen m K_Q) <> None /\ peek c (LOutLen m K_Qh) <> None
  | LIn m _ _ => exists id qd qa, peek c (LInMeta m) = Some (VMeta id qd qa) /\ (0 < qd)%nat
                    /\ peek c (LInLen m K_I) <> None /\ peek c (LInLen m K_Ih) <> None
  | _ => True
  end.
(** Every input module has its descriptor, and each of its arrays is missing or has at least the declared size. *)
Definition iports (qd qa : nat) (k : ik) : nat := match k with K_I | K_Ih => qd | K_IW | K_IWh => qa end.
Definition ins_sized (c : ctx) : Prop :=
  peek c LInCount = None \/
  forall m, (m < io_rq (x_io c))%nat -> exists id qd qa, peek c (LInMeta m) = Some (VMeta id qd qa)
    /\ forall k, peek c (LInLen m k) = None \/ exists n, peek c (LInLen m k) = Some (VN n) /\ (iports qd qa k <= n)%nat.
(** The places in [K] were copied to their histories; or got their values back from them. *)
Definition remembered (K : loc -> Prop) (c c' : ctx) : Prop :=
  (forall l h, K l -> past l = Some h -> peek c' h = peek c l)
  /\ changes_only c c' (fun h => exists l, K l /\ past l = Some h).
Definition restored (K : loc -> Prop) (c c' : ctx) : Prop :=
  (forall l h, K l -> past l = Some h -> peek c' l = peek c h) /\ changes_only c c' K.

(** ** A cycle *)

(** Configuration: quantities, hooks, modules and the sizes of all arrays. *)
Definition is_config (l : loc) : Prop :=
  match l with
  | LRegLen _ | LTmLen | LInLen _ _ | LInMeta _ | LInCount | LOutLen _ _ | LOutMeta _ | LOutCount | LNets | LQty | LIo | LHooks => True
  | _ => False
  end.
(** The first [n] functions of a table are there. *)
Definition filled (n : nat) (p : option (list bool)) : Prop := forall i, (i < n)%nat -> elem p i = Some true.
(** The task can run: clock and delay functions, all read and write functions with their modules, and all register banks
    are there in the configured sizes. *)
Record task_ready (c : ctx) : Prop := {
  tr_hooks : exists h, peek c LHooks = Some (VHooks h) /\ h_millis h = true /\ h_delay h = true;
  tr_sized : sized c;
  tr_outs : outs_sized c;
  tr_ins : ins_sized c;
  tr_reads : exists io, peek c LIo = Some (VIo io) /\ filled (io_rq io) (io_rd io) /\ filled (io_wq io) (io_wr io)
    /\ ((0 < io_rq io)%nat -> peek c LInCount <> None) /\ ((0 < io_wq io)%nat -> peek c LOutCount <> None);
  tr_nets : forall k, peek c LNets = Some (VN k) -> Z.of_nat k <= 2 ^ 32 }.
(** The write function of module [n] is called with the values of its outputs in [c]. *)
Definition hands (c : ctx) (n : nat) (ev : event) : Prop :=
  exists q qw, ev = EvWrite n q qw
    /\ forall i, option_map VZ (elem q i) = peek c (LOut n K_Q i) /\ option_map VZ (elem qw i) = peek c (LOut n K_QW i).
(** Calls of optional hooks. *)
Definition optional (present : bool) (ev : event) : list event := if present then [ev] else [].
(** A history place. *)
Definition is_past (h : loc) : Prop := exists l, past l = Some h.

(** The code outside the library leaves histories and statistics alone. It changes registers that have a history only in
    two ways: the read function of an input module sets that module's inputs, and foreign functions may set anything. *)
Record tame (W : event -> loc -> Prop) : Prop := {
  ta_past : forall ev h, is_past h -> ~ W ev h;
  ta_stats : forall ev, ~ W ev LStats;
  ta_now : forall ev l, past l <> None -> W ev l ->
    (exists m k i, ev = EvRead m /\ l = LIn m k i) \/ (exists id col row, ev = EvForeign id col row) }.
(** The instruction of cell (n, r, col) is reached by the scan started in [a] and executed from [t] to [t']. *)
Definition reaches (E : env) (W : event -> loc -> Prop) (a : st) (n r col : nat) (t : st) (e : err) (t' : st) : Prop :=
  exists a0 before after, cron_step E a a0 /\ program_cells (s_ctx a) = before ++ (n, r, col) :: after
    /\ executes E (during_scan W) before a0 t /\ executed E n r col t e t'.
(** The same, in a scan that goes on to the end of the program in [b]. *)
Definition visits (E : env) (W : event -> loc -> Prop) (a b : st) (n r col : nat) (t t' : st) : Prop :=
  exists a0 before after, cron_step E a a0 /\ program_cells (s_ctx a) = before ++ (n, r, col) :: after
    /\ executes E (during_scan W) before a0 t /\ executed E n r col t E_OK t' /\ executes E (during_scan W) after t' b.
(** Every flag and output holds the value its history holds. *)
Definition remembers (c : ctx) : Prop := forall l h, flag_place c l \/ output_place c l -> past l = Some h -> peek c h = peek c l.
(** What the statements about a cycle in [c] assume; [m] is the limit of the cycle watchdog. *)
Record cycle_ready (E : env) (W : event -> loc -> Prop) (c : ctx) (m : Z) : Prop := {
  cy_callbacks : callbacks E W;
  cy_tame : tame W;
  cy_task : task_ready c;
  cy_scan : scan_ready E (during_scan W) c m }.

(** The word registers and accumulators that a fault clears. *)
Definition reg_place (c : ctx) (l : loc) : Prop :=
  (exists b i, In b [B_C; B_D; B_R] /\ (i < bank_qty b (x_q c))%nat /\ l = LReg b i) \/ exists i, (i < q_t (x_q c))%nat /\ l = LAcc i.
(** The outputs of modules that have digital outputs. *)
Definition driven (c : ctx) (l : loc) : Prop :=
  exists m k i id qd qa, (m < io_wq (x_io c))%nat /\ peek c (LOutMeta m) = Some (VMeta id qd qa) /\ (k = K_Q \/ k = K_QW) /\ (i < ports qd qa k)%nat
    /\ peek c (LOutLen m k) <> None /\ (0 < qd)%nat /\ peek c (LOutLen m K_Q) <> None /\ l = LOut m k i.
(** Inputs, outputs and flags with a history. *)
Definition input_kept (c : ctx) (l : loc) : Prop := input_place c l /\ with_digital c l.
Definition output_kept (c : ctx) (l : loc) : Prop := output_place c l /\ with_digital c l.
Definition saved (c : ctx) (l : loc) : Prop := flag_place c l \/ output_place c l.
(** The scan-time watchdog: the measured time [d] exceeds the limit. *)
Definition alarm (c : ctx) (d : Z) : bool := (0 <? q_wdg (x_q c)) && (q_wdg (x_q c) <? d).

(** ** The phases of a cycle *)

(** The cycle started in [s] begins its scan in [a]: it read the clock, called the hook and all read functions in order,
    and changed nothing itself but the statistics and histories. *)
Definition begins (W : event -> loc -> Prop) (s a : st) (t0 : Z) : Prop :=
  let h := x_h (s_ctx s) in let n := io_rq (x_io (s_ctx s)) in
  calls s a (EvMillis t0 :: optional (h_before h) EvBefore ++ map EvRead (seq 0 n))
  /\ changes_only (s_ctx s) (s_ctx a) (fun l => l = LStats \/ is_past l \/ W (EvMillis t0) l \/ W EvBefore l \/ exists m, (m < n)%nat /\ W (EvRead m) l).
(** The cycle whose scan ended in [b] without fault ends in [s']: it handed the outputs to all write functions in order, read
    the clock, raised the alarm of the scan-time watchdog if the cycle took too long, waited out the rest [pad] of the
    target time and called the hook; it changed nothing itself but statistics, histories, and the state after an alarm. *)
Definition closes (W : event -> loc -> Prop) (b s' : st) (t1 : Z) (late : bool) (pad : list Z) : Prop :=
  let h := x_h (s_ctx b) in
  exists ws, Forall2 (hands (s_ctx b)) (seq 0 (io_wq (x_io (s_ctx b)))) ws
  /\ calls b s' (ws ++ EvMillis t1 :: optional (late && h_panic h) EvPanic ++ map EvDelay pad ++ optional (h_after h) EvAfter)
  /\ changes_only (s_ctx b) (s_ctx s') (fun l => l = LStats \/ is_past l \/ (l = LState /\ late = true) \/ W (EvMillis t1) l \/ W EvPanic l \/ W EvAfter l
       \/ (exists d, W (EvDelay d) l) \/ exists m q qw, (m < io_wq (x_io (s_ctx b)))%nat /\ W (EvWrite m q qw) l).

(** ** Runs of the task *)

(** Waiting: [k] delays, one after another, each begun in a state that is neither running nor a request to end. *)
Inductive waits (W : event -> loc -> Prop) : nat -> st -> st -> Prop :=
| wt_done s : waits W 0 s s
| wt_more k s s1 s2 : ~ In (peek (s_ctx s) LState) [Some (VState S_RUNNING); Some (VState S_EXIT_TSK)] ->
    calls s s1 [EvDelay (q_delay (x_q (s_ctx s)))] -> changes_only (s_ctx s) (s_ctx s1) (W (EvDelay (q_delay (x_q (s_ctx s))))) ->
    waits W k s1 s2 -> waits W (S k) s s2.
(** The program, its operands and the whole configuration are the same, apart from which network is executing and the
    operands of networks that are not scanned. *)
Definition same_program (c c' : ctx) : Prop :=
  forall l, is_layout l -> l <> LExec -> (forall n r col i rows cols, l = LData n r col i -> peek c (LNet n) <> Some (VNet false rows cols)) ->
    peek c' l = peek c l.
(** Of all instructions a scan executes, only the one at (n, r, col) may write [l]; it is executed once. *)
Definition lone (c : ctx) (n r col : nat) (l : loc) : Prop :=
  exists before after, program_cells c = before ++ (n, r, col) :: after
    /\ (forall n' r' col', In (n', r', col') (before ++ after) -> ~ names c (code_at c n' r' col') n' r' col' l)
    /\ ~ In (n, r, col) (before ++ after).
(** [k] cycles are run from [s] to [s'], each after some waiting and begun in the running state, none of them faulting. *)
Inductive goes (E : env) (W : event -> loc -> Prop) : nat -> st -> st -> Prop :=
| go_none s : goes E W 0 s s
| go_cycle j k s s1 s2 s3 : waits W j s s1 -> (j < 1000)%nat -> peek (s_ctx s1) LState = Some (VState S_RUNNING) ->
    cycle E s1 = Ok (T_continue, s2) -> goes E W k s2 s3 -> goes E W (S k) s s3.
(** How the main loop ends from [s]: a request to end seen between cycles; a faulting cycle; a request to end seen while
    waiting; too many delays. *)
Inductive ends (E : env) (W : event -> loc -> Prop) (s : st) : tend -> st -> Prop :=
| en_request : peek (s_ctx s) LState = Some (VState S_EXIT_TSK) -> ends E W s Ended s
| en_fault j s1 s' : waits W j s s1 -> (j < 1000)%nat -> peek (s_ctx s1) LState = Some (VState S_RUNNING) -> cycle E s1 = Ok (T_exit, s') -> ends E W s Ended s'
| en_wait j s' : waits W j s s' -> (0 < j < 1000)%nat -> peek (s_ctx s') LState = Some (VState S_EXIT_TSK) -> ends E W s Returned s'
| en_timeout s1 s' : waits W 1000 s s1 -> calls s1 s' (optional (h_panic (x_h (s_ctx s))) EvPanic) ->
    changes_only (s_ctx s1) (s_ctx s') (fun l => l = LState \/ W EvPanic l) -> peek (s_ctx s') LState = Some (VState S_EXIT_TSK) -> ends E W s Ended s'.
(** Delays among the calls. *)
Definition is_delay (ev : event) : bool := match ev with EvDelay _ => true | _ => false end.
(** The calls of one iteration of the main loop that waits [w] times and then runs a cycle without fault. *)
Definition iteration_calls (c : ctx) (l : list event) : Prop :=
  let h := x_h c in let io := x_io c in
  exists w t0 scan ws t1 late pad,
    l = repeat (EvDelay (q_delay (x_q c))) w
        ++ EvMillis t0 :: optional (h_before h) EvBefore ++ map EvRead (seq 0 (io_rq io)) ++ scan
        ++ ws ++ EvMillis t1 :: optional (late && h_panic h) EvPanic ++ map EvDelay pad ++ optional (h_after h) EvAfter
    /\ Forall scan_call scan /\ Forall2 (fun m ev => exists q qw, ev = EvWrite m q qw) (seq 0 (io_wq io)) ws /\ (length pad <= 1)%nat /\ (w < 1000)%nat.
(** The place of an operand that keeps a history. *)
Definition place_now (v : value) : option loc :=
  let i := ix (v_raw v) in
  match v_type v with
  | R_M => Some (LReg B_M i) | R_Cd => Some (LReg B_Cd i) | R_Cr => Some (LReg B_Cr i) | R_Td => Some (LReg B_Td i) | R_Tr => Some (LReg B_Tr i)
  | R_Q => Some (LOut (ix (v_module v)) K_Q (ix (v_port v))) | R_I => Some (LIn (ix (v_module v)) K_I (ix (v_port v)))
  | _ => None
  end.
(** The state after [k] calls of the delay function, made one after another from [s]. *)
Fixpoint delayed (E : env) (k : nat) (s : st) : st :=
  match k with
  | O => s
  | S j => let s1 := delayed E j s in let ev := EvDelay (q_delay (x_q (s_ctx s1))) in mk_st (act E (length (s_tr s1)) ev (s_ctx s1)) (ev :: s_tr s1)
  end.
(** The machine is neither running nor asked to end. *)
Definition idle (c : ctx) : Prop := ~ In (peek c LState) [Some (VState S_RUNNING); Some (VState S_EXIT_TSK)].
(** Something the task needs is not there: the clock, the delay function, a register bank with a quantity, the timers or the networks. *)
Definition incomplete (c : ctx) : Prop :=
  h_millis (x_h c) = false \/ h_delay (x_h c) = false
  \/ (exists b, (0 < bank_qty b (x_q c))%nat /\ peek c (LRegLen b) = None)
  \/ ((0 < q_t (x_q c))%nat /\ peek c LTmLen = None) \/ ((0 < q_nets (x_q c))%nat /\ peek c LNets = None).
(** The read and write functions and their modules are registered. *)
Definition registered (c : ctx) : Prop :=
  exists io, peek c LIo = Some (VIo io) /\ filled (io_rq io) (io_rd io) /\ filled (io_wq io) (io_wr io)
    /\ ((0 < io_rq io)%nat -> peek c LInCount <> None) /\ ((0 < io_wq io)%nat -> peek c LOutCount <> None).

(** ** Edges and latches *)

(** The operand is a flag, digital output or digital input inside the configured quantities; these keep a history. *)
Definition has_history (c : ctx) (v : value) : Prop :=
  exists l, place_now v = Some l /\ (flag_place c l \/ output_place c l \/ input_place c l) /\ (v_type v = R_Q \/ v_type v = R_I \/ 0 <= v_raw v).
(** Nothing during a scan sets [l]: no instruction, no cron job and no code outside the library. *)
Definition left_alone (W : event -> loc -> Prop) (c : ctx) (l : loc) : Prop := ~ scan_writes c l /\ ~ during_scan W l.
(** The instruction at (n, r, col) is the last one in the order of execution that may set [l]; after it nothing else does. *)
Definition last_writer (W : event -> loc -> Prop) (c : ctx) (n r col : nat) (l : loc) : Prop :=
  ~ during_scan W l /\
  exists before after, program_cells c = before ++ (n, r, col) :: after
    /\ forall n' r' col', In (n', r', col') after -> ~ names c (code_at c n' r' col') n' r' col' l.
(** No network reaches the limit of the cycle watchdog. *)
Definition in_time (c : ctx) (m : Z) : Prop := forall n, (n < q_nets (x_q c))%nat -> cost c n <= m.

(** The cycles of a run without fault, each after some waiting, with one observation per cycle: [R] relates the states at
    the beginning and at the end of the cycle to what was observed. *)
Inductive log {A} (E : env) (W : event -> loc -> Prop) (R : st -> st -> A -> Prop) : st -> list A -> st -> Prop :=
| lg_none s : log E W R s [] s
| lg_cycle j s s1 s2 s3 x l : waits W j s s1 -> (j < 1000)%nat -> peek (s_ctx s1) LState = Some (VState S_RUNNING) ->
    cycle E s1 = Ok (T_continue, s2) -> R s1 s2 x -> log E W R s2 l s3 -> log E W R s (x :: l) s3.
(** In the cycle from [s] to [s'] the operand [v] has the value [fst x] <> 0, and the cell (n, r, col), which is executed,
    is powered by its instruction iff [snd x]. *)
Definition contact_cycle (E : env) (W : event -> loc -> Prop) (n r col : nat) (v : value) (s s' : st) (x : bool * bool) : Prop :=
  (exists z, reads (s_ctx s') v z /\ fst x = negb (z =? 0))
  /\ exists a b t0, begins W s a t0 /\ scans E a b /\ (exists t t', visits E W a b n r col t t')
     /\ forall t e t', reaches E W a n r col t e t' -> powered (s_ctx t') n r col (snd x).
(** Where a sequence of values, coming after the value [x], rises and where it falls. *)
Fixpoint rises (x : bool) (l : list bool) : list bool := match l with [] => [] | y :: t => negb x && y :: rises y t end.
Fixpoint falls (x : bool) (l : list bool) : list bool := match l with [] => [] | y :: t => x && negb y :: falls y t end.
(** In the cycle from [s] to [s'] the last executed coil naming [l], at (n, r, col), has power [fst x] on its left, and [l]
    ends with the value [snd x] <> 0. *)
Definition coil_cycle (E : env) (W : event -> loc -> Prop) (n r col : nat) (l : loc) (s s' : st) (x : bool * bool) : Prop :=
  (exists a b t0 t t', begins W s a t0 /\ scans E a b /\ visits E W a b n r col t t' /\ left_powered (s_ctx t) n r col (fst x))
  /\ holds (s_ctx s') l (b2z (snd x)).
(** A value that is set by [true] and kept otherwise; one that is reset by [true] and kept otherwise. *)
Fixpoint sets (x : bool) (l : list bool) : list bool := match l with [] => [] | p :: t => x || p :: sets (x || p) t end.
Fixpoint resets (x : bool) (l : list bool) : list bool := match l with [] => [] | p :: t => x && negb p :: resets (x && negb p) t end.
