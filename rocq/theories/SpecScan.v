(** Vocabulary for statements about a whole program scan. *)
From Verif Require Export SpecTime Scan.

(** ** What may change *)

(** The calls out of the library that a scan can make, other than foreign functions. *)
Definition scan_event (ev : event) : Prop :=
  match ev with EvMillis _ | EvPanic | EvInstr | EvScanEnd => True | _ => False end.
(** The code outside the library (hooks, clock, foreign functions) changes only places in [W]. *)
Definition env_writes (E : env) (W : loc -> Prop) : Prop :=
  (forall k ev c, scan_event ev -> changes_only c (act E k ev c) W)
  /\ (forall k id col row c, changes_only c (snd (fexec E k id col row c)) W).
(** The places that make up the ladder program, the sizes of all arrays and the configuration, as opposed to the
    contents of registers, the power of cells and the status of the machine. *)
Definition is_layout (l : loc) : Prop :=
  match l with
  | LReg _ _ | LTs _ | LAcc _ | LIn _ _ _ | LOut _ _ _ | LPow _ _ _ | LState | LWof | LErr | LLast | LStats => False
  | _ => True
  end.

(** The rows whose power an instruction placed at row [r] may set. *)
Definition footprint (i : ins) (r : nat) : list nat :=
  match i with
  | I_NOP | I_FOREIGN | I_INV | I_MULTI | I_OTHER _ => []
  | I_TON | I_TOF | I_TP | I_CTU | I_CTD => [r; S r]
  | I_SUB => [r; S r; S (S r)]
  | _ => [r]
  end.
(** The operand through which an instruction writes a register. *)
Definition dest_operand (i : ins) : option nat :=
  match i with
  | I_COIL | I_COILL | I_COILU | I_SHL | I_SHR | I_ROL | I_ROR => Some 0%nat
  | I_MOVE | I_NOT => Some 1%nat
  | I_ADD | I_SUB | I_MUL | I_DIV | I_MOD | I_AND | I_OR | I_XOR => Some 2%nat
  | _ => None
  end.
Definition is_timer (i : ins) : Prop := match i with I_TON | I_TOF | I_TP => True | _ => False end.
Definition is_counter (i : ins) : Prop := match i with I_CTU | I_CTD => True | _ => False end.

(** Registers the instruction [i] with the operands of cell (n, r, col) may write: its destination, its timer, its
    counter, or for TMOVE first operands of cells of networks that are not scanned. *)
Definition names (c : ctx) (i : ins) (n r col : nat) (l : loc) : Prop :=
  (exists j v, dest_operand i = Some j /\ peek c (LData n r col j) = Some (VVal v) /\ target c v = Some l)
  \/ (is_timer i /\ exists v, peek c (LData n r col 0) = Some (VVal v) /\ 0 <= v_raw v /\ In l (timer_regs (ix (v_raw v))))
  \/ (is_counter i /\ exists v, peek c (LData n r col 0) = Some (VVal v) /\ 0 <= v_raw v /\ In l (counter_regs (ix (v_raw v))))
  \/ (i = I_TMOVE /\ exists n' r' col' rows cols, peek c (LNet n') = Some (VNet false rows cols) /\ l = LData n' r' col' 0).
(** Some register bank is missing (a NULL pointer). *)
Definition bank_missing (c : ctx) : Prop := (exists b, peek c (LRegLen b) = None) \/ peek c LTmLen = None.
(** Everything it may change. *)
Definition writes (c : ctx) (i : ins) (n r col : nat) (l : loc) : Prop :=
  l = LErr
  \/ (l = LState /\ bank_missing c)
  \/ (exists k, In k (footprint i r) /\ l = LPow n k col)
  \/ names c i n r col l.

(** Network [n] is part of the program and is scanned. *)
Definition scanned (c : ctx) (n rows cols : nat) : Prop :=
  (n < q_nets (x_q c))%nat /\ peek c (LNet n) = Some (VNet true rows cols).
(** The instruction [i] stands at cell (r, col) of the scanned network [n]. *)
Definition in_program (c : ctx) (n r col : nat) (i : ins) : Prop :=
  exists rows cols bar dq, scanned c n rows cols /\ (r < rows)%nat /\ (col < cols)%nat
    /\ peek c (LCell n r col) = Some (VCell bar i dq).
(** The M flag of a job in use. *)
Definition cron_flag (c : ctx) (l : loc) : Prop :=
  exists k js j, peek c LCron = Some (VCron (Some k)) /\ cr_jobs k = Some js /\ In j (firstn (cr_used k) js)
    /\ j_en j = true /\ 0 <= j_flag j /\ l = LReg B_M (ix (j_flag j)).
(** Everything a scan of the program may change. *)
Definition scan_writes (c : ctx) (l : loc) : Prop :=
  In l [LErr; LLast; LExec; LState]
  \/ (exists n r col rows cols, scanned c n rows cols /\ l = LPow n r col)
  \/ (exists n r col i, in_program c n r col i /\ names c i n r col l)
  \/ cron_flag c l.

(** ** The order in which a scan visits the program *)

Definition code_at (c : ctx) (n r col : nat) : ins := match peek c (LCell n r col) with Some (VCell _ i _) => i | _ => I_NOP end.
Definition bar_at (c : ctx) (n r col : nat) : bool := match peek c (LCell n r col) with Some (VCell b _ _) => b | _ => false end.
(** Instructions in the dispatch table. *)
Definition known (i : ins) : Prop := match i with I_INV | I_MULTI | I_OTHER _ => False | _ => True end.
(** All cells of the rectangle exist and hold instructions of the table or continuation marks. *)
Definition wf_cells (c : ctx) (n rows cols : nat) : Prop :=
  forall r col, (r < rows)%nat -> (col < cols)%nat ->
    exists bar i dq, peek c (LCell n r col) = Some (VCell bar i dq) /\ (known i \/ i = I_MULTI).
Definition multi (i : ins) : bool := match i with I_MULTI => true | _ => false end.
(** Instructions executed also on a branch that is skipped otherwise. *)
Definition always_run (i : ins) : bool :=
  match i with I_NEG | I_COIL | I_TON | I_TOF | I_TP | I_CTU | I_CTD | I_FOREIGN | I_TMOVE | I_MULTI => true | _ => false end.

(** Steps of the scan of a network: one iteration counted by the watchdog, the execution of a group of rows in a
    column, the end of a rung. *)
Inductive step : Type := Tick | Run (col : nat) (group : list nat) | Close.

Section Plan.
Variables (rows cols : nat) (code : nat -> nat -> ins) (bar : nat -> nat -> bool).
(** Number of rows below [g] joined to it in column [col] by an unbroken run of vertical bars; [k] rows are left. *)
Fixpoint joined (k g col : nat) : nat :=
  match k with O => O | S k' => if bar (S g) col then S (joined k' (S g) col) else O end.
(** The group of rows starting at [g] in column [col]. *)
Definition group (g col : nat) : list nat := seq g (S (joined (rows - S g) g col)).
(** Row [r] has a bar (that is not the bar of a multi-row instruction in it): it is a lower branch of something. *)
Definition branch (r : nat) : bool :=
  existsb (fun col => bar r col && negb ((S r <? rows)%nat && multi (code (S r) col))) (seq 0 cols).
(** Rows of the group looked at to decide about skipping: up to the first that always runs. *)
Fixpoint looked (l : list nat) (col : nat) : nat :=
  match l with [] => O | r :: t => if always_run (code r col) then 1%nat else S (looked t col) end.
Definition column_steps (g col : nat) : list step :=
  repeat Tick (looked (group g col) col)
  ++ (if negb (branch g) || existsb (fun r => always_run (code r col)) (group g col) then [Run col (group g col)] else []).
(** A rung starting at row [g], and the row after it. *)
Definition rung_steps (g : nat) : list step :=
  Tick :: (if multi (code g 0) then [] else flat_map (column_steps g) (seq 0 cols) ++ [Close]).
Definition next_rung (g : nat) : nat := if multi (code g 0) then S g else (g + length (group g 0))%nat.
(** [k] rows are left from [g] on. *)
Fixpoint net_steps (k g : nat) : list step :=
  match k with
  | O => []
  | S k' => if (g <? rows)%nat then rung_steps g ++ net_steps k' (next_rung g) else []
  end.
End Plan.

(** Steps of the scan of network [n]. *)
Definition plan (c : ctx) (n : nat) : list step :=
  match peek c (LNet n) with
  | Some (VNet true rows cols) => net_steps rows cols (code_at c n) (bar_at c n) rows 0
  | _ => []
  end.
(** Iterations the watchdog counts in network [n]. *)
Definition cost (c : ctx) (n : nat) : Z := Z.of_nat (length (filter (fun x => match x with Tick => true | _ => false end) (plan c n))).

(** ** Execution of the program in order *)

(** Cells whose instructions the steps execute, in order; continuation marks are passed over. *)
Definition step_cells (n : nat) (code : nat -> nat -> ins) (x : step) : list (nat * nat * nat) :=
  match x with
  | Run col rs => map (fun r => (n, r, col)) (filter (fun r => negb (multi (code r col))) rs)
  | _ => []
  end.
Definition net_cells (c : ctx) (n : nat) : list (nat * nat * nat) := flat_map (step_cells n (code_at c n)) (plan c n).
(** The cells of the whole program in the order a scan executes them: network by network. *)
Definition program_cells (c : ctx) : list (nat * nat * nat) := flat_map (net_cells c) (seq 0 (q_nets (x_q c))).

(** Changes between two instructions: power of cells (joining a group), the record of the last instruction, which
    network is executing, and what the code outside the library does. *)
Definition glue (W : loc -> Prop) (l : loc) : Prop :=
  (exists n r col, l = LPow n r col) \/ In l [LErr; LLast; LExec] \/ W l.
(** The instruction of cell (n, r, col) is executed in [s] and returns [e] in [s']. *)
Definition executed (E : env) (n r col : nat) (s : st) (e : err) (s' : st) : Prop :=
  peek (s_ctx s) LExec = Some (VExec (Some n))
  /\ exists bar i dq, peek (s_ctx s) (LCell n r col) = Some (VCell bar i dq) /\ outcome E i r col s = Some (Ok (e, s')).
(** The instructions of the listed cells are executed in this order, all without error. *)
Inductive executes (E : env) (W : loc -> Prop) : list (nat * nat * nat) -> st -> st -> Prop :=
| ex_nil s s' : changes_only (s_ctx s) (s_ctx s') (glue W) -> executes E W [] s s'
| ex_cons n r col l s s1 s2 s3 :
    changes_only (s_ctx s) (s_ctx s1) (glue W) -> executed E n r col s1 E_OK s2 ->
    executes E W l s2 s3 -> executes E W ((n, r, col) :: l) s s3.

(** The limit of the cycle watchdog. *)
Definition limit (c : ctx) (m : Z) : Prop := exists si, peek c LStats = Some (VStats si) /\ si_maxcyc si = m.
(** The networks configured exist, and the cells of those that are scanned are well formed. *)
Definition wf_program (c : ctx) : Prop :=
  peek c LNets <> None
  /\ forall n, (n < q_nets (x_q c))%nat ->
       peek c (LRows n) <> None
       /\ exists en rows cols, peek c (LNet n) = Some (VNet en rows cols)
          /\ (en = true -> (0 < cols)%nat /\ wf_cells c n rows cols).
(** There are no cron jobs at all, or at least one. *)
Definition cron_ready (c : ctx) : Prop :=
  peek c LCron = Some (VCron None)
  \/ exists k js, peek c LCron = Some (VCron (Some k)) /\ cr_jobs k = Some js /\ cr_used k <> 0%nat.

(** How a scan can end: all instructions were executed; the instruction at a cell failed; the watchdog stopped it
    in a network. *)
Definition scan_complete (E : env) (W : loc -> Prop) (c : ctx) (s s' : st) : Prop :=
  executes E W (program_cells c) s s' /\ peek (s_ctx s') LState = peek c LState.
Definition scan_fault (E : env) (W : loc -> Prop) (c : ctx) (s s' : st) (n r col : nat) (e : err) : Prop :=
  exists before after s1 s2,
    program_cells c = before ++ (n, r, col) :: after
    /\ executes E W before s s1 /\ executed E n r col s1 e s2 /\ e <> E_OK
    /\ s_tr s' = s_tr s2 /\ changes_only (s_ctx s2) (s_ctx s') (fun l => l = LErr \/ l = LState)
    /\ peek (s_ctx s') LErr = Some (VErr e) /\ peek (s_ctx s') LState = Some (VState S_INV)
    /\ peek (s_ctx s') LLast = Some (VLast (ins_code (code_at c n r col)) n col r).
Definition scan_overrun (E : env) (W : loc -> Prop) (c : ctx) (s s' : st) (n : nat) : Prop :=
  exists before after s1,
    program_cells c = before ++ after /\ executes E W before s s1
    /\ changes_only (s_ctx s1) (s_ctx s') (fun l => l = LErr \/ l = LState \/ W l)
    /\ peek (s_ctx s') LErr = Some (VErr E_OVERFLOW) /\ peek (s_ctx s') LState = Some (VState S_ERROR).

(** What the statements about complete scans assume: the code outside the library changes neither the program layout nor
    the machine status, all register banks exist, the program is well formed; [m] is the watchdog limit. *)
Record scan_ready (E : env) (W : loc -> Prop) (c : ctx) (m : Z) : Prop := {
  sr_env : env_writes E W;
  sr_layout : forall l, W l -> ~ is_layout l;
  sr_status : forall l, In l [LState; LErr; LLast; LStats] -> ~ W l;
  sr_nets : forall k, peek c LNets = Some (VN k) -> Z.of_nat k <= 2 ^ 32;
  sr_banks : ~ bank_missing c;
  sr_limit : limit c m;
  sr_pos : 0 <= m;
  sr_prog : wf_program c;
  sr_cron : cron_ready c }.
(** The scan started in [s] ran to its end in [s']: nothing undefined happened. *)
Definition scans (E : env) (s s' : st) : Prop := ladder_scan E s = Ok (tt, s').
(** ** Cron jobs *)

(** Bit [p] of a bit map. *)
Definition bit_on (m : list Z) (p : Z) : bool :=
  (0 <=? p) && match nth_error m (Z.to_nat (p / 8)) with Some b => Z.testbit b (p mod 8) | None => false end.
(** The time is a calendar date of the years 2000 to 2100; months are counted from 0 and years from 1900, as in C. *)
Definition calendar (t : tm) : Prop :=
  0 <= tm_sec t <= 60 /\ 0 <= tm_min t <= 59 /\ 0 <= tm_hour t <= 23 /\ 1 <= tm_mday t <= 31 /\ 0 <= tm_mon t <= 11
  /\ 0 <= tm_wday t <= 6 /\ 100 <= tm_year t <= 200.
(** The map of a job contains the time [t]. *)
Definition matches (t : tm) (k : cronmap) : bool :=
  bit_on (k_sec k) (tm_sec t) && bit_on (k_min k) (tm_min t) && bit_on (k_hour k) (tm_hour t) && bit_on (k_mday k) (tm_mday t)
  && bit_on (k_mon k) (tm_mon t + 1) && bit_on (k_wday k) (tm_wday t) && bit_on (k_year k) (tm_year t - 100).
(** The M registers by number. *)
Definition flag_of (c : ctx) (z : Z) : option Z :=
  if 0 <=? z then match peek c (LReg B_M (ix z)) with Some (VZ x) => Some x | _ => None end else None.
(** The flags of the auto-reset jobs are cleared. *)
Definition flags_cleared (js : list job) (f : Z -> option Z) (z : Z) : option Z :=
  if existsb (fun j => j_en j && j_auto j && (j_flag j =? z)) js then Some 0 else f z.
(** A job whose time it is copies its enable register to its flag. *)
Definition fired (t : tm) (f : Z -> option Z) (j : job) (z : Z) : option Z :=
  if j_en j && matches t (j_map j) && (j_flag j =? z) then f (j_enreg j) else f z.
(** The M registers after the jobs [js] were done, in order. *)
Definition after_jobs (t : tm) (js : list job) (f : Z -> option Z) : Z -> option Z := fold_left (fired t) js (flags_cleared js f).
(** What happens before the first instruction: the local time is asked for once and the jobs in use are done. *)
Definition cron_step (E : env) (s s0 : st) : Prop :=
  changes_only (s_ctx s) (s_ctx s0) (fun l => l = LExec \/ cron_flag (s_ctx s) l)
  /\ match x_cron (s_ctx s) with
     | None => s_tr s0 = s_tr s
     | Some k => s_tr s0 = EvTime :: s_tr s
         /\ let t := wall E (length (s_tr s)) in
            calendar t -> exists js, cr_jobs k = Some js
              /\ forall z, flag_of (s_ctx s0) z = after_jobs t (firstn (cr_used k) js) (flag_of (s_ctx s)) z
     end.
