(** Vocabulary for statements about freedom from undefined behaviour: explicit well-formedness of a machine and its
    program. *)
From Verif Require Export SpecCron SpecRung SpecTask.

(** ** What the places hold *)

(** The numbers a place may hold, by the C type of the object: flags of counters and timers are bool, memory and digital
    I/O are bytes, counters, reals and accumulators are unsigned and data registers and analog I/O signed 32-bit words. *)
Definition typed_at (l : loc) (z : Z) : Prop :=
  match l with
  | LReg (B_Cd | B_Cr | B_Td | B_Tr | B_Cdh | B_Crh | B_Tdh | B_Trh) _ => 0 <= z <= 1
  | LReg (B_M | B_Mh) _ | LIn _ (K_I | K_Ih) _ | LOut _ (K_Q | K_Qh) _ => 0 <= z <= 255
  | LReg (B_C | B_R) _ | LAcc _ => 0 <= z < 2 ^ 32
  | LReg B_D _ | LIn _ (K_IW | K_IWh) _ | LOut _ (K_QW | K_QWh) _ => fits z
  | _ => True
  end.
Definition typed (c : ctx) : Prop := forall l z, holds c l z -> typed_at l z.

(** Every input and output module in use has its descriptor; its value arrays have the declared sizes and its history arrays
    are missing or have them. *)
Definition in_ports_ok (c : ctx) (m qd qa : nat) : Prop := forall k,
  match k with K_I | K_IW => iports qd qa k = 0%nat | _ => peek c (LInLen m k) = None end
  \/ exists n, peek c (LInLen m k) = Some (VN n) /\ (iports qd qa k <= n)%nat.
Definition out_ports_ok (c : ctx) (m qd qa : nat) : Prop := forall k,
  match k with K_Q | K_QW => ports qd qa k = 0%nat | _ => peek c (LOutLen m k) = None end
  \/ exists n, peek c (LOutLen m k) = Some (VN n) /\ (ports qd qa k <= n)%nat.
Definition modules_ok (c : ctx) : Prop :=
  (forall m, (m < io_rq (x_io c))%nat -> exists id qd qa, peek c (LInMeta m) = Some (VMeta id qd qa) /\ in_ports_ok c m qd qa)
  /\ (forall m, (m < io_wq (x_io c))%nat -> exists id qd qa, peek c (LOutMeta m) = Some (VMeta id qd qa) /\ out_ports_ok c m qd qa).
(** All networks have their cells, with as many operands as counted; those scanned hold instructions of the table. *)
Definition cells_ok (c : ctx) : Prop :=
  forall n, (n < q_nets (x_q c))%nat -> exists en rows cols, peek c (LNet n) = Some (VNet en rows cols)
    /\ (en = true -> (0 < cols)%nat)
    /\ forall r col, (r < rows)%nat -> (col < cols)%nat ->
         exists bar i dq, peek c (LCell n r col) = Some (VCell bar i dq) /\ (en = true -> known i \/ i = I_MULTI)
           /\ (dq = 0%nat \/ exists k, peek c (LDataLen n r col) = Some (VN k) /\ (dq <= k)%nat).
(** The job table is absent or as the library sets it up, and the registered foreign functions are there. *)
Definition extras_ok (c : ctx) : Prop :=
  (forall k, peek c LCron = Some (VCron (Some k)) -> table_ok (q_m (x_q c)) k)
  /\ forall f, peek c LForeign = Some (VForeign f) -> forall i, (i < fo_qty f)%nat -> elem (fo_fn f) i <> None.

(** ** What instructions need *)

(** The operand of an input or output port exists if its module does. *)
Definition port_ok (c : ctx) (v : value) : Prop :=
  match v_type v with
  | R_Q | R_QW => v_module v < Z.of_nat (io_wq (x_io c)) -> target c v <> None
  | R_I | R_IW => v_module v < Z.of_nat (io_rq (x_io c)) -> target c v <> None
  | _ => True
  end.
(** Reading the operand is safe: constants are 32-bit numbers and ports exist. *)
Definition read_ok (c : ctx) (v : value) : Prop := (v_type v = R_NONE -> fits (v_raw v)) /\ port_ok c v.
(** Reading its previous value is safe: also the register index is in range. *)
Definition past_ok (c : ctx) (v : value) : Prop :=
  ~ bad_index c v /\ match v_type v with R_QW | R_IW => port_ok c v | _ => True end.
(** Operand number [j] as the instructions read it: an operand that is not counted reads as 0. *)
Definition input (c : ctx) (n r col j : nat) : value :=
  match peek c (LCell n r col) with
  | Some (VCell _ _ dq) => if (j <? dq)%nat then arg c n r col j else mk_value R_NONE 0 None
  | _ => mk_value R_NONE 0 None
  end.
Definition has_operand (c : ctx) (n r col j : nat) : Prop := exists v, peek c (LData n r col j) = Some (VVal v).
(** A destination that takes any number: not a flag of a counter or timer. *)
Definition word_dest (v : value) : Prop := match v_type v with R_Cd | R_Cr | R_Td | R_Tr => False | _ => True end.
(** The numbers an operand can have by its type. *)
Definition possible (v : value) (z : Z) : Prop :=
  match v_type v with
  | R_NONE => z = v_raw v
  | R_M | R_Q | R_I => 0 <= z <= 255
  | R_Cd | R_Cr | R_Td | R_Tr => 0 <= z <= 1
  | R_T => 0 <= z < 2 ^ 31
  | R_C | R_D | R_R | R_IW | R_QW => fits z
  | R_S | R_INV | R_OTHER _ => z = 0
  end.
(** The cell (r, col) of network [n], which has [rows] rows, can be executed without leaving any array: operands that are
    read or written exist, timers and counters are inside their banks and have the rows they use, flags get only 0 or 1, tables
    are networks of the program. *)
Definition cell_safe (c : ctx) (n rows r col : nat) : Prop :=
  let a := input c n r col in
  match code_at c n r col with
  | I_NO | I_NC | I_FOREIGN => read_ok c (a 0%nat)
  | I_RE | I_FE => read_ok c (a 0%nat) /\ past_ok c (a 0%nat)
  | I_COIL => has_operand c n r col 0
  | I_COILL | I_COILU => has_operand c n r col 0 /\ past_ok c (a 0%nat)
  | I_TON | I_TOF | I_TP => has_operand c n r col 0 /\ has_operand c n r col 1
      /\ in_qty (v_raw (arg c n r col 0)) (q_t (x_q c)) /\ basetime (v_type (arg c n r col 1)) <> None /\ (S r < rows)%nat
      /\ (code_at c n r col = I_TP -> past_ok c (a 0%nat))
  | I_CTU | I_CTD => has_operand c n r col 0 /\ has_operand c n r col 1
      /\ in_qty (v_raw (arg c n r col 0)) (q_c (x_q c)) /\ (S r < rows)%nat
  | I_ADD | I_MUL | I_DIV | I_MOD | I_AND | I_OR | I_XOR =>
      read_ok c (a 0%nat) /\ read_ok c (a 1%nat) /\ has_operand c n r col 2 /\ word_dest (arg c n r col 2)
  | I_SUB => read_ok c (a 0%nat) /\ read_ok c (a 1%nat) /\ has_operand c n r col 2 /\ word_dest (arg c n r col 2) /\ (S (S r) < rows)%nat
  | I_NOT => read_ok c (a 0%nat) /\ has_operand c n r col 1 /\ word_dest (arg c n r col 1)
  | I_SHL | I_SHR | I_ROL | I_ROR => read_ok c (a 0%nat) /\ read_ok c (a 1%nat) /\ has_operand c n r col 0 /\ word_dest (arg c n r col 0)
  | I_EQ | I_NE | I_GT | I_GE | I_LT | I_LE => read_ok c (a 0%nat) /\ read_ok c (a 1%nat)
  | I_MOVE => read_ok c (a 0%nat)
  | I_TMOVE => read_ok c (a 0%nat) /\ read_ok c (a 1%nat) /\ read_ok c (a 2%nat) /\ read_ok c (a 3%nat) /\ read_ok c (a 4%nat)
      /\ forall z, possible (a 0%nat) z \/ possible (a 2%nat) z -> 0 <= z < Z.of_nat (q_nets (x_q c))
  | _ => True
  end.
(** The operands of the cell that are converted to integers when it is executed. *)
Definition converted (i : ins) : list nat :=
  match i with
  | I_NO | I_NC | I_RE | I_FE | I_FOREIGN | I_NOT | I_COILL | I_COILU | I_TP => [0%nat]
  | I_ADD | I_SUB | I_MUL | I_DIV | I_MOD | I_AND | I_OR | I_XOR | I_SHL | I_SHR | I_ROL | I_ROR
  | I_EQ | I_NE | I_GT | I_GE | I_LT | I_LE => [0%nat; 1%nat]
  | I_TMOVE => [0; 1; 2; 3; 4]%nat
  | _ => []
  end.
(** Its arithmetic is defined for all numbers its operands can have: no real is converted, no result leaves 32 bits, no
    divisor of MOD is 0, no rotation is by a multiple of 32. *)
Definition cell_exact (c : ctx) (n r col : nat) : Prop :=
  let a := input c n r col in
  (forall j, In j (converted (code_at c n r col)) -> v_type (a j) <> R_R)
  /\ forall x y, possible (a 0%nat) x -> possible (a 1%nat) y ->
     match code_at c n r col with
     | I_ADD => fits (x + y) | I_SUB => fits (x - y) | I_MUL => fits (x * y)
     | I_DIV => y <> 0 -> fits (Z.quot x y)
     | I_MOD => y <> 0 /\ fits (Z.quot x y)
     | I_ROL | I_ROR => y mod 32 <> 0
     | _ => True
     end.

(** ** Well-formed contexts *)

Record well_formed_ctx (c : ctx) : Prop := {
  wc_sized : sized c;
  wc_modules : modules_ok c;
  wc_cells : cells_ok c;
  wc_extras : extras_ok c;
  wc_nets : peek c LNets <> None /\ forall k, peek c LNets = Some (VN k) -> Z.of_nat k <= 2 ^ 32;
  wc_typed : typed c;
  wc_safe : forall n rows cols r col, scanned c n rows cols -> (r < rows)%nat -> (col < cols)%nat -> cell_safe c n rows r col }.
(** All arithmetic of the program is defined. *)
Definition exact_program (c : ctx) : Prop :=
  forall n rows cols r col, scanned c n rows cols -> (r < rows)%nat -> (col < cols)%nat -> cell_exact c n r col.
(** The kinds of undefined behaviour that depend on the numbers computed with: overflow of signed integers, division by zero,
    shifts by 32 and more, and conversion of reals that do not fit. *)
Definition arithmetic (u : ub) : Prop := In u [UB_overflow; UB_div; UB_shift; UB_float].
(** The code outside the library called during a scan leaves the layout alone and stores only what the C types allow. *)
Record polite (E : env) (W : loc -> Prop) : Prop := {
  po_writes : env_writes E W;
  po_layout : forall l, W l -> ~ is_layout l;
  po_typed : forall k ev c, scan_event ev -> typed c -> typed (act E k ev c);
  po_foreign : forall k id col row c, typed c -> typed (snd (fexec E k id col row c)) }.

(** ** The task *)

(** The tables of read and write functions, if present, have an entry for every module. *)
Definition covers (n : nat) (p : option (list bool)) : Prop := forall t, p = Some t -> (n <= length t)%nat.
Definition tables_ok (c : ctx) : Prop :=
  exists io, peek c LIo = Some (VIo io) /\ covers (io_rq io) (io_rd io) /\ covers (io_wq io) (io_wr io).
(** The code outside the library leaves the layout alone, stores only what the C types allow, and the system clock shows dates
    of the calendar. *)
Record behaved (E : env) (W : event -> loc -> Prop) : Prop := {
  be_callbacks : callbacks E W;
  be_typed : forall k ev c, typed c -> typed (act E k ev c);
  be_foreign : forall k id col row c, typed c -> typed (snd (fexec E k id col row c));
  be_time : forall k, calendar (wall E k) }.
(** The number of cycles measured since the statistics were reset. *)
Definition measured (c : ctx) : Z := match peek c LStats with Some (VStats si) => si_count si | _ => 0 end.
(** A number of scans one after another. *)
Fixpoint many_scans (E : env) (n : nat) : M unit :=
  match n with O => ret tt | S k => ladder_scan E ;;; many_scans E k end.

(** ** Machines built with the library *)

(** No network is enabled. *)
Definition all_disabled (c : ctx) : Prop := forall n rows cols, ~ scanned c n rows cols.
(** A module as the library adds it: without ports and arrays. *)
Definition blank_in (c : ctx) (m : nat) : Prop := peek c (LInMeta m) = Some (VMeta 0 0 0) /\ forall k, peek c (LInLen m k) = None.
Definition blank_out (c : ctx) (m : nat) : Prop := peek c (LOutMeta m) = Some (VMeta 0 0 0) /\ forall k, peek c (LOutLen m k) = None.
(** The initialisation functions of modules only set up their own module, and those that succeed leave it complete: with a
    descriptor and arrays of the declared sizes. *)
Record sound_init (E : env) : Prop := {
  sn_polite : polite_init E;
  sn_typed : forall k m b c, typed c -> typed (act E k (EvInitRead m b) c) /\ typed (act E k (EvInitWrite m b) c);
  sn_read : forall k m c, ext_ok E k = true -> blank_in c m ->
    let c' := act E k (EvInitRead m true) c in exists id qd qa, peek c' (LInMeta m) = Some (VMeta id qd qa) /\ in_ports_ok c' m qd qa;
  sn_write : forall k m c, ext_ok E k = true -> blank_out c m ->
    let c' := act E k (EvInitWrite m true) c in exists id qd qa, peek c' (LOutMeta m) = Some (VMeta id qd qa) /\ out_ports_ok c' m qd qa }.
(** One call of the functions that build a machine, with any arguments and any outcome. Foreign functions that are placed
    occupy at least one cell. *)
Inductive build_call (E : env) : st -> st -> Prop :=
| bc_read alloc fn ini b s s' : add_read_fn E alloc fn ini s = Ok (b, s') -> build_call E s s'
| bc_write alloc fn ini b s s' : add_write_fn E alloc fn ini s = Ok (b, s') -> build_call E s s'
| bc_foreign alloc fn n b s s' : add_foreign E alloc fn n s = Ok (b, s') -> build_call E s s'
| bc_cron x e c' s : u32_call x -> setup x (s_ctx s) = Ok (e, c') -> build_call E s (mk_st c' (s_tr s))
| bc_cell alloc n r col f fid b c' s :
    (forall d, f = I_FOREIGN -> elem (fo_fn (x_for (s_ctx s))) fid = Some d -> (1 <= d_cells (f_iocd d))%nat) -> fn_cell alloc n r col f fid (s_ctx s) = Ok (b, c') -> build_call E s (mk_st c' (s_tr s))
| bc_memory c' s : clear_memory (s_ctx s) = Ok c' -> build_call E s (mk_st c' (s_tr s))
| bc_program c' s : clear_program (s_ctx s) = Ok c' -> build_call E s (mk_st c' (s_tr s)).
(** Any number of them. *)
Inductive built (E : env) : st -> st -> Prop :=
| bt_none s : built E s s
| bt_call s s1 s2 : build_call E s s1 -> built E s1 s2 -> built E s s2.
(** What the user does by hand afterwards: enter operands into the cells, enable networks, set the hooks and the state. *)
Definition by_hand (l : loc) : Prop := match l with LNet _ | LData _ _ _ _ | LHooks | LState => True | _ => False end.
Definition entered (c c' : ctx) : Prop :=
  changes_only c c' by_hand
  /\ forall n en rows cols, peek c (LNet n) = Some (VNet en rows cols) -> exists en', peek c' (LNet n) = Some (VNet en' rows cols).
(** The program is in order: the enabled networks hold only instructions that exist, and each can be executed safely. *)
Definition program_ok (c : ctx) : Prop :=
  forall n rows cols r col, scanned c n rows cols -> (r < rows)%nat -> (col < cols)%nat ->
    (known (code_at c n r col) \/ code_at c n r col = I_MULTI) /\ cell_safe c n rows r col.
