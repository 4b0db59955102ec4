(** Vocabulary for context management: initialisation, clearing, fault recovery, registration, placing instructions and
    scan-time statistics. *)
From Verif Require Export SpecScan General.

(** ** Initialisation *)

(** Parameter ranges accepted by the initialisation. *)
Definition valid_args (a : init_args) : Prop :=
  (1 <= a_cols a)%nat /\ (1 <= a_rows a <= 32)%nat /\ (1 <= a_nets a)%nat /\ (1 <= a_m a)%nat /\ (1 <= a_c a)%nat
  /\ (1 <= a_t a)%nat /\ (1 <= a_d a)%nat /\ (1 <= a_r a)%nat.
(** Requested size of a bank: histories are as long as what they remember. *)
Definition bank_len (a : init_args) (b : bank) : nat :=
  match b with
  | B_M | B_Mh => a_m a
  | B_Cd | B_Cr | B_Cdh | B_Crh | B_C => a_c a
  | B_Td | B_Tr | B_Tdh | B_Trh => a_t a
  | B_D => a_d a
  | B_R => a_r a
  end.
(** An empty cell: no instruction, no bar, no power, no operands. *)
Definition empty_cell (c : ctx) (n r col : nat) : Prop :=
  peek c (LCell n r col) = Some (VCell false I_NOP 0) /\ peek c (LPow n r col) = Some (VB false)
  /\ peek c (LDataLen n r col) = None.
(** A freshly initialised context. *)
Record fresh (a : init_args) (c : ctx) : Prop := {
  fr_state : peek c LState = Some (VState S_STOPPED);
  fr_err : peek c LErr = Some (VErr E_OK);
  fr_size : forall b, peek c (LRegLen b) = Some (VN (bank_len a b));
  fr_zero : forall b i, (i < bank_len a b)%nat -> peek c (LReg b i) = Some (VZ 0);
  fr_timers : peek c LTmLen = Some (VN (a_t a));
  fr_timer : forall i, (i < a_t a)%nat -> peek c (LTs i) = Some (VZ 0) /\ peek c (LAcc i) = Some (VZ 0);
  fr_nets : a_init a = true -> peek c LNets = Some (VN (a_nets a));
  fr_net : forall n, a_init a = true -> (n < a_nets a)%nat ->
    peek c (LNet n) = Some (VNet false (a_rows a) (a_cols a))
    /\ forall r col, (r < a_rows a)%nat -> (col < a_cols a)%nat -> empty_cell c n r col;
  fr_nonets : a_init a = false -> peek c LNets = None;
  fr_modules : peek c LInCount = None /\ peek c LOutCount = None
    /\ exists io, peek c LIo = Some (VIo io) /\ io_rq io = 0%nat /\ io_wq io = 0%nat;
  fr_hooks : exists h, peek c LHooks = Some (VHooks h) /\ [h_millis h; h_delay h; h_scan_end h; h_instr h; h_before h; h_after h; h_panic h; h_end h] = repeat false 8;
  fr_exec : peek c LExec = Some (VExec None) /\ peek c LWof = Some (VB (a_wof a));
  fr_foreign : peek c LForeign = Some (VForeign (mk_foreign 0 None));
  fr_qty : exists q, peek c LQty = Some (VQty q) /\ q_m q = a_m a /\ q_c q = a_c a /\ q_t q = a_t a /\ q_d q = a_d a
    /\ q_r q = a_r a /\ q_nets q = a_nets a /\ q_wdg q = a_wdg a /\ q_delay q = (if a_delay a =? 0 then 1 else a_delay a);
  fr_stats : exists t, peek c LStats = Some (VStats t) /\ si_actual t = 0 /\ si_start t = 0 /\ si_max t = 0 /\ si_min t = 2 ^ 64 - 1 /\ si_total t = 0
    /\ si_avg t = 0 /\ si_count t = 0 /\ si_over t = false /\ si_maxcyc t = a_maxcyc a
    /\ (0 <= a_target a < 2 ^ 31 -> si_target t = a_target a) }.

(** ** Clearing *)

(** The flag banks and their histories. *)
Definition flag_banks : list bank := [B_M; B_Mh; B_Cd; B_Cdh; B_Cr; B_Crh; B_Td; B_Tdh; B_Tr; B_Trh].
(** All networks have their cells, and operand arrays are as long as the operand counts say. *)
Definition whole_program (c : ctx) : Prop :=
  forall n, (n < q_nets (x_q c))%nat -> exists en rows cols, peek c (LNet n) = Some (VNet en rows cols)
    /\ forall r col, (r < rows)%nat -> (col < cols)%nat ->
         exists bar i dq, peek c (LCell n r col) = Some (VCell bar i dq)
           /\ (peek c (LDataLen n r col) = None \/ exists k, peek c (LDataLen n r col) = Some (VN k) /\ (dq <= k)%nat).
(** A cell of the program. *)
Definition program_cell (c : ctx) (n r col : nat) : Prop :=
  (n < q_nets (x_q c))%nat /\ exists en rows cols, peek c (LNet n) = Some (VNet en rows cols) /\ (r < rows)%nat /\ (col < cols)%nat.
(** The places of a cell. *)
Definition cell_place (n r col : nat) (l : loc) : Prop :=
  l = LPow n r col \/ l = LCell n r col \/ l = LDataLen n r col \/ exists i, l = LData n r col i.

(** ** Scan-time statistics *)

(** Milliseconds between two readings of the 64-bit clock, which may have wrapped once. *)
Definition lapse (t0 t1 : Z) : Z := if t0 <=? t1 then t1 - t0 else t1 + 2 ^ 64 - t0.
(** The times between the readings [t0], [ts]. *)
Fixpoint times (t0 : Z) (ts : list Z) : list Z :=
  match ts with [] => [] | t :: r => lapse t0 t :: times t r end.
Definition sum (l : list Z) : Z := fold_right Z.add 0 l.
(** Statistics over the listed times, of which there is at least one. *)
Definition describes (s : scanint) (l : list Z) : Prop :=
  In (si_min s) l /\ (forall d, In d l -> si_min s <= d) /\ In (si_max s) l /\ (forall d, In d l -> d <= si_max s)
  /\ si_total s = sum l /\ si_count s = Z.of_nat (length l) /\ si_avg s = sum l / Z.of_nat (length l)
  /\ si_actual s = last l 0 /\ (si_over s = true <-> 0 < si_target s < last l 0).
(** The statistics are updated once for every reading. *)
Fixpoint stats_after (ts : list Z) (s : scanint) : res scanint :=
  match ts with [] => Ok s | t :: r => let? s' := scan_stats t s in stats_after r s' end.

(** ** Fault recovery *)

(** Every bank has at least the configured size. *)
Definition sized (c : ctx) : Prop :=
  (forall b, exists k, peek c (LRegLen b) = Some (VN k) /\ (bank_qty b (x_q c) <= k)%nat)
  /\ exists k, peek c LTmLen = Some (VN k) /\ (q_t (x_q c) <= k)%nat.
Definition ports (qd qa : nat) (k : ok) : nat := match k with K_Q | K_Qh => qd | K_QW | K_QWh => qa end.
(** The value array belonging to a history. *)
Definition current (k : ok) : ok := match k with K_Q | K_Qh => K_Q | K_QW | K_QWh => K_QW end.
(** Every output module has its descriptor, and each of its arrays is missing or has at least the declared size. *)
Definition outs_sized (c : ctx) : Prop :=
  peek c LOutCount = None \/
  forall m, (m < io_wq (x_io c))%nat -> exists id qd qa, peek c (LOutMeta m) = Some (VMeta id qd qa)
    /\ forall k, peek c (LOutLen m k) = None \/ exists n, peek c (LOutLen m k) = Some (VN n) /\ (ports qd qa k <= n)%nat.
(** The banks that recovery clears. *)
Definition recovered : list bank := [B_Td; B_Tr; B_C; B_Cd; B_Cr; B_D; B_R].

(** ** Registration of modules and functions *)

(** An array holds exactly [n] elements; it is missing if [n] is 0. *)
Definition exactly {A} (n : nat) (p : option (list A)) : Prop := length (match p with None => [] | Some l => l end) = n /\ (p = None <-> n = 0%nat).
(** The arrays of the read and of the write modules have as many elements as are counted. *)
Definition reads_wf (c : ctx) : Prop :=
  let io := x_io c in exactly (io_rq io) (x_in c) /\ exactly (io_rq io) (io_rd io) /\ exactly (io_rq io) (io_ird io).
Definition writes_wf (c : ctx) : Prop :=
  let io := x_io c in exactly (io_wq io) (x_out c) /\ exactly (io_wq io) (io_wr io) /\ exactly (io_wq io) (io_iwr io).
(** The places of one module. *)
Definition in_place (m : nat) (l : loc) : Prop :=
  l = LInMeta m \/ (exists k, l = LInLen m k) \/ exists k i, l = LIn m k i.
Definition out_place (m : nat) (l : loc) : Prop :=
  l = LOutMeta m \/ (exists k, l = LOutLen m k) \/ exists k i, l = LOut m k i.
(** The initialisation functions of modules only set up their own module. *)
Definition polite_init (E : env) : Prop :=
  (forall k m b c, changes_only c (act E k (EvInitRead m b) c) (in_place m))
  /\ (forall k m b c, changes_only c (act E k (EvInitWrite m b) c) (out_place m)).
Definition extended {A} (p p' : option (list A)) (x : A) : Prop :=
  p' = Some (match p with None => [] | Some l => l end ++ [x]).
(** A series of requests to add read modules, each with the outcome of its allocations, whether functions were given, and
    the results reported. *)
Inductive adds_read (E : env) : list bool -> st -> st -> Prop :=
  | ar_none : forall s, adds_read E [] s s
  | ar_more : forall alloc fn ini b s s1 s2 bs, add_read_fn E alloc fn ini s = Ok (b, s1) -> adds_read E bs s1 s2 ->
      adds_read E (b :: bs) s s2.
Inductive adds_write (E : env) : list bool -> st -> st -> Prop :=
  | aw_none : forall s, adds_write E [] s s
  | aw_more : forall alloc fn ini b s s1 s2 bs, add_write_fn E alloc fn ini s = Ok (b, s1) -> adds_write E bs s1 s2 ->
      adds_write E (b :: bs) s s2.
Definition successes (bs : list bool) : nat := length (filter (fun b => b) bs).
(** The callbacks of foreign functions change nothing in the context while they are added. *)
Definition polite_foreign (E : env) : Prop :=
  forall k ev c, match ev with EvForeignInit _ | EvForeignDeinit _ => True | _ => False end -> act E k ev c = c.

(** ** Placing instructions *)

(** Rows occupied by an instruction and number of its operands. *)
Definition documented (i : ins) : option (nat * nat) :=
  match i with
  | I_NOP | I_CONN | I_INV => Some (1, 0)
  | I_NEG | I_NO | I_NC | I_RE | I_FE | I_COIL | I_COILL | I_COILU => Some (1, 1)
  | I_TON | I_TOF | I_TP | I_CTU | I_CTD => Some (2, 2)
  | I_ADD | I_SUB | I_MUL | I_DIV | I_MOD | I_AND | I_OR | I_XOR => Some (3, 3)
  | I_MOVE | I_NOT | I_SHL | I_SHR | I_ROL | I_ROR | I_EQ | I_NE | I_GT | I_GE | I_LT | I_LE => Some (2, 2)
  | I_TMOVE => Some (1, 5)
  | I_FOREIGN | I_MULTI | I_OTHER _ => None
  end%nat.
(** The instruction [f] takes [cells] rows and [dq] operands; for foreign functions their descriptor tells. *)
Definition block_size (c : ctx) (f : ins) (fid cells dq : nat) : Prop :=
  documented f = Some (cells, dq) \/
  (f = I_FOREIGN /\ exists fo l d, peek c LForeign = Some (VForeign fo) /\ fo_fn fo = Some l /\ (fid < fo_qty fo)%nat /\ nth_error l fid = Some d
     /\ d_cells (f_iocd d) = cells /\ d_dq (f_iocd d) = dq).
(** Rows [r], ..., [r + cells - 1] of column [col] are inside network [n]. *)
Definition inside (c : ctx) (n r col cells : nat) : Prop :=
  (n < q_nets (x_q c))%nat /\ exists en rows cols, peek c (LNet n) = Some (VNet en rows cols) /\ (r + cells <= rows)%nat /\ (col < cols)%nat.
(** They hold no instruction. *)
Definition vacant (c : ctx) (n r col cells : nat) : Prop :=
  forall k, (k < cells)%nat -> exists bar dq, peek c (LCell n (r + k) col) = Some (VCell bar I_NOP dq).
(** The instruction stands at row [r]; with operands, these are empty and the rows below are marked as continuation;
    without operands the rows below stay vacant. *)
Definition placed (c' : ctx) (n r col : nat) (f : ins) (cells dq : nat) : Prop :=
  peek c' (LCell n r col) = Some (VCell ((1 <? cells)%nat && (0 <? dq)%nat) f dq)
  /\ peek c' (LDataLen n r col) = (if (dq =? 0)%nat then None else Some (VN dq))
  /\ (forall i, (i < dq)%nat -> peek c' (LData n r col i) = Some (VVal (mk_value R_NONE 0 None)))
  /\ ((0 < dq)%nat -> forall k, (0 < k < cells)%nat ->
        exists d, peek c' (LCell n (r + k) col) = Some (VCell (S k <? cells)%nat I_MULTI d) /\ peek c' (LDataLen n (r + k) col) = None)
  /\ (dq = 0%nat -> forall k, (0 < k < cells)%nat ->
        exists bar d, peek c' (LCell n (r + k) col) = Some (VCell bar I_NOP d) /\ peek c' (LDataLen n (r + k) col) = None).
(** The places of the span except its power. *)
Definition span_place (n r col cells : nat) (l : loc) : Prop :=
  exists k, (k < cells)%nat /\ (l = LCell n (r + k) col \/ l = LDataLen n (r + k) col \/ exists i, l = LData n (r + k) col i).

(** A program being built: placements requested one after the other, with any outcome. *)
Inductive builds : ctx -> ctx -> Prop :=
  | bu_none : forall c, builds c c
  | bu_more : forall alloc n r col f fid cells dq b c c1 c2, block_size c f fid cells dq -> (1 <= cells)%nat ->
      fn_cell alloc n r col f fid c = Ok (b, c1) -> builds c1 c2 -> builds c c2.
