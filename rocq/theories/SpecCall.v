(** Vocabulary for statements about the moments at which the library calls back. *)
From Verif Require Export SpecTask.

(** ** The shape of a machine: everything but the values *)

Definition len {A} (p : option (list A)) : option nat := option_map (@length A) p.
(** Of a cell: bar, instruction, number of operands. *)
Definition cell_shape (x : cell) : bool * ins * nat * option nat := (c_bar x, c_code x, c_dq x, len (c_data x)).
(** Of a network: enabled or not, dimensions, cells. *)
Definition net_shape (nt : network) := (n_en nt, n_rows nt, n_cols nt, option_map (map (map cell_shape)) (n_cells nt)).
(** Of modules: declared quantities and sizes of the arrays. *)
Definition in_shape (m : inmod) := (i_id m, i_iq m, i_iwq m, len (i_I m), len (i_IW m), len (i_Ih m), len (i_IWh m)).
Definition out_shape (m : outmod) := (o_id m, o_qq m, o_qwq m, len (o_Q m), len (o_QW m), len (o_Qh m), len (o_QWh m)).
Definition mem_shape (m : mem) := (len (m_M m), len (m_Cr m), len (m_Cd m), len (m_Tr m), len (m_Td m)).
Definition prev_shape (m : prev) := (len (p_M m), len (p_Cr m), len (p_Cd m), len (p_Tr m), len (p_Td m)).
Definition regs_shape (m : regs) := (len (r_C m), len (r_D m), len (r_R m)).
(** Quantities, I/O functions, hooks, foreign functions, sizes of all arrays, networks without the values of operands. *)
Definition shape (c : ctx) :=
  (x_q c, x_io c, x_h c, x_for c, (mem_shape (x_mem c), prev_shape (x_prev c), regs_shape (x_regs c), len (x_tm c)),
   option_map (map in_shape) (x_in c), option_map (map out_shape) (x_out c), option_map (map net_shape) (x_net c)).

(** ** Calls *)

(** The call belongs to the machine: the function called exists, modules are numbered inside their tables, and the arrays handed
    over are those of the module; a foreign function is called for a cell of the network being scanned. *)
Definition due (c : ctx) (ev : event) : Prop :=
  match ev with
  | EvPanic => h_panic (x_h c) = true
  | EvInstr => h_instr (x_h c) = true
  | EvScanEnd => h_scan_end (x_h c) = true
  | EvBefore => h_before (x_h c) = true
  | EvAfter => h_after (x_h c) = true
  | EvEnd => h_end (x_h c) = true
  | EvDelay ms => h_delay (x_h c) = true /\ (ms = q_delay (x_q c) \/ 0 < ms)
  | EvRead n => (n < io_rq (x_io c))%nat /\ elem (io_rd (x_io c)) n = Some true
  | EvWrite n q qw => (n < io_wq (x_io c))%nat /\ elem (io_wr (x_io c)) n = Some true
      /\ forall m, elem (x_out c) n = Some m -> q = o_Q m /\ qw = o_QW m
  | EvForeign id col row => elem (fo_fn (x_for c)) id <> None /\ exists n, peek c LExec = Some (VExec (Some n)) /\ peek c (LCell n row col) <> None
  | EvMillis _ => h_millis (x_h c) = true
  | EvTime => True
  | _ => False
  end.
(** The environments behave alike in all calls that belong to a machine of the shape of [c0]. *)
Record alike (c0 : ctx) (E E' : env) : Prop := {
  al_clock : forall k, clk E k = clk E' k;
  al_time : forall k, wall E k = wall E' k;
  al_act : forall k ev c, shape c = shape c0 -> due c ev -> act E k ev c = act E' k ev c;
  al_foreign : forall k id col row c, shape c = shape c0 -> due c (EvForeign id col row) -> fexec E k id col row c = fexec E' k id col row c }.
(** What is called leaves the shape as it is, and the pointer to the network being scanned. *)
Record keeps_shape (c0 : ctx) (E : env) : Prop := {
  ks_act : forall k ev c, shape c = shape c0 -> due c ev -> shape (act E k ev c) = shape c0;
  ks_exec : forall k ev c, shape c = shape c0 -> due c ev -> peek (act E k ev c) LExec = peek c LExec;
  ks_foreign : forall k id col row c, shape c = shape c0 -> due c (EvForeign id col row) -> shape (snd (fexec E k id col row c)) = shape c0 }.
(** The call belongs to a machine of the shape of [c0]. *)
Definition called (c0 : ctx) (ev : event) : Prop := exists c, shape c = shape c0 /\ due c ev.
