(** Data types of the model: the enumerations and structures of ladder.h.
    The [set_f] functions are plain record updates (one per field). *)
From Verif Require Export Base.

(** ladder.h: enum LADDER_REGISTERS. [R_OTHER] stands for any other integer stored in the field. *)
Inductive reg : Type :=
| R_NONE | R_M | R_Q | R_I | R_Cd | R_Cr | R_Td | R_Tr | R_IW | R_QW | R_C | R_T | R_D | R_S | R_R
| R_INV | R_OTHER (z : Z).
Definition reg_code (r : reg) : Z :=
  match r with
  | R_NONE => 0 | R_M => 1 | R_Q => 2 | R_I => 3 | R_Cd => 4 | R_Cr => 5 | R_Td => 6 | R_Tr => 7
  | R_IW => 8 | R_QW => 9 | R_C => 10 | R_T => 11 | R_D => 12 | R_S => 13 | R_R => 14 | R_INV => 15
  | R_OTHER z => z
  end.

(** ladder.h: enum LADDER_INSTRUCTIONS. [I_OTHER] stands for any other integer stored in the field. *)
Inductive ins : Type :=
| I_NOP | I_CONN | I_NEG | I_NO | I_NC | I_RE | I_FE | I_COIL | I_COILL | I_COILU | I_TON | I_TOF | I_TP
| I_CTU | I_CTD | I_MOVE | I_SUB | I_ADD | I_MUL | I_DIV | I_MOD | I_SHL | I_SHR | I_ROL | I_ROR | I_AND
| I_OR | I_XOR | I_NOT | I_EQ | I_GT | I_GE | I_LT | I_LE | I_NE | I_FOREIGN | I_TMOVE | I_INV | I_MULTI
| I_OTHER (z : Z).
Definition ins_code (i : ins) : Z :=
  match i with
  | I_NOP => 0 | I_CONN => 1 | I_NEG => 2 | I_NO => 3 | I_NC => 4 | I_RE => 5 | I_FE => 6 | I_COIL => 7
  | I_COILL => 8 | I_COILU => 9 | I_TON => 10 | I_TOF => 11 | I_TP => 12 | I_CTU => 13 | I_CTD => 14
  | I_MOVE => 15 | I_SUB => 16 | I_ADD => 17 | I_MUL => 18 | I_DIV => 19 | I_MOD => 20 | I_SHL => 21
  | I_SHR => 22 | I_ROL => 23 | I_ROR => 24 | I_AND => 25 | I_OR => 26 | I_XOR => 27 | I_NOT => 28
  | I_EQ => 29 | I_GT => 30 | I_GE => 31 | I_LT => 32 | I_LE => 33 | I_NE => 34 | I_FOREIGN => 35
  | I_TMOVE => 36 | I_INV => 37 | I_MULTI => 38 | I_OTHER z => z
  end.
Definition is_multi (i : ins) : bool := match i with I_MULTI => true | _ => false end.
Definition is_nop (i : ins) : bool := match i with I_NOP => true | _ => false end.

(** ladder.h: enum LADDER_INS_ERROR. *)
Inductive err : Type :=
| E_OK | E_GETPREVVAL | E_GETDATAVAL | E_SETDATAVAL | E_NOFOREIGN | E_NOTABLE | E_OUTOFRANGE
| E_DIVBYZERO | E_TYPEMISMATCH | E_OVERFLOW | E_NULL | E_FAIL.
Definition err_eqb (a b : err) : bool :=
  match a, b with
  | E_OK, E_OK | E_GETPREVVAL, E_GETPREVVAL | E_GETDATAVAL, E_GETDATAVAL | E_SETDATAVAL, E_SETDATAVAL
  | E_NOFOREIGN, E_NOFOREIGN | E_NOTABLE, E_NOTABLE | E_OUTOFRANGE, E_OUTOFRANGE
  | E_DIVBYZERO, E_DIVBYZERO | E_TYPEMISMATCH, E_TYPEMISMATCH | E_OVERFLOW, E_OVERFLOW
  | E_NULL, E_NULL | E_FAIL, E_FAIL => true
  | _, _ => false
  end.
Definition is_ok (e : err) : bool := err_eqb e E_OK.

(** ladder.h: enum LADDER_STATE. *)
Inductive lstate : Type := S_STOPPED | S_RUNNING | S_ERROR | S_EXIT_TSK | S_NULLFN | S_INV.
Definition lstate_eqb (a b : lstate) : bool :=
  match a, b with
  | S_STOPPED, S_STOPPED | S_RUNNING, S_RUNNING | S_ERROR, S_ERROR | S_EXIT_TSK, S_EXIT_TSK
  | S_NULLFN, S_NULLFN | S_INV, S_INV => true
  | _, _ => false
  end.

(** Last executed instruction: ladder.h:264-270 (struct last). *)
Record lastinfo : Type := mk_lastinfo {
  l_instr : Z;
  l_net : nat;
  l_col : nat;
  l_row : nat;
  l_err : err }.

Definition set_l_instr (v : Z) (r : lastinfo) : lastinfo :=
  mk_lastinfo v (l_net r) (l_col r) (l_row r) (l_err r).
Definition set_l_net (v : nat) (r : lastinfo) : lastinfo :=
  mk_lastinfo (l_instr r) v (l_col r) (l_row r) (l_err r).
Definition set_l_col (v : nat) (r : lastinfo) : lastinfo :=
  mk_lastinfo (l_instr r) (l_net r) v (l_row r) (l_err r).
Definition set_l_row (v : nat) (r : lastinfo) : lastinfo :=
  mk_lastinfo (l_instr r) (l_net r) (l_col r) v (l_err r).
Definition set_l_err (v : err) (r : lastinfo) : lastinfo :=
  mk_lastinfo (l_instr r) (l_net r) (l_col r) (l_row r) v.

(** Configured quantities: ladder.h (struct quantity in ladder_s). *)
Record qty : Type := mk_qty {
  q_m : nat;
  q_c : nat;
  q_t : nat;
  q_d : nat;
  q_r : nat;
  q_nets : nat;
  q_delay : Z;
  q_wdg : Z }.

Definition set_q_m (v : nat) (r : qty) : qty :=
  mk_qty v (q_c r) (q_t r) (q_d r) (q_r r) (q_nets r) (q_delay r) (q_wdg r).
Definition set_q_c (v : nat) (r : qty) : qty :=
  mk_qty (q_m r) v (q_t r) (q_d r) (q_r r) (q_nets r) (q_delay r) (q_wdg r).
Definition set_q_t (v : nat) (r : qty) : qty :=
  mk_qty (q_m r) (q_c r) v (q_d r) (q_r r) (q_nets r) (q_delay r) (q_wdg r).
Definition set_q_d (v : nat) (r : qty) : qty :=
  mk_qty (q_m r) (q_c r) (q_t r) v (q_r r) (q_nets r) (q_delay r) (q_wdg r).
Definition set_q_r (v : nat) (r : qty) : qty :=
  mk_qty (q_m r) (q_c r) (q_t r) (q_d r) v (q_nets r) (q_delay r) (q_wdg r).
Definition set_q_nets (v : nat) (r : qty) : qty :=
  mk_qty (q_m r) (q_c r) (q_t r) (q_d r) (q_r r) v (q_delay r) (q_wdg r).
Definition set_q_delay (v : Z) (r : qty) : qty :=
  mk_qty (q_m r) (q_c r) (q_t r) (q_d r) (q_r r) (q_nets r) v (q_wdg r).
Definition set_q_wdg (v : Z) (r : qty) : qty :=
  mk_qty (q_m r) (q_c r) (q_t r) (q_d r) (q_r r) (q_nets r) (q_delay r) v.

(** I/O function tables: ladder.h (struct io in ladder_hw_s). A function pointer is modelled by whether it is non-null. *)
Record hwio : Type := mk_hwio {
  io_rq : nat;
  io_wq : nat;
  io_rd : option (list bool);
  io_wr : option (list bool);
  io_ird : option (list bool);
  io_iwr : option (list bool) }.

Definition set_io_rq (v : nat) (r : hwio) : hwio :=
  mk_hwio v (io_wq r) (io_rd r) (io_wr r) (io_ird r) (io_iwr r).
Definition set_io_wq (v : nat) (r : hwio) : hwio :=
  mk_hwio (io_rq r) v (io_rd r) (io_wr r) (io_ird r) (io_iwr r).
Definition set_io_rd (v : option (list bool)) (r : hwio) : hwio :=
  mk_hwio (io_rq r) (io_wq r) v (io_wr r) (io_ird r) (io_iwr r).
Definition set_io_wr (v : option (list bool)) (r : hwio) : hwio :=
  mk_hwio (io_rq r) (io_wq r) (io_rd r) v (io_ird r) (io_iwr r).
Definition set_io_ird (v : option (list bool)) (r : hwio) : hwio :=
  mk_hwio (io_rq r) (io_wq r) (io_rd r) (io_wr r) v (io_iwr r).
Definition set_io_iwr (v : option (list bool)) (r : hwio) : hwio :=
  mk_hwio (io_rq r) (io_wq r) (io_rd r) (io_wr r) (io_ird r) v.

(** Which callbacks are non-null: ladder.h (ladder_manage_s, struct time in ladder_hw_s). *)
Record hooks : Type := mk_hooks {
  h_millis : bool;
  h_delay : bool;
  h_scan_end : bool;
  h_instr : bool;
  h_before : bool;
  h_after : bool;
  h_panic : bool;
  h_end : bool }.

Definition set_h_millis (v : bool) (r : hooks) : hooks :=
  mk_hooks v (h_delay r) (h_scan_end r) (h_instr r) (h_before r) (h_after r) (h_panic r) (h_end r).
Definition set_h_delay (v : bool) (r : hooks) : hooks :=
  mk_hooks (h_millis r) v (h_scan_end r) (h_instr r) (h_before r) (h_after r) (h_panic r) (h_end r).
Definition set_h_scan_end (v : bool) (r : hooks) : hooks :=
  mk_hooks (h_millis r) (h_delay r) v (h_instr r) (h_before r) (h_after r) (h_panic r) (h_end r).
Definition set_h_instr (v : bool) (r : hooks) : hooks :=
  mk_hooks (h_millis r) (h_delay r) (h_scan_end r) v (h_before r) (h_after r) (h_panic r) (h_end r).
Definition set_h_before (v : bool) (r : hooks) : hooks :=
  mk_hooks (h_millis r) (h_delay r) (h_scan_end r) (h_instr r) v (h_after r) (h_panic r) (h_end r).
Definition set_h_after (v : bool) (r : hooks) : hooks :=
  mk_hooks (h_millis r) (h_delay r) (h_scan_end r) (h_instr r) (h_before r) v (h_panic r) (h_end r).
Definition set_h_panic (v : bool) (r : hooks) : hooks :=
  mk_hooks (h_millis r) (h_delay r) (h_scan_end r) (h_instr r) (h_before r) (h_after r) v (h_end r).
Definition set_h_end (v : bool) (r : hooks) : hooks :=
  mk_hooks (h_millis r) (h_delay r) (h_scan_end r) (h_instr r) (h_before r) (h_after r) (h_panic r) v.

(** Flags: ladder.h (ladder_memory_s). Bool arrays are kept as bytes. *)
Record mem : Type := mk_mem {
  m_M : arr;
  m_Cr : arr;
  m_Cd : arr;
  m_Tr : arr;
  m_Td : arr }.

Definition set_m_M (v : arr) (r : mem) : mem :=
  mk_mem v (m_Cr r) (m_Cd r) (m_Tr r) (m_Td r).
Definition set_m_Cr (v : arr) (r : mem) : mem :=
  mk_mem (m_M r) v (m_Cd r) (m_Tr r) (m_Td r).
Definition set_m_Cd (v : arr) (r : mem) : mem :=
  mk_mem (m_M r) (m_Cr r) v (m_Tr r) (m_Td r).
Definition set_m_Tr (v : arr) (r : mem) : mem :=
  mk_mem (m_M r) (m_Cr r) (m_Cd r) v (m_Td r).
Definition set_m_Td (v : arr) (r : mem) : mem :=
  mk_mem (m_M r) (m_Cr r) (m_Cd r) (m_Tr r) v.

(** Values of the previous scan: ladder.h (ladder_prev_scan_vals_s). *)
Record prev : Type := mk_prev {
  p_M : arr;
  p_Cr : arr;
  p_Cd : arr;
  p_Tr : arr;
  p_Td : arr }.

Definition set_p_M (v : arr) (r : prev) : prev :=
  mk_prev v (p_Cr r) (p_Cd r) (p_Tr r) (p_Td r).
Definition set_p_Cr (v : arr) (r : prev) : prev :=
  mk_prev (p_M r) v (p_Cd r) (p_Tr r) (p_Td r).
Definition set_p_Cd (v : arr) (r : prev) : prev :=
  mk_prev (p_M r) (p_Cr r) v (p_Tr r) (p_Td r).
Definition set_p_Tr (v : arr) (r : prev) : prev :=
  mk_prev (p_M r) (p_Cr r) (p_Cd r) v (p_Td r).
Definition set_p_Td (v : arr) (r : prev) : prev :=
  mk_prev (p_M r) (p_Cr r) (p_Cd r) (p_Tr r) v.

(** One input module: ladder.h (ladder_hw_input_vals_s). *)
Record inmod : Type := mk_inmod {
  i_id : Z;
  i_iq : nat;
  i_iwq : nat;
  i_I : arr;
  i_IW : arr;
  i_Ih : arr;
  i_IWh : arr }.

Definition set_i_id (v : Z) (r : inmod) : inmod :=
  mk_inmod v (i_iq r) (i_iwq r) (i_I r) (i_IW r) (i_Ih r) (i_IWh r).
Definition set_i_iq (v : nat) (r : inmod) : inmod :=
  mk_inmod (i_id r) v (i_iwq r) (i_I r) (i_IW r) (i_Ih r) (i_IWh r).
Definition set_i_iwq (v : nat) (r : inmod) : inmod :=
  mk_inmod (i_id r) (i_iq r) v (i_I r) (i_IW r) (i_Ih r) (i_IWh r).
Definition set_i_I (v : arr) (r : inmod) : inmod :=
  mk_inmod (i_id r) (i_iq r) (i_iwq r) v (i_IW r) (i_Ih r) (i_IWh r).
Definition set_i_IW (v : arr) (r : inmod) : inmod :=
  mk_inmod (i_id r) (i_iq r) (i_iwq r) (i_I r) v (i_Ih r) (i_IWh r).
Definition set_i_Ih (v : arr) (r : inmod) : inmod :=
  mk_inmod (i_id r) (i_iq r) (i_iwq r) (i_I r) (i_IW r) v (i_IWh r).
Definition set_i_IWh (v : arr) (r : inmod) : inmod :=
  mk_inmod (i_id r) (i_iq r) (i_iwq r) (i_I r) (i_IW r) (i_Ih r) v.

(** One output module: ladder.h (ladder_hw_output_vals_s). *)
Record outmod : Type := mk_outmod {
  o_id : Z;
  o_qq : nat;
  o_qwq : nat;
  o_Q : arr;
  o_QW : arr;
  o_Qh : arr;
  o_QWh : arr }.

Definition set_o_id (v : Z) (r : outmod) : outmod :=
  mk_outmod v (o_qq r) (o_qwq r) (o_Q r) (o_QW r) (o_Qh r) (o_QWh r).
Definition set_o_qq (v : nat) (r : outmod) : outmod :=
  mk_outmod (o_id r) v (o_qwq r) (o_Q r) (o_QW r) (o_Qh r) (o_QWh r).
Definition set_o_qwq (v : nat) (r : outmod) : outmod :=
  mk_outmod (o_id r) (o_qq r) v (o_Q r) (o_QW r) (o_Qh r) (o_QWh r).
Definition set_o_Q (v : arr) (r : outmod) : outmod :=
  mk_outmod (o_id r) (o_qq r) (o_qwq r) v (o_QW r) (o_Qh r) (o_QWh r).
Definition set_o_QW (v : arr) (r : outmod) : outmod :=
  mk_outmod (o_id r) (o_qq r) (o_qwq r) (o_Q r) v (o_Qh r) (o_QWh r).
Definition set_o_Qh (v : arr) (r : outmod) : outmod :=
  mk_outmod (o_id r) (o_qq r) (o_qwq r) (o_Q r) (o_QW r) v (o_QWh r).
Definition set_o_QWh (v : arr) (r : outmod) : outmod :=
  mk_outmod (o_id r) (o_qq r) (o_qwq r) (o_Q r) (o_QW r) (o_Qh r) v.

(** Registers: ladder.h (ladder_registers_s). C holds uint32 values, D int32 values, R raw IEEE-754 patterns. *)
Record regs : Type := mk_regs {
  r_C : arr;
  r_D : arr;
  r_R : arr }.

Definition set_r_C (v : arr) (r : regs) : regs :=
  mk_regs v (r_D r) (r_R r).
Definition set_r_D (v : arr) (r : regs) : regs :=
  mk_regs (r_C r) v (r_R r).
Definition set_r_R (v : arr) (r : regs) : regs :=
  mk_regs (r_C r) (r_D r) v.

(** One timer: ladder.h (ladder_timer_s). *)
Record timer : Type := mk_timer {
  t_ts : Z;
  t_acc : Z }.

Definition set_t_ts (v : Z) (r : timer) : timer :=
  mk_timer v (t_acc r).
Definition set_t_acc (v : Z) (r : timer) : timer :=
  mk_timer (t_ts r) v.

(** Scan statistics: ladder.h (ladder_scan_internals_s). *)
Record scanint : Type := mk_scanint {
  si_actual : Z;
  si_start : Z;
  si_maxcyc : Z;
  si_target : Z;
  si_min : Z;
  si_max : Z;
  si_total : Z;
  si_avg : Z;
  si_count : Z;
  si_over : bool }.

Definition set_si_actual (v : Z) (r : scanint) : scanint :=
  mk_scanint v (si_start r) (si_maxcyc r) (si_target r) (si_min r) (si_max r) (si_total r) (si_avg r) (si_count r) (si_over r).
Definition set_si_start (v : Z) (r : scanint) : scanint :=
  mk_scanint (si_actual r) v (si_maxcyc r) (si_target r) (si_min r) (si_max r) (si_total r) (si_avg r) (si_count r) (si_over r).
Definition set_si_maxcyc (v : Z) (r : scanint) : scanint :=
  mk_scanint (si_actual r) (si_start r) v (si_target r) (si_min r) (si_max r) (si_total r) (si_avg r) (si_count r) (si_over r).
Definition set_si_target (v : Z) (r : scanint) : scanint :=
  mk_scanint (si_actual r) (si_start r) (si_maxcyc r) v (si_min r) (si_max r) (si_total r) (si_avg r) (si_count r) (si_over r).
Definition set_si_min (v : Z) (r : scanint) : scanint :=
  mk_scanint (si_actual r) (si_start r) (si_maxcyc r) (si_target r) v (si_max r) (si_total r) (si_avg r) (si_count r) (si_over r).
Definition set_si_max (v : Z) (r : scanint) : scanint :=
  mk_scanint (si_actual r) (si_start r) (si_maxcyc r) (si_target r) (si_min r) v (si_total r) (si_avg r) (si_count r) (si_over r).
Definition set_si_total (v : Z) (r : scanint) : scanint :=
  mk_scanint (si_actual r) (si_start r) (si_maxcyc r) (si_target r) (si_min r) (si_max r) v (si_avg r) (si_count r) (si_over r).
Definition set_si_avg (v : Z) (r : scanint) : scanint :=
  mk_scanint (si_actual r) (si_start r) (si_maxcyc r) (si_target r) (si_min r) (si_max r) (si_total r) v (si_count r) (si_over r).
Definition set_si_count (v : Z) (r : scanint) : scanint :=
  mk_scanint (si_actual r) (si_start r) (si_maxcyc r) (si_target r) (si_min r) (si_max r) (si_total r) (si_avg r) v (si_over r).
Definition set_si_over (v : bool) (r : scanint) : scanint :=
  mk_scanint (si_actual r) (si_start r) (si_maxcyc r) (si_target r) (si_min r) (si_max r) (si_total r) (si_avg r) (si_count r) v.

(** An operand: ladder.h (ladder_value_s). [v_raw] is the low 32 bits of the union as int32; [v_str] the string of an S operand (None = NULL). *)
Record value : Type := mk_value {
  v_type : reg;
  v_raw : Z;
  v_str : option (list Z) }.

Definition set_v_type (v : reg) (r : value) : value :=
  mk_value v (v_raw r) (v_str r).
Definition set_v_raw (v : Z) (r : value) : value :=
  mk_value (v_type r) v (v_str r).
Definition set_v_str (v : option (list Z)) (r : value) : value :=
  mk_value (v_type r) (v_raw r) v.

(** A cell: ladder.h (ladder_cell_s). *)
Record cell : Type := mk_cell {
  c_state : bool;
  c_bar : bool;
  c_code : ins;
  c_dq : nat;
  c_data : option (list value) }.

Definition set_c_state (v : bool) (r : cell) : cell :=
  mk_cell v (c_bar r) (c_code r) (c_dq r) (c_data r).
Definition set_c_bar (v : bool) (r : cell) : cell :=
  mk_cell (c_state r) v (c_code r) (c_dq r) (c_data r).
Definition set_c_code (v : ins) (r : cell) : cell :=
  mk_cell (c_state r) (c_bar r) v (c_dq r) (c_data r).
Definition set_c_dq (v : nat) (r : cell) : cell :=
  mk_cell (c_state r) (c_bar r) (c_code r) v (c_data r).
Definition set_c_data (v : option (list value)) (r : cell) : cell :=
  mk_cell (c_state r) (c_bar r) (c_code r) (c_dq r) v.

(** A network: ladder.h (ladder_network_s). Row pointers are assumed non-null. *)
Record network : Type := mk_network {
  n_en : bool;
  n_rows : nat;
  n_cols : nat;
  n_cells : option (list (list cell)) }.

Definition set_n_en (v : bool) (r : network) : network :=
  mk_network v (n_rows r) (n_cols r) (n_cells r).
Definition set_n_rows (v : nat) (r : network) : network :=
  mk_network (n_en r) v (n_cols r) (n_cells r).
Definition set_n_cols (v : nat) (r : network) : network :=
  mk_network (n_en r) (n_rows r) v (n_cells r).
Definition set_n_cells (v : option (list (list cell))) (r : network) : network :=
  mk_network (n_en r) (n_rows r) (n_cols r) v.

(** Instruction description: ladder.h (ladder_instructions_iocd_s). *)
Record iocd : Type := mk_iocd {
  d_in : nat;
  d_out : nat;
  d_cells : nat;
  d_dq : nat }.

Definition set_d_in (v : nat) (r : iocd) : iocd :=
  mk_iocd v (d_out r) (d_cells r) (d_dq r).
Definition set_d_out (v : nat) (r : iocd) : iocd :=
  mk_iocd (d_in r) v (d_cells r) (d_dq r).
Definition set_d_cells (v : nat) (r : iocd) : iocd :=
  mk_iocd (d_in r) (d_out r) v (d_dq r).
Definition set_d_dq (v : nat) (r : iocd) : iocd :=
  mk_iocd (d_in r) (d_out r) (d_cells r) v.

(** A registered foreign function: ladder.h (ladder_foreign_function_s), without its name and private data. *)
Record fdesc : Type := mk_fdesc {
  f_id : Z;
  f_iocd : iocd;
  f_deinit : bool }.

Definition set_f_id (v : Z) (r : fdesc) : fdesc :=
  mk_fdesc v (f_iocd r) (f_deinit r).
Definition set_f_iocd (v : iocd) (r : fdesc) : fdesc :=
  mk_fdesc (f_id r) v (f_deinit r).
Definition set_f_deinit (v : bool) (r : fdesc) : fdesc :=
  mk_fdesc (f_id r) (f_iocd r) v.

(** Foreign functions: ladder.h (ladder_foreign_s). *)
Record foreign : Type := mk_foreign {
  fo_qty : nat;
  fo_fn : option (list fdesc) }.

Definition set_fo_qty (v : nat) (r : foreign) : foreign :=
  mk_foreign v (fo_fn r).
Definition set_fo_fn (v : option (list fdesc)) (r : foreign) : foreign :=
  mk_foreign (fo_qty r) v.

(** Bit maps of a parsed cron expression, one list of bytes per field: lwdtc.h (lwdtc_cron_ctx_t). *)
Record cronmap : Type := mk_cronmap {
  k_sec : list Z;
  k_min : list Z;
  k_hour : list Z;
  k_mday : list Z;
  k_mon : list Z;
  k_wday : list Z;
  k_year : list Z }.

Definition set_k_sec (v : list Z) (r : cronmap) : cronmap :=
  mk_cronmap v (k_min r) (k_hour r) (k_mday r) (k_mon r) (k_wday r) (k_year r).
Definition set_k_min (v : list Z) (r : cronmap) : cronmap :=
  mk_cronmap (k_sec r) v (k_hour r) (k_mday r) (k_mon r) (k_wday r) (k_year r).
Definition set_k_hour (v : list Z) (r : cronmap) : cronmap :=
  mk_cronmap (k_sec r) (k_min r) v (k_mday r) (k_mon r) (k_wday r) (k_year r).
Definition set_k_mday (v : list Z) (r : cronmap) : cronmap :=
  mk_cronmap (k_sec r) (k_min r) (k_hour r) v (k_mon r) (k_wday r) (k_year r).
Definition set_k_mon (v : list Z) (r : cronmap) : cronmap :=
  mk_cronmap (k_sec r) (k_min r) (k_hour r) (k_mday r) v (k_wday r) (k_year r).
Definition set_k_wday (v : list Z) (r : cronmap) : cronmap :=
  mk_cronmap (k_sec r) (k_min r) (k_hour r) (k_mday r) (k_mon r) v (k_year r).
Definition set_k_year (v : list Z) (r : cronmap) : cronmap :=
  mk_cronmap (k_sec r) (k_min r) (k_hour r) (k_mday r) (k_mon r) (k_wday r) v.

(** A cron job: ladderlib_cron.h (LADDERLIB_CRON_CTX_S). *)
Record job : Type := mk_job {
  j_en : bool;
  j_auto : bool;
  j_enreg : Z;
  j_flag : Z;
  j_map : cronmap }.

Definition set_j_en (v : bool) (r : job) : job :=
  mk_job v (j_auto r) (j_enreg r) (j_flag r) (j_map r).
Definition set_j_auto (v : bool) (r : job) : job :=
  mk_job (j_en r) v (j_enreg r) (j_flag r) (j_map r).
Definition set_j_enreg (v : Z) (r : job) : job :=
  mk_job (j_en r) (j_auto r) v (j_flag r) (j_map r).
Definition set_j_flag (v : Z) (r : job) : job :=
  mk_job (j_en r) (j_auto r) (j_enreg r) v (j_map r).
Definition set_j_map (v : cronmap) (r : job) : job :=
  mk_job (j_en r) (j_auto r) (j_enreg r) (j_flag r) v.

(** Cron table: ladderlib_cron.h (LADDERLIB_CRON_S). *)
Record cron : Type := mk_cron {
  cr_jobs : option (list job);
  cr_qty : nat;
  cr_used : nat }.

Definition set_cr_jobs (v : option (list job)) (r : cron) : cron :=
  mk_cron v (cr_qty r) (cr_used r).
Definition set_cr_qty (v : nat) (r : cron) : cron :=
  mk_cron (cr_jobs r) v (cr_used r).
Definition set_cr_used (v : nat) (r : cron) : cron :=
  mk_cron (cr_jobs r) (cr_qty r) v.

(** The context: ladder.h (ladder_ctx_s). [x_exec] is the index of the network exec_network points to. *)
Record ctx : Type := mk_ctx {
  x_state : lstate;
  x_wof : bool;
  x_last : lastinfo;
  x_q : qty;
  x_io : hwio;
  x_h : hooks;
  x_mem : mem;
  x_prev : prev;
  x_in : option (list inmod);
  x_out : option (list outmod);
  x_regs : regs;
  x_tm : option (list timer);
  x_si : scanint;
  x_net : option (list network);
  x_exec : option nat;
  x_for : foreign;
  x_cron : option cron }.

Definition set_x_state (v : lstate) (r : ctx) : ctx :=
  mk_ctx v (x_wof r) (x_last r) (x_q r) (x_io r) (x_h r) (x_mem r) (x_prev r) (x_in r) (x_out r) (x_regs r) (x_tm r) (x_si r) (x_net r) (x_exec r) (x_for r) (x_cron r).
Definition set_x_wof (v : bool) (r : ctx) : ctx :=
  mk_ctx (x_state r) v (x_last r) (x_q r) (x_io r) (x_h r) (x_mem r) (x_prev r) (x_in r) (x_out r) (x_regs r) (x_tm r) (x_si r) (x_net r) (x_exec r) (x_for r) (x_cron r).
Definition set_x_last (v : lastinfo) (r : ctx) : ctx :=
  mk_ctx (x_state r) (x_wof r) v (x_q r) (x_io r) (x_h r) (x_mem r) (x_prev r) (x_in r) (x_out r) (x_regs r) (x_tm r) (x_si r) (x_net r) (x_exec r) (x_for r) (x_cron r).
Definition set_x_q (v : qty) (r : ctx) : ctx :=
  mk_ctx (x_state r) (x_wof r) (x_last r) v (x_io r) (x_h r) (x_mem r) (x_prev r) (x_in r) (x_out r) (x_regs r) (x_tm r) (x_si r) (x_net r) (x_exec r) (x_for r) (x_cron r).
Definition set_x_io (v : hwio) (r : ctx) : ctx :=
  mk_ctx (x_state r) (x_wof r) (x_last r) (x_q r) v (x_h r) (x_mem r) (x_prev r) (x_in r) (x_out r) (x_regs r) (x_tm r) (x_si r) (x_net r) (x_exec r) (x_for r) (x_cron r).
Definition set_x_h (v : hooks) (r : ctx) : ctx :=
  mk_ctx (x_state r) (x_wof r) (x_last r) (x_q r) (x_io r) v (x_mem r) (x_prev r) (x_in r) (x_out r) (x_regs r) (x_tm r) (x_si r) (x_net r) (x_exec r) (x_for r) (x_cron r).
Definition set_x_mem (v : mem) (r : ctx) : ctx :=
  mk_ctx (x_state r) (x_wof r) (x_last r) (x_q r) (x_io r) (x_h r) v (x_prev r) (x_in r) (x_out r) (x_regs r) (x_tm r) (x_si r) (x_net r) (x_exec r) (x_for r) (x_cron r).
Definition set_x_prev (v : prev) (r : ctx) : ctx :=
  mk_ctx (x_state r) (x_wof r) (x_last r) (x_q r) (x_io r) (x_h r) (x_mem r) v (x_in r) (x_out r) (x_regs r) (x_tm r) (x_si r) (x_net r) (x_exec r) (x_for r) (x_cron r).
Definition set_x_in (v : option (list inmod)) (r : ctx) : ctx :=
  mk_ctx (x_state r) (x_wof r) (x_last r) (x_q r) (x_io r) (x_h r) (x_mem r) (x_prev r) v (x_out r) (x_regs r) (x_tm r) (x_si r) (x_net r) (x_exec r) (x_for r) (x_cron r).
Definition set_x_out (v : option (list outmod)) (r : ctx) : ctx :=
  mk_ctx (x_state r) (x_wof r) (x_last r) (x_q r) (x_io r) (x_h r) (x_mem r) (x_prev r) (x_in r) v (x_regs r) (x_tm r) (x_si r) (x_net r) (x_exec r) (x_for r) (x_cron r).
Definition set_x_regs (v : regs) (r : ctx) : ctx :=
  mk_ctx (x_state r) (x_wof r) (x_last r) (x_q r) (x_io r) (x_h r) (x_mem r) (x_prev r) (x_in r) (x_out r) v (x_tm r) (x_si r) (x_net r) (x_exec r) (x_for r) (x_cron r).
Definition set_x_tm (v : option (list timer)) (r : ctx) : ctx :=
  mk_ctx (x_state r) (x_wof r) (x_last r) (x_q r) (x_io r) (x_h r) (x_mem r) (x_prev r) (x_in r) (x_out r) (x_regs r) v (x_si r) (x_net r) (x_exec r) (x_for r) (x_cron r).
Definition set_x_si (v : scanint) (r : ctx) : ctx :=
  mk_ctx (x_state r) (x_wof r) (x_last r) (x_q r) (x_io r) (x_h r) (x_mem r) (x_prev r) (x_in r) (x_out r) (x_regs r) (x_tm r) v (x_net r) (x_exec r) (x_for r) (x_cron r).
Definition set_x_net (v : option (list network)) (r : ctx) : ctx :=
  mk_ctx (x_state r) (x_wof r) (x_last r) (x_q r) (x_io r) (x_h r) (x_mem r) (x_prev r) (x_in r) (x_out r) (x_regs r) (x_tm r) (x_si r) v (x_exec r) (x_for r) (x_cron r).
Definition set_x_exec (v : option nat) (r : ctx) : ctx :=
  mk_ctx (x_state r) (x_wof r) (x_last r) (x_q r) (x_io r) (x_h r) (x_mem r) (x_prev r) (x_in r) (x_out r) (x_regs r) (x_tm r) (x_si r) (x_net r) v (x_for r) (x_cron r).
Definition set_x_for (v : foreign) (r : ctx) : ctx :=
  mk_ctx (x_state r) (x_wof r) (x_last r) (x_q r) (x_io r) (x_h r) (x_mem r) (x_prev r) (x_in r) (x_out r) (x_regs r) (x_tm r) (x_si r) (x_net r) (x_exec r) v (x_cron r).
Definition set_x_cron (v : option cron) (r : ctx) : ctx :=
  mk_ctx (x_state r) (x_wof r) (x_last r) (x_q r) (x_io r) (x_h r) (x_mem r) (x_prev r) (x_in r) (x_out r) (x_regs r) (x_tm r) (x_si r) (x_net r) (x_exec r) (x_for r) v.

(** Union members of an operand (little endian): value.mp.module and value.mp.port, value.u32. *)
Definition v_module (v : value) : Z := u32 (v_raw v) mod 2 ^ 8.
Definition v_port (v : value) : Z := (u32 (v_raw v) / 2 ^ 8) mod 2 ^ 8.

(** Calls to the outside world. [EvWrite n q qw] records the output values the write function of module
    [n] finds in the context. *)
Inductive event : Type :=
| EvMillis (t : Z) | EvDelay (ms : Z) | EvPanic | EvInstr | EvScanEnd | EvBefore | EvAfter
| EvRead (n : nat) | EvWrite (n : nat) (q qw : arr) | EvEnd
| EvForeign (id col row : nat) | EvTime
| EvInitRead (n : nat) (init : bool) | EvInitWrite (n : nat) (init : bool) | EvForeignInit (qty : Z)
| EvForeignDeinit (id : Z).

(** Broken-down local time (time.h struct tm). *)
Record tm : Type := mk_tm { tm_sec : Z; tm_min : Z; tm_hour : Z; tm_mday : Z; tm_mon : Z; tm_wday : Z; tm_year : Z }.

(** The environment of the library. The first argument of each function is the number of external calls
    made so far, so that successive calls may behave differently. [act] is the effect of a call (or of any
    other code running meanwhile) on the context; [fexec] the foreign functions; [wall] the local time;
    [ext_ok] the boolean results of init callbacks and of allocations. *)
Record env : Type := mk_env {
  clk : nat -> Z;
  act : nat -> event -> ctx -> ctx;
  fexec : nat -> nat -> nat -> nat -> ctx -> err * ctx;
  wall : nat -> tm;
  ext_ok : nat -> bool;
  finit : nat -> fdesc -> bool * fdesc }.

(** Program state: the context and the external calls made so far (newest first). *)
Record st : Type := mk_st { s_ctx : ctx; s_tr : list event }.

(** State and outcome monad in which the C functions are written. *)
Definition M (A : Type) : Type := st -> res (A * st).
Definition ret {A} (a : A) : M A := fun s => Ok (a, s).
Definition bind {A B} (m : M A) (k : A -> M B) : M B :=
  fun s => match m s with Ok (a, s') => k a s' | Bad u => Bad u | NoFuel => NoFuel end.
Definition bad {A} (u : ub) : M A := fun _ => Bad u.
Definition nofuel {A} : M A := fun _ => NoFuel.
Definition lift {A} (r : res A) : M A :=
  fun s => match r with Ok a => Ok (a, s) | Bad u => Bad u | NoFuel => NoFuel end.
Definition getc : M ctx := fun s => Ok (s_ctx s, s).
Definition modc (f : ctx -> ctx) : M unit := fun s => Ok (tt, mk_st (f (s_ctx s)) (s_tr s)).
(** Update through a partial function of the context. *)
Definition updc (f : ctx -> res ctx) : M unit :=
  fun s => match f (s_ctx s) with Ok c => Ok (tt, mk_st c (s_tr s)) | Bad u => Bad u | NoFuel => NoFuel end.

Declare Scope m_scope.
Delimit Scope m_scope with m.
Notation "x <- a ;; b" := (bind a (fun x => b)) (at level 61, a at next level, right associativity) : m_scope.
Notation "a ;;; b" := (bind a (fun _ => b)) (at level 61, right associativity) : m_scope.
Notation "'let?' x := a 'in' b" := (rbind a (fun x => b)) (at level 200, x name, a at level 100, b at level 200, right associativity) : m_scope.
Open Scope m_scope.

(** An external call: record it and let the environment act on the context. *)
Definition emit (E : env) (ev : event) : M unit :=
  fun s => Ok (tt, mk_st (act E (length (s_tr s)) ev (s_ctx s)) (ev :: s_tr s)).

(** hw.time.millis(): a uint64_t. *)
Definition millis (E : env) : M Z :=
  fun s => let t := u64 (clk E (length (s_tr s))) in (emit E (EvMillis t) ;;; ret t) s.

(** if (on.panic != NULL) on.panic(ctx); *)
Definition panic (E : env) : M unit :=
  c <- getc ;; if h_panic (x_h c) then emit E EvPanic else ret tt.

Definition set_state (s : lstate) : M unit := modc (set_x_state s).
Definition set_err (e : err) : M unit := modc (fun c => set_x_last (set_l_err e (x_last c)) c).
