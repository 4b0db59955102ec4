(** Vocabulary for statements about machines in which the panic hook is not called. *)
From Verif Require Export SpecCall.

(** Everything whose absence the library treats as a panic is there: registers, networks with cells, modules, a function in every
    slot of the tables in use, the time functions. There is no watchdog. *)
Record equipped (c : ctx) : Prop := {
  eq_banks : m_M (x_mem c) <> None /\ m_Cr (x_mem c) <> None /\ m_Cd (x_mem c) <> None /\ m_Tr (x_mem c) <> None /\ m_Td (x_mem c) <> None;
  eq_regs : r_C (x_regs c) <> None /\ r_D (x_regs c) <> None /\ r_R (x_regs c) <> None /\ x_tm c <> None;
  eq_nets : x_net c <> None;
  eq_cells : forall n nt, elem (x_net c) n = Some nt -> n_cells nt <> None;
  eq_in : forall n, (n < io_rq (x_io c))%nat -> x_in c <> None /\ elem (io_rd (x_io c)) n = Some true;
  eq_out : forall n, (n < io_wq (x_io c))%nat -> x_out c <> None /\ elem (io_wr (x_io c)) n = Some true;
  eq_time : h_millis (x_h c) = true /\ h_delay (x_h c) = true;
  eq_watchdog : q_wdg (x_q c) = 0 }.
(** Looking at every row in every column of every rung of a network takes at most four fifths of the cycles allowed: no network
    has more than [R] rows or [C] columns. *)
Definition roomy (c : ctx) : Prop :=
  exists R C, (forall n nt, elem (x_net c) n = Some nt -> (n_rows nt <= R)%nat /\ (n_cols nt <= C)%nat)
    /\ 5 * (Z.of_nat R * (1 + Z.of_nat C * Z.of_nat R)) <= 4 * si_maxcyc (x_si c).
(** The arrays for the values of the previous cycle exist. *)
Definition has_previous (c : ctx) : Prop :=
  p_M (x_prev c) <> None /\ p_Cr (x_prev c) <> None /\ p_Cd (x_prev c) <> None /\ p_Tr (x_prev c) <> None /\ p_Td (x_prev c) <> None.
(** Running, or asked to end. *)
Definition going (c : ctx) : Prop := x_state c = S_RUNNING \/ x_state c = S_EXIT_TSK.

(** What a call does to the state of the machine: nothing, or a request to end. The limit of cycles stays. *)
Definition asks_at_most (c c' : ctx) : Prop :=
  (x_state c' = x_state c \/ x_state c' = S_EXIT_TSK) /\ si_maxcyc (x_si c') = si_maxcyc (x_si c).
(** Apart from the panic hook, what is called leaves the shape as it is, and the pointer to the network being scanned, and changes
    the state of the machine at most to "end the task". *)
Record calm_calls (c0 : ctx) (E : env) : Prop := {
  cc_act : forall k ev c, ev <> EvPanic -> shape c = shape c0 -> due c ev -> shape (act E k ev c) = shape c0 /\ asks_at_most c (act E k ev c);
  cc_exec : forall k ev c, ev <> EvPanic -> shape c = shape c0 -> due c ev -> peek (act E k ev c) LExec = peek c LExec;
  cc_foreign : forall k id col row c, shape c = shape c0 -> due c (EvForeign id col row) ->
    shape (snd (fexec E k id col row c)) = shape c0 /\ asks_at_most c (snd (fexec E k id col row c)) }.
(** The environments behave alike in all calls that belong to a machine of the shape of [c0], except perhaps in the panic hook. *)
Record alike_but_panic (c0 : ctx) (E E' : env) : Prop := {
  ab_clock : forall k, clk E k = clk E' k;
  ab_time : forall k, wall E k = wall E' k;
  ab_act : forall k ev c, ev <> EvPanic -> shape c = shape c0 -> due c ev -> act E k ev c = act E' k ev c;
  ab_foreign : forall k id col row c, shape c = shape c0 -> due c (EvForeign id col row) -> fexec E k id col row c = fexec E' k id col row c }.

(** ** Machines that do not stop by themselves *)

(** The instructions whose functions return no error. *)
Definition cannot_fail (i : ins) : bool :=
  match i with
  | I_NOP | I_CONN | I_NEG | I_NO | I_NC | I_RE | I_FE | I_COIL | I_COILL | I_COILU | I_TON | I_TOF | I_TP | I_CTU | I_CTD
  | I_ADD | I_SUB | I_MUL | I_DIV | I_MOD | I_AND | I_OR | I_XOR | I_NOT | I_EQ | I_NE | I_GT | I_GE | I_LT | I_LE => true
  | _ => false
  end.
(** The networks contain such instructions and continuation marks only. *)
Definition sure (c : ctx) : Prop :=
  forall n r col bar i dq, peek c (LCell n r col) = Some (VCell bar i dq) -> cannot_fail i = true \/ i = I_MULTI.
(** The state of the machine and its table of cron jobs are as before. *)
Definition holds_on (c c' : ctx) : Prop := x_state c' = x_state c /\ x_cron c' = x_cron c.
(** No call asks for the end of the task or touches the table of cron jobs. *)
Record firm_calls (c0 : ctx) (E : env) : Prop := {
  fc_act : forall k ev c, ev <> EvPanic -> shape c = shape c0 -> due c ev -> holds_on c (act E k ev c);
  fc_foreign : forall k id col row c, shape c = shape c0 -> due c (EvForeign id col row) -> holds_on c (snd (fexec E k id col row c)) }.
