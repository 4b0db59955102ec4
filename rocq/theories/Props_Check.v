(** Property theorems: the program checker (C40). *)
From Verif Require Import P_Check Demo.
From Verif Require Import DemoTask.

(** ** C40 *)

(** C40: exactly the programs that follow the rules are accepted: every register operand (reals excepted) and every port is
    inside the configured banks and modules, the operands have types the instruction takes, timers have a timer and a time
    base, and the rows of multi-row instructions are in order. *)
Theorem C40_accepts : forall c, checkable c -> accepts c <-> has_cells c /\ obeys c.
Proof. exact C40_accepts_l. Qed.
Print Assumptions C40_accepts.

(** C40: unless an operand names the module after the last one the checker always finishes with a status; it names a cell of
    the program and its instruction. *)
Theorem C40_finishes : forall c, checkable c -> ~ one_too_many c ->
  exists st, program_check c = Ok st /\ (st <> None <-> has_cells c)
    /\ forall s, st = Some s -> program_cell c (ps_net s) (ps_row s) (ps_col s) /\ ps_code s = code_at c (ps_net s) (ps_row s) (ps_col s).
Proof. exact C40_finishes_l. Qed.
Print Assumptions C40_finishes.

(** C40: on a machine whose memory is laid out as configured, a program that is accepted, and whose instructions have all
    their operands, can be scanned any number of times without a read or write outside the banks, modules and cells. The
    hypothesis [complete] lists what the checker leaves unchecked. *)
Theorem C40_safe_partial : forall E W n s, polite E W -> (forall k, calendar (wall E k)) ->
  laid_out (s_ctx s) -> accepts (s_ctx s) -> complete (s_ctx s) ->
  (exists s', many_scans E n s = Ok (tt, s')) \/ exists u, many_scans E n s = Bad u /\ arithmetic u.
Proof. exact C40_safe_partial_l. Qed.
Print Assumptions C40_safe_partial.

(** C40: nor does the task then, however long it runs. *)
Theorem C40_task_partial : forall E W n s, behaved E W -> tables_ok (s_ctx s) -> laid_out (s_ctx s) -> accepts (s_ctx s) -> complete (s_ctx s) ->
  (exists r s', ladder_task E n s = Ok (r, s')) \/ exists u, ladder_task E n s = Bad u /\ arithmetic u.
Proof. exact C40_task_partial_l. Qed.
Print Assumptions C40_task_partial.

(** C40: a timer whose time base is 10 ms or one minute is refused if its preset is not also the number of a memory flag or
    counter: the type field of the preset is taken for a register type. *)
Theorem C40_time_base : forall c n r col bar i dq v, checkable c -> program_cell c n r col ->
  peek c (LCell n r col) = Some (VCell bar i dq) -> timer_code i = true -> operand_at c n r col 1 v ->
  (basetime (v_type v) = Some 10 /\ ~ in_qty (v_raw v) (q_m (x_q c)) \/ basetime (v_type v) = Some 60000 /\ ~ in_qty (v_raw v) (q_c (x_q c))) ->
  ~ accepts c.
Proof. exact C40_time_base_l. Qed.
Print Assumptions C40_time_base.

(** C40 is false of instructions without operands: a coil that has none is accepted, and scanning it dereferences NULL. *)
Theorem C40_operand_refuted : exists c E, laid_out c /\ accepts c /\ ladder_scan E (start c) = Bad UB_null.
Proof. exact C40_operand_refuted_l. Qed.
Print Assumptions C40_operand_refuted.

(** C40 is false of tables: TMOVE from a network that does not exist is accepted, and scanning it reads outside the networks. *)
Theorem C40_table_refuted : exists c E, laid_out c /\ accepts c /\ ladder_scan E (start c) = Bad UB_oob.
Proof. exact C40_table_refuted_l. Qed.
Print Assumptions C40_table_refuted.

(** C40: an operand that names the module after the last one makes the checker itself read outside the module table. *)
Theorem C40_module_refuted : exists c, laid_out c /\ program_check c = Bad UB_oob.
Proof. exact C40_module_refuted_l. Qed.
Print Assumptions C40_module_refuted.

(** C40 is false of reals: an operand with a register number outside the bank of reals is accepted. *)
Theorem C40_real_refuted : exists c n r col d v, laid_out c /\ accepts c /\ operand_at c n r col d v /\ bad_index c v.
Proof. exact C40_real_refuted_l. Qed.
Print Assumptions C40_real_refuted.
(** A program with contacts, a timer, a counter, arithmetic and coils is accepted; it meets all hypotheses. *)
Definition more (i : ins) : cell := mk_cell false false i 0 None.
Definition good_rows : list (list cell) :=
  [[cellv I_NO [V R_I 0]; cellv I_TON [V R_T 1; V R_Q 50]; cellv I_COIL [V R_Q 256]];
   [cellv I_RE [V R_M 2]; more I_MULTI; cellv I_COILL [V R_M 3]];
   [cellv I_NC [V R_Td 1]; cellv I_ADD [V R_D 0; V R_NONE 7; V R_D 2]; more I_NOP];
   [more I_NOP; more I_MULTI; cellv I_CTU [V R_C 2; V R_NONE 3]];
   [more I_CONN; more I_MULTI; more I_MULTI]].
Definition with_row (r : nat) (x : list cell) : list (list cell) := firstn r good_rows ++ x :: skipn (S r) good_rows.
Example C40_example_accepted : laid_out (demo good_rows) /\ accepts (demo good_rows) /\ complete (demo good_rows).
Proof. split; [apply laid_outb_ok; vm_compute; reflexivity|]. split; [apply acceptsb_ok; vm_compute; reflexivity|apply completeb_ok; vm_compute; reflexivity]. Qed.
(** Faulty programs are refused, with the place and the kind of the fault. *)
Example C40_example_refused :
  program_check (demo (with_row 1 [cellv I_RE [V R_M 4]; more I_MULTI; cellv I_COILL [V R_M 3]])) = Ok (Some (mk_pstatus 0 1 0 P_FAIL I_RE))
  /\ program_check (demo (with_row 1 [cellv I_RE [V R_M 2]; more I_NOP; cellv I_COILL [V R_M 3]])) = Ok (Some (mk_pstatus 0 1 1 P_MISSING_MULTI I_NOP))
  /\ program_check (demo (with_row 3 [more I_NOP; more I_MULTI; more I_NOP])) = Ok (Some (mk_pstatus 0 4 2 P_DANGLING I_MULTI))
  /\ program_check (demo (with_row 1 [cellv I_RE [V R_I 2]; more I_MULTI; cellv I_COILL [V R_M 3]])) = Ok (Some (mk_pstatus 0 1 0 P_I_MODULE I_RE))
  /\ program_check (demo (with_row 1 [cellv I_RE [V R_I 512]; more I_MULTI; cellv I_COILL [V R_M 3]])) = Ok (Some (mk_pstatus 0 1 0 P_I_PORT I_RE))
  /\ program_check (demo (with_row 4 [more I_CONN; more I_MULTI; cellv I_CTU [V R_C 2; V R_NONE 3]])) = Ok (Some (mk_pstatus 0 4 2 P_MISSING_MULTI I_CTU)).
Proof. vm_compute. repeat split; reflexivity. Qed.
(** Five units of 10 ms are refused because there is no memory flag 5. *)
Definition slow_rows : list (list cell) := with_row 0 [cellv I_NO [V R_I 0]; cellv I_TON [V R_T 1; V R_M 5]; cellv I_COIL [V R_Q 256]].
Example C40_example_time_base : checkable (demo slow_rows) /\ program_cell (demo slow_rows) 0 0 1 /\ peek (demo slow_rows) (LCell 0 0 1) = Some (VCell false I_TON 2)
  /\ operand_at (demo slow_rows) 0 0 1 1 (V R_M 5) /\ basetime R_M = Some 10 /\ ~ in_qty 5 (q_m (x_q (demo slow_rows)))
  /\ program_check (demo slow_rows) = Ok (Some (mk_pstatus 0 0 1 P_FAIL I_TON)).
Proof.
  split; [apply checkableb_ok; vm_compute; reflexivity|]. split; [split; [vm_compute; auto|do 3 eexists; split; [reflexivity|split; vm_compute; auto]]|].
  split; [reflexivity|]. split; [decide_op|]. split; [reflexivity|]. split; [unfold in_qty; simpl; lia|vm_compute; reflexivity].
Qed.
