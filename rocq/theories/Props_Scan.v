(** Property theorems: whole program scans: disabled networks, termination and watchdog, faults, write sets (C25, C26, C27, C42). *)
From Verif Require Import P_Scan Demo.

(** ** C42 *)

(** C42: a scan changes nothing outside its write set: status, power of scanned cells, the registers named by the
    program's instructions, cron flags, and what the code outside the library changes. *)
Theorem C42_write_set : forall E W s s',
  env_writes E W -> (forall l, W l -> ~ is_layout l) ->
  (forall k, peek (s_ctx s) LNets = Some (VN k) -> Z.of_nat k <= 2 ^ 32) ->
  scans E s s' ->
  changes_only (s_ctx s) (s_ctx s') (fun l => scan_writes (s_ctx s) l \/ W l).
Proof. exact C42_write_set_l. Qed.
Print Assumptions C42_write_set.

(** C42: a register that no instruction of a scanned network names as destination, timer or counter, and that is not
    a cron flag, keeps its value. *)
Theorem C42_unnamed_register : forall E W s s' b i,
  env_writes E W -> (forall l, W l -> ~ is_layout l) ->
  (forall k, peek (s_ctx s) LNets = Some (VN k) -> Z.of_nat k <= 2 ^ 32) ->
  scans E s s' ->
  (forall n r col code, in_program (s_ctx s) n r col code -> ~ names (s_ctx s) code n r col (LReg b i)) ->
  ~ cron_flag (s_ctx s) (LReg b i) -> ~ W (LReg b i) ->
  peek (s_ctx s') (LReg b i) = peek (s_ctx s) (LReg b i).
Proof. exact C42_unnamed_register_l. Qed.
Print Assumptions C42_unnamed_register.

(** C42: an input keeps its value unless an instruction names it as destination. *)
Theorem C42_inputs : forall E W s s' m k i,
  env_writes E W -> (forall l, W l -> ~ is_layout l) ->
  (forall k, peek (s_ctx s) LNets = Some (VN k) -> Z.of_nat k <= 2 ^ 32) ->
  scans E s s' ->
  (forall n r col code j v, in_program (s_ctx s) n r col code -> dest_operand code = Some j ->
     peek (s_ctx s) (LData n r col j) = Some (VVal v) -> target (s_ctx s) v <> Some (LIn m k i)) ->
  ~ W (LIn m k i) ->
  peek (s_ctx s') (LIn m k i) = peek (s_ctx s) (LIn m k i).
Proof. exact C42_inputs_l. Qed.
Print Assumptions C42_inputs.
(* A coil on M1 and a move to D3: M3 and D0 are named by nobody. *)
Example C42_case :
  let c := demo_nets [net_on true [[cellv I_NO [V R_M 0]; cellv I_COIL [V R_M 1]]; [cellv I_MOVE [V R_D 0; V R_D 3]; cellv I_NOP []]]] in
  scans quiet_env (start c) (scan_st quiet_env c)
  /\ peek c (LReg B_M 1) = Some (VZ 0) /\ peek (scan_of quiet_env c) (LReg B_M 1) = Some (VZ 1)
  /\ peek c (LReg B_D 3) = Some (VZ 0) /\ peek (scan_of quiet_env c) (LReg B_D 3) = Some (VZ 10)
  /\ peek (scan_of quiet_env c) (LReg B_M 3) = peek c (LReg B_M 3).
Proof. vm_compute. repeat split; reflexivity. Qed.

(** ** C25 *)

(** C25: everything belonging to a disabled network is unchanged by a scan, except first operands when the program
    contains a TMOVE. *)
Theorem C25_disabled_untouched : forall E W s s' n rows cols l,
  env_writes E W -> (forall l, W l -> ~ is_layout l) ->
  (forall k, peek (s_ctx s) LNets = Some (VN k) -> Z.of_nat k <= 2 ^ 32) ->
  scans E s s' ->
  peek (s_ctx s) (LNet n) = Some (VNet false rows cols) ->
  (exists r col, l = LPow n r col \/ l = LCell n r col \/ l = LDataLen n r col \/ l = LRowLen n r \/ l = LRows n
     \/ l = LNet n \/ exists i, l = LData n r col i /\
        (i <> 0%nat \/ forall n' r' col', ~ in_program (s_ctx s) n' r' col' I_TMOVE)) ->
  ~ W l ->
  peek (s_ctx s') l = peek (s_ctx s) l.
Proof. exact C25_disabled_untouched_l. Qed.
Print Assumptions C25_disabled_untouched.

(** C25: the instructions a scan executes all belong to enabled networks. *)
Theorem C25_only_enabled_run : forall c n r col, In (n, r, col) (program_cells c) ->
  exists rows cols, scanned c n rows cols /\ (r < rows)%nat /\ (col < cols)%nat.
Proof. exact C25_only_enabled_run_l. Qed.
Print Assumptions C25_only_enabled_run.

(** C25: the scan executes, in order, some beginning of that list of cells and then at most one more of it that fails. *)
Theorem C25_executed : forall E W m s s', scan_ready E W (s_ctx s) m -> scans E s s' ->
  exists s0 s1 before rest, cron_step E s s0 /\ program_cells (s_ctx s) = before ++ rest /\ executes E W before s0 s1
    /\ (changes_only (s_ctx s1) (s_ctx s') (fun l => l = LErr \/ l = LState \/ W l)
        \/ exists n r col e s2, In (n, r, col) rest /\ executed E n r col s1 e s2
             /\ changes_only (s_ctx s2) (s_ctx s') (fun l => l = LErr \/ l = LState)).
Proof. exact C25_executed_l. Qed.
Print Assumptions C25_executed.
(* Network 0 is a disabled table holding 4 and 5; network 1 moves a value into it; network 2 is disabled and has a coil. *)
Example C25_case :
  let c := demo_nets [net_on false [[cellv I_NOP [V R_D 4]; cellv I_NOP [V R_D 5]]];
                      net_on true [[cellv I_NO [V R_M 0]; cellv I_COIL [V R_M 1]]];
                      net_on false [[cellv I_CONN []; cellv I_COIL [V R_M 3]]]] in
  scan_ready quiet_env (fun _ => False) c 1000 /\ scans quiet_env (start c) (scan_st quiet_env c)
  /\ program_cells c = [(1, 0, 0); (1, 0, 1)]%nat
  /\ peek (scan_of quiet_env c) (LReg B_M 1) = Some (VZ 1) /\ peek (scan_of quiet_env c) (LReg B_M 3) = Some (VZ 0).
Proof.
  intros c. split; [apply (readyb_ok c (fun k => 10 * Z.of_nat k)); vm_compute; reflexivity|]. vm_compute. repeat split; reflexivity.
Qed.

(** ** C26 *)

(** C26: a scan never runs for ever, whatever the program, the registers and the limit, as long as the code outside the
    library leaves the program layout alone. *)
Theorem C26_terminates : forall E W s, env_writes E W -> (forall l, W l -> ~ is_layout l) ->
  (forall k, peek (s_ctx s) LNets = Some (VN k) -> Z.of_nat k <= 2 ^ 32) -> ladder_scan E s <> NoFuel.
Proof. exact C26_terminates_l. Qed.
Print Assumptions C26_terminates.

(** C26: if some network needs more iterations than the limit, the scan ends in state ERROR with error OVERFLOW, unless
    an instruction failed before that. *)
Theorem C26_watchdog_stops : forall E W m s s' n,
  scan_ready E W (s_ctx s) m -> scans E s s' -> (n < q_nets (x_q (s_ctx s)))%nat -> m < cost (s_ctx s) n ->
  (peek (s_ctx s') LState = Some (VState S_ERROR) /\ peek (s_ctx s') LErr = Some (VErr E_OVERFLOW))
  \/ (exists s0 n' r col e, cron_step E s s0 /\ scan_fault E W (s_ctx s) s0 s' n' r col e).
Proof. exact C26_watchdog_stops_l. Qed.
Print Assumptions C26_watchdog_stops.

(** C26: if no network does, the scan runs to completion or to the first failing instruction. *)
Theorem C26_no_interference : forall E W m s s',
  scan_ready E W (s_ctx s) m -> scans E s s' -> (forall n, (n < q_nets (x_q (s_ctx s)))%nat -> cost (s_ctx s) n <= m) ->
  exists s0, cron_step E s s0
    /\ (scan_complete E W (s_ctx s) s0 s' \/ exists n r col e, scan_fault E W (s_ctx s) s0 s' n r col e).
Proof. exact C26_no_interference_l. Qed.
Print Assumptions C26_no_interference.

(** C26: a complete scan needed no more iterations than the limit in any network. *)
Theorem C26_within_limit : forall E W m s s' st0,
  scan_ready E W (s_ctx s) m -> scans E s s' ->
  peek (s_ctx s) LState = Some (VState st0) -> st0 <> S_INV -> st0 <> S_ERROR -> peek (s_ctx s') LState = Some (VState st0) ->
  forall n, (n < q_nets (x_q (s_ctx s)))%nat -> cost (s_ctx s) n <= m.
Proof. exact C26_within_limit_l. Qed.
Print Assumptions C26_within_limit.

(** C26: the number of iterations of a network is at most rows * (1 + columns * rows). *)
Theorem C26_iterations : forall c n en rows cols, peek c (LNet n) = Some (VNet en rows cols) ->
  cost c n <= Z.of_nat rows * (1 + Z.of_nat cols * Z.of_nat rows).
Proof. exact C26_iterations_l. Qed.
Print Assumptions C26_iterations.
(* Two rungs of two cells need six iterations: a limit of 6 lets the scan complete, a limit of 5 stops it. *)
Example C26_case :
  let c := demo_nets [net_on true [[cellv I_CONN []; cellv I_COIL [V R_M 1]]; [cellv I_CONN []; cellv I_COIL [V R_M 3]]]] in
  let c6 := set_x_si (set_si_maxcyc 6 (x_si c)) c in
  let c5 := set_x_si (set_si_maxcyc 5 (x_si c)) c in
  cost c 0 = 6
  /\ scan_ready quiet_env (fun _ => False) c6 6 /\ scans quiet_env (start c6) (scan_st quiet_env c6)
  /\ peek (scan_of quiet_env c6) LState = Some (VState S_RUNNING) /\ peek (scan_of quiet_env c6) (LReg B_M 3) = Some (VZ 1)
  /\ scan_ready quiet_env (fun _ => False) c5 5 /\ scans quiet_env (start c5) (scan_st quiet_env c5)
  /\ peek (scan_of quiet_env c5) LState = Some (VState S_ERROR) /\ peek (scan_of quiet_env c5) (LReg B_M 3) = Some (VZ 0).
Proof.
  intros c c6 c5. split; [vm_compute; reflexivity|].
  split; [apply (readyb_ok c6 (fun k => 10 * Z.of_nat k)); vm_compute; reflexivity|].
  split; [vm_compute; reflexivity|]. split; [vm_compute; reflexivity|]. split; [vm_compute; reflexivity|].
  split; [apply (readyb_ok c5 (fun k => 10 * Z.of_nat k)); vm_compute; reflexivity|].
  vm_compute. repeat split; reflexivity.
Qed.

(** ** C27 *)

(** C27: a scan executes the cells of the program in order up to the end, up to the first that fails, or up to the
    watchdog; these exclude one another by the final state. *)
Theorem C27_stops_at_first_fault : forall E W m s s',
  scan_ready E W (s_ctx s) m -> scans E s s' ->
  exists s0, cron_step E s s0 /\
   ((scan_complete E W (s_ctx s) s0 s' /\ forall n, (n < q_nets (x_q (s_ctx s)))%nat -> cost (s_ctx s) n <= m)
    \/ (exists n r col e, scan_fault E W (s_ctx s) s0 s' n r col e)
    \/ (exists n, (n < q_nets (x_q (s_ctx s)))%nat /\ m < cost (s_ctx s) n /\ scan_overrun E W (s_ctx s) s0 s' n)).
Proof. exact C27_stops_at_first_fault_l. Qed.
Print Assumptions C27_stops_at_first_fault.

(** C27: a scan that ends in state INV was stopped by the first instruction that returned an error: no call to the
    outside and no change besides state and error followed it, and last.network, row, column, instr and err
    identify it. *)
Theorem C27_fault_identified : forall E W m s s',
  scan_ready E W (s_ctx s) m -> scans E s s' ->
  peek (s_ctx s) LState <> Some (VState S_INV) -> peek (s_ctx s') LState = Some (VState S_INV) ->
  exists s0 n r col e, cron_step E s s0 /\ scan_fault E W (s_ctx s) s0 s' n r col e.
Proof. exact C27_fault_identified_l. Qed.
Print Assumptions C27_fault_identified.

(** C27, finding: the part about invalid codes is false. The table consulted before executing a column has no entry for
    them, so a single invalid cell makes the scan read out of bounds instead of ending in state INV. *)
Theorem C27_invalid_code_refuted : exists E c, in_program c 0 0 0 I_INV /\ ladder_scan E (start c) = Bad UB_oob.
Proof. exact C27_invalid_code_refuted_l. Qed.
Print Assumptions C27_invalid_code_refuted.
(* An invalid code below a coil in one group is executed: the state becomes INV. *)
Example C27_invalid_in_group :
  let c := demo [[cellv I_COIL [V R_M 1]]; [bar (cellv I_INV [])]] in
  peek (scan_of quiet_env c) LState = Some (VState S_INV) /\ peek (scan_of quiet_env c) LErr = Some (VErr E_FAIL)
  /\ peek (scan_of quiet_env c) LLast = Some (VLast 37 0 0 1).
Proof. vm_compute. repeat split; reflexivity. Qed.
(* The second rung moves to a register that does not exist: the coil of the third rung is not executed. *)
Example C27_case :
  let c := demo_nets [net_on true [[cellv I_CONN []; cellv I_COIL [V R_M 1]]; [cellv I_CONN []; cellv I_MOVE [V R_D 0; V R_D 9]];
                                   [cellv I_CONN []; cellv I_COIL [V R_M 3]]]] in
  scan_ready quiet_env (fun _ => False) c 1000 /\ scans quiet_env (start c) (scan_st quiet_env c)
  /\ peek (scan_of quiet_env c) LState = Some (VState S_INV) /\ peek (scan_of quiet_env c) LLast = Some (VLast (ins_code I_MOVE) 0 1 1)
  /\ peek (scan_of quiet_env c) (LReg B_M 1) = Some (VZ 1) /\ peek (scan_of quiet_env c) (LReg B_M 3) = Some (VZ 0).
Proof.
  intros c. split; [apply (readyb_ok c (fun k => 10 * Z.of_nat k)); vm_compute; reflexivity|]. vm_compute. repeat split; reflexivity.
Qed.
