(** Property theorems: one cycle of the task (C28, C29, C32, C34). *)
From Verif Require Import P_Cycle Demo.
From Verif Require Import DemoTask.

(** ** C29 *)

(** C29: a cycle that does not fault calls: clock, the hook before, every read function once in order; then the scan with its
    calls; then every write function once in order with the outputs the scan left, clock, alarm of the scan-time watchdog,
    the padding delay and the hook after. Outside the scan it changes only statistics and histories (and the state after an
    alarm); everything else is done by the called functions. *)
Theorem C29_order : forall E W m s s', cycle_ready E W (s_ctx s) m -> cycle E s = Ok (T_continue, s') ->
  exists a b t0 t1 late pad scan, begins W s a t0 /\ scans E a b /\ calls a b scan /\ Forall scan_call scan /\ closes W b s' t1 late pad /\ (length pad <= 1)%nat
    /\ same_program (s_ctx s) (s_ctx a) /\ same_program (s_ctx s) (s_ctx b).
Proof. exact C29_order_l. Qed.
Print Assumptions C29_order.

(** C29: the same when the scan faults, except that the outputs handed over are those of C28 and there is no padding. *)
Theorem C29_order_fault : forall E W m s s', cycle_ready E W (s_ctx s) m -> cycle E s = Ok (T_exit, s') ->
  exists a b t0 t1 late scan ws c, begins W s a t0 /\ scans E a b /\ calls a b scan /\ Forall scan_call scan
    /\ calls b s' (ws ++ EvMillis t1 :: optional (late && h_panic (x_h (s_ctx s))) EvPanic ++ optional (h_after (x_h (s_ctx s))) EvAfter)
    /\ Forall2 (hands c) (seq 0 (io_wq (x_io (s_ctx s)))) ws.
Proof. exact C29_order_fault_l. Qed.
Print Assumptions C29_order_fault.

(** C29: hence the calls of any number of cycles are that many sequences of this form, each after some waiting delays. *)
Theorem C29_run : forall E W m k s s', cycle_ready E W (s_ctx s) m -> goes E W k s s' ->
  exists ls, length ls = k /\ calls s s' (concat ls) /\ Forall (iteration_calls (s_ctx s)) ls.
Proof. exact C29_run_l. Qed.
Print Assumptions C29_run.
(* One cycle of a contact on an input and a coil on an output: the input read from the module is 1, so the output handed over is 1. *)
Example C29_case :
  let E := task_env (fun k => 5 * Z.of_nat k) (fun k i => Z.of_nat (1 + i)) (fun _ => None) in
  let c := synced (demo_task [[cellv I_NO [V R_I 0]; cellv I_COIL [V R_Q 0]]]) in
  cycle_ready E task_w c 1000 /\ exists s', cycle E (start c) = Ok (T_continue, s')
  /\ calls (start c) s' [EvMillis 0; EvBefore; EvRead 0; EvInstr; EvInstr; EvScanEnd; EvWrite 0 (Some [1; 1]) (Some [0; 0]); EvMillis 35; EvAfter].
Proof. cbv zeta. split; [decide_cycle|]. eexists. split; vm_compute; reflexivity. Qed.
(* A context that waits twice before it is set running, and then runs two cycles. *)
Example C29_run_case :
  let E := task_env (fun k => 5 * Z.of_nat k) (fun k i => Z.of_nat (1 + i)) (fun k => if (k =? 1)%nat then Some S_RUNNING else None) in
  let c := set_x_state S_STOPPED (synced (demo_task [[cellv I_NO [V R_I 0]; cellv I_COIL [V R_Q 0]]])) in
  cycle_ready E task_w c 1000 /\ exists s', goes E task_w 2 (start c) s'
  /\ length (filter (fun ev => match ev with EvWrite _ _ _ => true | _ => false end) (s_tr s')) = 2%nat.
Proof.
  intros E c. split; [subst E c; cbv zeta; decide_cycle|].
  set (d := EvDelay (q_delay (x_q c))). set (s1 := mk_st c [d]). set (s2 := mk_st (set_x_state S_RUNNING c) [d; d]).
  set (s3 := match cycle E s2 with Ok (_, t) => t | _ => s2 end). set (s4 := match cycle E s3 with Ok (_, t) => t | _ => s3 end).
  assert (W : waits task_w 2 (start c) s2).
  { apply (wt_more _ _ _ s1); [vm_compute; intuition discriminate|reflexivity|apply changes_refl|].
    apply (wt_more _ _ _ s2); [vm_compute; intuition discriminate|reflexivity|apply state_changes|apply wt_done]. }
  exists s4. split; [|vm_compute; reflexivity].
  apply (go_cycle _ _ 2 1 _ s2 s3 s4 W); [lia|reflexivity|vm_compute; reflexivity|].
  apply (go_cycle _ _ 0 0 s3 s3 s4 s4); [apply wt_done|lia|vm_compute; reflexivity|vm_compute; reflexivity|apply go_none].
Qed.

(** ** C34 *)

(** C34: the delays of a cycle are: one of target minus measured milliseconds if there is a positive target and the cycle
    (from its first clock reading [t0] to the one after the writes, [t1]) was shorter; none otherwise. *)
Theorem C34_padding : forall E W m s s' si, cycle_ready E W (s_ctx s) m -> peek (s_ctx s) LStats = Some (VStats si) -> cycle E s = Ok (T_continue, s') ->
  exists a b t0 t1 late pad l, begins W s a t0 /\ scans E a b /\ closes W b s' t1 late pad /\ calls s s' l
    /\ filter is_delay l = map EvDelay pad
    /\ pad = (if (0 <? si_target si) && (lapse t0 t1 <? si_target si) then [si_target si - lapse t0 t1] else [])
    /\ late = alarm (s_ctx s) (lapse t0 t1).
Proof. exact C34_padding_l. Qed.
Print Assumptions C34_padding.

(** C34: a cycle that faults does not delay. *)
Theorem C34_fault_no_delay : forall E W m s s', cycle_ready E W (s_ctx s) m -> cycle E s = Ok (T_exit, s') ->
  exists l, calls s s' l /\ filter is_delay l = [].
Proof. exact C34_fault_no_delay_l. Qed.
Print Assumptions C34_fault_no_delay.
(* Target 100 ms: the cycle takes 35 ms and the rest, 65 ms, is waited. *)
Example C34_case :
  let E := task_env (fun k => 5 * Z.of_nat k) (fun k i => Z.of_nat (1 + i)) (fun _ => None) in
  let c := synced (demo_task [[cellv I_NO [V R_I 0]; cellv I_COIL [V R_Q 0]]]) in
  let c := set_x_si (set_si_target 100 (x_si c)) c in
  cycle_ready E task_w c 1000 /\ exists s', cycle E (start c) = Ok (T_continue, s') /\ lapse 0 35 = 35
  /\ calls (start c) s' [EvMillis 0; EvBefore; EvRead 0; EvInstr; EvInstr; EvScanEnd; EvWrite 0 (Some [1; 1]) (Some [0; 0]); EvMillis 35; EvDelay 65; EvAfter].
Proof. cbv zeta. split; [decide_cycle|]. eexists. split; [vm_compute; reflexivity|]. split; vm_compute; reflexivity. Qed.

(** ** C28 *)

(** C28: when the scan faults, the write functions of all modules in use get, with write_on_fault, the values that the outputs
    had when the cycle began, and zero otherwise; this holds for all outputs of modules that have digital outputs. At that
    moment the flags of memory, counters and timers have the values of their histories at the beginning of the cycle, the
    counter, D and R registers and timer accumulators are zero, and the state is EXIT_TSK. *)
Theorem C28_fault_outputs : forall E W m s s', cycle_ready E W (s_ctx s) m -> cycle E s = Ok (T_exit, s') ->
  exists a b c ws rest t0, begins W s a t0 /\ scans E a b /\ peek (s_ctx b) LState = Some (VState S_INV)
    /\ calls b s' (ws ++ rest) /\ Forall2 (hands c) (seq 0 (io_wq (x_io (s_ctx s)))) ws
    /\ (peek (s_ctx b) LWof = Some (VB true) -> forall l, output_kept (s_ctx s) l -> peek c l = peek (s_ctx s) l)
    /\ (peek (s_ctx b) LWof = Some (VB false) -> forall l, driven (s_ctx s) l -> peek c l = Some (VZ 0))
    /\ (forall l h, flag_place (s_ctx s) l -> past l = Some h -> peek c l = peek (s_ctx s) h)
    /\ (forall l, reg_place (s_ctx s) l -> peek c l = Some (VZ 0))
    /\ peek c LState = Some (VState S_EXIT_TSK)
    /\ (forall l, past l <> None -> peek (s_ctx s') l = peek c l)
    /\ Forall (fun ev => match ev with EvMillis _ | EvPanic | EvAfter => True | _ => False end) rest.
Proof. exact C28_fault_outputs_l. Qed.
Print Assumptions C28_fault_outputs.

(** C28: in a run where flags and outputs were remembered (C32), the flags get back the values they had when the cycle began. *)
Theorem C28_flags_rolled_back : forall E W m s s' l, cycle_ready E W (s_ctx s) m -> remembers (s_ctx s) -> cycle E s = Ok (T_exit, s') ->
  flag_place (s_ctx s) l -> peek (s_ctx s') l = peek (s_ctx s) l.
Proof. exact C28_flags_rolled_back_l. Qed.
Print Assumptions C28_flags_rolled_back.

(** C28: the task ends with such a cycle. *)
Theorem C28_ends : forall E k s s', peek (s_ctx s) LState = Some (VState S_RUNNING) -> cycle E s = Ok (T_exit, s') -> task_loop E (S k) s = Ok (Ended, s').
Proof. exact C28_ends_l. Qed.
Print Assumptions C28_ends.

(** C28, finding: a module without digital outputs is left out. Its write function gets what the faulting scan computed,
    neither the previous values nor zero. *)
Theorem C28_analog_only_actual : forall E W m s s', cycle_ready E W (s_ctx s) m -> cycle E s = Ok (T_exit, s') ->
  exists a b c ws rest t0, begins W s a t0 /\ scans E a b /\ calls b s' (ws ++ rest) /\ Forall2 (hands c) (seq 0 (io_wq (x_io (s_ctx s)))) ws
    /\ forall x i id qa, (x < io_wq (x_io (s_ctx s)))%nat -> peek (s_ctx s) (LOutMeta x) = Some (VMeta id 0 qa) ->
         peek c (LOut x K_QW i) = peek (s_ctx b) (LOut x K_QW i).
Proof. exact C28_analog_only_actual_l. Qed.
Print Assumptions C28_analog_only_actual.

(** C28 is violated by modules with analog outputs only: with write_on_fault, the write function gets the value 10 computed by
    the faulting scan, where the cycle began with 5. *)
Theorem C28_analog_refuted : exists E W m s s' x q qw w w', cycle_ready E W (s_ctx s) m /\ peek (s_ctx s) LWof = Some (VB true) /\ cycle E s = Ok (T_exit, s')
  /\ In (EvWrite x q qw) (s_tr s') /\ output_place (s_ctx s) (LOut x K_QW 0) /\ elem qw 0 = Some w /\ peek (s_ctx s) (LOut x K_QW 0) = Some (VZ w') /\ w <> w' /\ w <> 0.
Proof. exact C28_analog_refuted_l. Qed.
Print Assumptions C28_analog_refuted.
(* A coil sets output 0 and memory 1, then a MOVE faults: both get their old value back (write_on_fault), or the outputs are cleared. *)
Example C28_case : forall wof,
  let E := task_env (fun k => 5 * Z.of_nat k) (fun k i => Z.of_nat (1 + i)) (fun _ => None) in
  let c := set_x_wof wof (synced (demo_task [[cellv I_COIL [V R_Q 0]; cellv I_COIL [V R_M 1]; cellv I_MOVE [V R_D 0; V R_D 99]]])) in
  cycle_ready E task_w c 1000 /\ exists s', cycle E (start c) = Ok (T_exit, s')
  /\ calls (start c) s' [EvMillis 0; EvBefore; EvRead 0; EvInstr; EvInstr; EvWrite 0 (Some [0; if wof then 1 else 0]) (Some [0; 0]); EvMillis 30; EvAfter]
  /\ peek (s_ctx s') (LReg B_M 1) = Some (VZ 0) /\ peek (s_ctx s') (LReg B_D 0) = Some (VZ 0).
Proof. cbv zeta. intros [|]. all: split; [decide_cycle|]; eexists; split; [vm_compute; reflexivity|]; split; [vm_compute; reflexivity|split; reflexivity]. Qed.

(** ** C32 *)

(** C32: at every instruction of a cycle the history of every flag and of every output is the value the flag or output had when
    the cycle began, provided the histories were up to date then (as they are after every cycle, C32_run). *)
Theorem C32_flags_outputs : forall E W m s s' nx, cycle_ready E W (s_ctx s) m -> cycle E s = Ok (nx, s') -> remembers (s_ctx s) ->
  exists a b t0, begins W s a t0 /\ scans E a b /\ forall n r col t e t' l h, reaches E W a n r col t e t' ->
    flag_place (s_ctx s) l \/ output_place (s_ctx s) l -> past l = Some h -> peek (s_ctx t) h = peek (s_ctx s) l.
Proof. exact C32_flags_outputs_l. Qed.
Print Assumptions C32_flags_outputs.

(** C32: the history of an input is the value the input had when the cycle began (as read in the previous cycle). *)
Theorem C32_inputs : forall E W m s s' nx, cycle_ready E W (s_ctx s) m -> cycle E s = Ok (nx, s') ->
  exists a b t0, begins W s a t0 /\ scans E a b /\ forall n r col t e t' l h, reaches E W a n r col t e t' ->
    input_place (s_ctx s) l -> with_digital (s_ctx s) l -> past l = Some h -> peek (s_ctx t) h = peek (s_ctx s) l.
Proof. exact C32_inputs_l. Qed.
Print Assumptions C32_inputs.

(** C32: every cycle without fault leaves the histories of flags and outputs up to date, whatever they were before, and waiting
    keeps them so; the assumptions about a cycle also hold again. So the theorems about a cycle apply to every cycle of a run. *)
Theorem C32_run : forall E W m k s s', cycle_ready E W (s_ctx s) m -> goes E W k s s' -> (0 < k)%nat \/ remembers (s_ctx s) ->
  remembers (s_ctx s') /\ cycle_ready E W (s_ctx s') m /\ same_program (s_ctx s) (s_ctx s').
Proof. exact C32_run_l. Qed.
Print Assumptions C32_run.

Theorem C32_waiting : forall E W m k s s' l, cycle_ready E W (s_ctx s) m -> waits W k s s' -> past l <> None \/ is_past l ->
  peek (s_ctx s') l = peek (s_ctx s) l.
Proof. exact C32_waiting_l. Qed.
Print Assumptions C32_waiting.

(** C32: hence the previous value of an operand (flag, digital output or digital input) that any instruction of a cycle sees is
    the value the operand had when the cycle began. *)
Theorem C32_operand : forall E W m s s' nx, cycle_ready E W (s_ctx s) m -> cycle E s = Ok (nx, s') -> remembers (s_ctx s) ->
  exists a b t0, begins W s a t0 /\ scans E a b /\ forall n r col t e t' v l z, reaches E W a n r col t e t' ->
    place_now v = Some l -> flag_place (s_ctx s) l \/ output_place (s_ctx s) l \/ input_place (s_ctx s) l ->
    (v_type v = R_Q \/ v_type v = R_I \/ 0 <= v_raw v) -> prev_reads (s_ctx t) v z <-> reads (s_ctx s) v z.
Proof. exact C32_operand_l. Qed.
Print Assumptions C32_operand.
(* A coil changes output 0 and memory 1 from 0 to 1; histories: before the cycle 0, after it 1. *)
Example C32_case :
  let E := task_env (fun k => 5 * Z.of_nat k) (fun k i => Z.of_nat (1 + i)) (fun _ => None) in
  let c := synced (demo_task [[cellv I_COIL [V R_Q 0]; cellv I_COIL [V R_M 1]]]) in
  cycle_ready E task_w c 1000 /\ exists s', cycle E (start c) = Ok (T_continue, s')
  /\ map (peek c) [LReg B_M 1; LReg B_Mh 1; LOut 0 K_Q 0; LOut 0 K_Qh 0; LIn 0 K_I 1; LIn 0 K_Ih 1] = map (fun z => Some (VZ z)) [0; 0; 0; 0; 0; 1]
  /\ map (peek (s_ctx s')) [LReg B_M 1; LReg B_Mh 1; LOut 0 K_Q 0; LOut 0 K_Qh 0; LIn 0 K_I 1; LIn 0 K_Ih 1] = map (fun z => Some (VZ z)) [1; 1; 1; 1; 2; 0].
Proof. cbv zeta. split; [decide_cycle|]. eexists. split; [vm_compute; reflexivity|]. split; vm_compute; reflexivity. Qed.
(* A context whose histories are up to date. *)
Example C32_remembers_case : remembers (synced (demo_task [[cellv I_COIL [V R_Q 0]; cellv I_COIL [V R_M 1]]])).
Proof.
  intros l h [(b & i & B & L & ->)|(m & id & qd & qa & i & M & MT & K)] P.
  - simpl in B. destruct b; simpl in P; try discriminate; injection P as <-; reflexivity.
  - destruct m as [|m]; [|vm_compute in M; lia]. destruct K as [(-> & _)|(-> & _)]; simpl in P; injection P as <-; reflexivity.
Qed.
