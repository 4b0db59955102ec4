(** Property theorems: the task as a whole (C30, C31). *)
From Verif Require Import P_Task Demo.
From Verif Require Import DemoTask.

(** ** No endless loop inside the library *)

(** ** Calls of the main loop *)

(** ** C30 *)

(** C30: every run of the main loop is a number of cycles without fault, each begun in state RUNNING after fewer than 1000 delays,
    followed by an end: a stop request, a faulting cycle, a stop request seen while waiting, or a timeout. Between cycles
    nothing is called but delays and, on timeout, panic. *)
Theorem C30_runs : forall E W m k s r s', cycle_ready E W (s_ctx s) m -> task_loop E k s = Ok (r, s') ->
  exists j s1, (j <= k)%nat /\ goes E W j s s1 /\ ((r = Running /\ j = k /\ s1 = s') \/ ends E W s1 r s').
Proof. exact C30_runs_l. Qed.
Print Assumptions C30_runs.

(** C30: waiting changes nothing but what the delay function itself changes; registers, outputs and histories in particular stay. *)
Theorem C30_waiting : forall E W m k s s', cycle_ready E W (s_ctx s) m -> waits W k s s' ->
  calls s s' (repeat (EvDelay (q_delay (x_q (s_ctx s)))) k) /\ changes_only (s_ctx s) (s_ctx s') (W (EvDelay (q_delay (x_q (s_ctx s)))))
  /\ same_program (s_ctx s) (s_ctx s') /\ forall l, past l <> None \/ is_past l \/ l = LStats -> peek (s_ctx s') l = peek (s_ctx s) l.
Proof. exact C30_waiting_l. Qed.
Print Assumptions C30_waiting.

(** C30: a task that waits goes on as soon as the state is RUNNING, with a cycle; *)
Theorem C30_wakes : forall E W m k i s, cycle_ready E W (s_ctx s) m -> (0 < i < 1000)%nat -> (forall j, (j < i)%nat -> idle (s_ctx (delayed E j s))) ->
  peek (s_ctx (delayed E i s)) LState = Some (VState S_RUNNING) -> task_loop E (S k) s = task_loop E (S k) (delayed E i s).
Proof. exact C30_wakes_l. Qed.
Print Assumptions C30_wakes.

(** C30: and if it does not come within 1000 delays the task reports panic and ends. *)
Theorem C30_timeout : forall E W m k s, cycle_ready E W (s_ctx s) m -> (forall j, (j < 1000)%nat -> idle (s_ctx (delayed E j s))) ->
  exists s', task_loop E (S k) s = Ok (Ended, s') /\ peek (s_ctx s') LState = Some (VState S_EXIT_TSK)
    /\ calls s s' (repeat (EvDelay (q_delay (x_q (s_ctx s)))) 1000 ++ optional (h_panic (x_h (s_ctx s))) EvPanic).
Proof. exact C30_timeout_l. Qed.
Print Assumptions C30_timeout.

(** C30: a stop request that is there at the end of a cycle ends the task at once. *)
Theorem C30_stop : forall E k s s1, peek (s_ctx s) LState = Some (VState S_RUNNING) -> cycle E s = Ok (T_continue, s1) -> peek (s_ctx s1) LState = Some (VState S_EXIT_TSK) ->
  task_loop E (S k) s = Ok (Ended, s1).
Proof. exact C30_stop_l. Qed.
Print Assumptions C30_stop.

(** C30: a stop request made before the scan of a cycle ends the task after that cycle, if neither watchdog fires and no
    other code withdraws it. *)
Theorem C30_request : forall E W m k s s', cycle_ready E W (s_ctx s) m -> peek (s_ctx s) LState = Some (VState S_RUNNING) -> cycle E s = Ok (T_continue, s') ->
  exists a b t0 t1 late pad, begins W s a t0 /\ scans E a b /\ closes W b s' t1 late pad /\
    (peek (s_ctx a) LState = Some (VState S_EXIT_TSK) -> (forall n, (n < q_nets (x_q (s_ctx s)))%nat -> cost (s_ctx s) n <= m) -> late = false ->
     (forall ev, match ev with EvBefore | EvRead _ => True | _ => ~ W ev LState end) -> task_loop E (S k) s = Ok (Ended, s')).
Proof. exact C30_request_l. Qed.
Print Assumptions C30_request.

(** C30: no call of the library during a run lasts for ever, whatever the program does: the model's fuel is never used up, only
    the number of iterations [k] asked for. *)
Theorem C30_no_hang : forall E W m k s, cycle_ready E W (s_ctx s) m -> task_loop E k s <> NoFuel.
Proof. exact C30_no_hang_l. Qed.
Print Assumptions C30_no_hang.

(** C30 is violated when the scan-time watchdog fires in the cycle in which the request is made: the state ERROR replaces the
    request and the task does not end. Here the hook before the cycle requests the stop, and nobody else sets the state. *)
Theorem C30_request_refuted : exists E W m s s', cycle_ready E W (s_ctx s) m /\ peek (s_ctx s) LState = Some (VState S_RUNNING)
  /\ h_before (x_h (s_ctx s)) = true /\ (forall k c, peek (act E k EvBefore c) LState = Some (VState S_EXIT_TSK)) /\ (forall ev, ev <> EvBefore -> ~ W ev LState)
  /\ task_loop E 1 s = Ok (Running, s') /\ peek (s_ctx s') LState = Some (VState S_ERROR).
Proof. exact C30_request_refuted_l. Qed.
Print Assumptions C30_request_refuted.
(* Stopped: after three delays the state is set to RUNNING; the task has then done nothing but wait. *)
Example C30_wakes_case :
  let E := task_env (fun k => 5 * Z.of_nat k) (fun _ _ => 0) (fun k => if (k =? 2)%nat then Some S_RUNNING else None) in
  let c := set_x_state S_STOPPED (demo_task [[cellv I_COIL [V R_M 1]]]) in
  cycle_ready E task_w c 1000 /\ (forall j, (j < 3)%nat -> idle (s_ctx (delayed E j (start c))))
  /\ peek (s_ctx (delayed E 3 (start c))) LState = Some (VState S_RUNNING)
  /\ exists s', task_loop E 1 (start c) = Ok (Running, s') /\ rev (s_tr s') = repeat (EvDelay (q_delay (x_q c))) 3 ++
       [EvMillis 15; EvBefore; EvRead 0; EvInstr; EvScanEnd; EvWrite 0 (Some [0; 1]) (Some [0; 0]); EvMillis 45; EvAfter].
Proof.
  cbv zeta. split; [decide_cycle|]. split.
  { intros j L. apply in_states. do 3 (destruct j as [|j]; [split; vm_compute; reflexivity|]). lia. }
  split; [vm_compute; reflexivity|]. eexists. split; vm_compute; reflexivity.
Qed.
(* Nobody sets the state: 1000 delays, panic, end. *)
Example C30_timeout_case :
  let E := task_env (fun k => 5 * Z.of_nat k) (fun _ _ => 0) (fun _ => None) in
  let c := set_x_state S_STOPPED (demo_task [[cellv I_COIL [V R_M 1]]]) in
  cycle_ready E task_w c 1000 /\ (forall j, idle (s_ctx (delayed E j (start c)))).
Proof.
  intros E c. split; [unfold E, c; decide_cycle|]. intros j. assert (K : s_ctx (delayed E j (start c)) = c).
  { induction j as [|j IH]; [reflexivity|]. cbn [delayed]. cbv zeta. cbn [s_ctx]. exact IH. }
  rewrite K. apply in_states. split; vm_compute; reflexivity.
Qed.
(* A stop request in the hook before the cycle: the cycle is finished, then the task ends. *)
Example C30_request_case :
  let E := stop_env (fun k => 5 * Z.of_nat k) in let c := demo_task [[cellv I_COIL [V R_M 1]]] in
  cycle_ready E stop_w c 1000 /\ exists s', task_loop E 5 (start c) = Ok (Ended, s') /\ cycle E (start c) = Ok (T_continue, s').
Proof. cbv zeta. split; [apply stop_ready; vm_compute; reflexivity|]. eexists. split; vm_compute; reflexivity. Qed.

(** ** C31 *)

(** C31: when the task function ends at its end (label exit), it called end_task (if there is one) once, as the last call. *)
Theorem C31_ended : forall E W m k s s', cycle_ready E W (s_ctx s) m -> ladder_task E k s = Ok (Ended, s') ->
  exists l, calls s s' (l ++ optional (h_end (x_h (s_ctx s))) EvEnd) /\ ~ In EvEnd l.
Proof. exact C31_ended_l. Qed.
Print Assumptions C31_ended.

(** C31, the other way: when the function returns early it does not call end_task. With everything it needs in place, it
    returns early only when a stop request is seen while waiting. *)
Theorem C31_returned_actual : forall E W m k s s', cycle_ready E W (s_ctx s) m -> ladder_task E k s = Ok (Returned, s') ->
  exists l, calls s s' l /\ ~ In EvEnd l /\ peek (s_ctx s') LState = Some (VState S_EXIT_TSK)
    /\ exists j i s1, goes E W j s s1 /\ waits W i s1 s' /\ (0 < i < 1000)%nat.
Proof. exact C31_returned_actual_l. Qed.
Print Assumptions C31_returned_actual.

(** C31: when something the task needs is missing, it reports NULLFN and returns at once: nothing is called. *)
Theorem C31_missing : forall E k s, registered (s_ctx s) -> incomplete (s_ctx s) ->
  exists s', ladder_task E k s = Ok (Returned, s') /\ calls s s' [] /\ peek (s_ctx s') LState = Some (VState S_NULLFN) /\ changes_only (s_ctx s) (s_ctx s') (eq LState).
Proof. exact C31_missing_l. Qed.
Print Assumptions C31_missing.

(** C31: while the task runs end_task is not called. *)
Theorem C31_running : forall E k s s', ladder_task E k s = Ok (Running, s') -> exists l, calls s s' l /\ ~ In EvEnd l.
Proof. exact C31_running_l. Qed.
Print Assumptions C31_running.

(** C31 is violated: a stop request made while the task waits ends the task without end_task. *)
Theorem C31_refuted : exists E W m s s', cycle_ready E W (s_ctx s) m /\ h_end (x_h (s_ctx s)) = true
  /\ ladder_task E 1 s = Ok (Returned, s') /\ ~ In EvEnd (s_tr s').
Proof. exact C31_refuted_l. Qed.
Print Assumptions C31_refuted.
(* A stop request in the hook before the cycle: end_task is the last call, once. *)
Example C31_case :
  let E := stop_env (fun k => 5 * Z.of_nat k) in let c := demo_task [[cellv I_COIL [V R_M 1]]] in
  cycle_ready E stop_w c 1000 /\ exists s', ladder_task E 5 (start c) = Ok (Ended, s')
  /\ rev (s_tr s') = [EvMillis 0; EvBefore; EvRead 0; EvInstr; EvScanEnd; EvWrite 0 (Some [0; 1]) (Some [0; 0]); EvMillis 30; EvAfter; EvEnd].
Proof. cbv zeta. split; [apply stop_ready; vm_compute; reflexivity|]. eexists. split; vm_compute; reflexivity. Qed.
(* No delay function. *)
Example C31_missing_case : let c := demo_task [[cellv I_COIL [V R_M 1]]] in let c := set_x_h (set_h_delay false (x_h c)) c in
  registered c /\ incomplete c.
Proof. split; [|right; left; reflexivity]. eexists. split; [reflexivity|]. split; [intros [|i] L; [reflexivity|simpl in L; lia]|]. split; [intros [|i] L; [reflexivity|simpl in L; lia]|]. split; discriminate. Qed.
