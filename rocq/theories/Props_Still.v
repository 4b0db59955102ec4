(** Property theorems: programs without timers (C70). *)
From Verif Require Import P_Still Demo.
From Verif Require Import DemoTask.

(** ** C70 *)

(** A scan of a program without timers has the same result whatever the clock shows: two environments that differ only in their
    clocks and in what happens when the clock is read give the same final state, the same calls in the same order, the same error
    or the same undefined behaviour. The time of day must be the same, unless there are no cron jobs. *)
Theorem C70_scan : forall E E' s, no_timers (s_ctx s) -> alike_but_time (s_ctx s) E E' -> keeps_shape (s_ctx s) E ->
  (forall k, wall E k = wall E' k) \/ peek (s_ctx s) LCron = Some (VCron None) -> ladder_scan E s = ladder_scan E' s.
Proof. exact C70_scan_l. Qed.
Print Assumptions C70_scan.

(** So has any number of scans in a row. *)
Theorem C70_scans : forall E E' n s, no_timers (s_ctx s) -> alike_but_time (s_ctx s) E E' -> keeps_shape (s_ctx s) E ->
  (forall k, wall E k = wall E' k) -> many_scans E n s = many_scans E' n s.
Proof. exact C70_scans_l. Qed.
Print Assumptions C70_scans.

(** They do not read the clock at all. *)
Theorem C70_no_reading : forall E n s s', no_timers (s_ctx s) -> keeps_shape (s_ctx s) E -> many_scans E n s = Ok (tt, s') ->
  exists l, s_tr s' = l ++ s_tr s /\ forall t, ~ In (EvMillis t) l.
Proof. exact C70_no_reading_l. Qed.
Print Assumptions C70_no_reading.

(** The whole task: without timers, without a watchdog and without a target for the duration of a scan, two runs whose clocks differ
    end alike, after any number of cycles. Their functions may do anything that does not depend on the statistics. *)
Theorem C70_task : forall E E' n s s', no_timers (s_ctx s) -> q_wdg (x_q (s_ctx s)) <= 0 -> si_target (x_si (s_ctx s)) <= 0 ->
  indifferent (s_ctx s) E E' -> keeps_shape (s_ctx s) E -> differ_in_stats (s_ctx s) (s_ctx s') -> Forall2 like_call (s_tr s) (s_tr s') ->
  same_run (ladder_task E n s) (ladder_task E' n s').
Proof. exact C70_task_l. Qed.
Print Assumptions C70_task.

(** So the two runs make the same calls with the same arguments in the same order, the readings of the clock left out, and leave
    the same values everywhere except in the statistics. *)
Theorem C70_task_values : forall E E' n s r t, no_timers (s_ctx s) -> q_wdg (x_q (s_ctx s)) <= 0 -> si_target (x_si (s_ctx s)) <= 0 ->
  indifferent (s_ctx s) E E' -> keeps_shape (s_ctx s) E -> ladder_task E n s = Ok (r, t) ->
  exists t', ladder_task E' n s = Ok (r, t') /\ (forall l, l <> LStats -> peek (s_ctx t') l = peek (s_ctx t) l)
    /\ filter (fun ev => negb (is_millis ev)) (s_tr t') = filter (fun ev => negb (is_millis ev)) (s_tr t).
Proof. exact C70_task_values_l. Qed.
Print Assumptions C70_task_values.

Theorem C70_limits : forall wdg target, (wdg = 50 /\ target = 0) \/ (wdg = 0 /\ target = 50) -> exists s, no_timers (s_ctx s)
  /\ q_wdg (x_q (s_ctx s)) = wdg /\ si_target (x_si (s_ctx s)) = target
  /\ indifferent (s_ctx s) (ticking 1) (ticking 100)
  /\ exists r t r' t', ladder_task (ticking 1) 9 s = Ok (r, t) /\ ladder_task (ticking 100) 9 s = Ok (r', t')
    /\ filter (fun ev => negb (is_millis ev)) (s_tr t) <> filter (fun ev => negb (is_millis ev)) (s_tr t').
Proof. exact C70_limits_l. Qed.
Print Assumptions C70_limits.

Theorem C70_timers : forall i, timer_ins i = true -> exists s,
  (forall n r col bar j dq, peek (s_ctx s) (LCell n r col) = Some (VCell bar j dq) -> timer_ins j = true -> j = i)
  /\ keeps_shape (s_ctx s) (at_time 0) /\ alike_but_time (s_ctx s) (at_time 0) (at_time 100)
  /\ exists s1 s2, ladder_scan (at_time 0) s = Ok (tt, s1) /\ ladder_scan (at_time 100) s = Ok (tt, s2)
    /\ peek (s_ctx s1) (LReg B_M 1) <> peek (s_ctx s2) (LReg B_M 1).
Proof. exact C70_timers_l. Qed.
Print Assumptions C70_timers.
(** Deciding that a program has no timer. *)
Definition no_timersb (c : ctx) : bool :=
  match x_net c with
  | Some l => forallb (fun nt => match n_cells nt with Some g => forallb (forallb (fun x => negb (timer_ins (c_code x)))) g | None => true end) l
  | None => true end.
Lemma no_timersb_ok c : no_timersb c = true -> no_timers c.
Proof.
  unfold no_timersb, no_timers. intros H n r col bar i dq K. cbn [peek] in K.
  destruct (cell_of c n r col) as [x|] eqn:C; [|discriminate]. cbn [option_map] in K. assert (I : c_code x = i) by congruence. subst i. clear K.
  unfold cell_of, row_of, net_of, elem in C. destruct (x_net c) as [l|]; [|discriminate]. cbn [obind] in C. destruct (nth_error l n) as [nt|] eqn:N; [|discriminate]. cbn [obind] in C.
  apply nth_error_In in N. rewrite forallb_forall in H. apply H in N. destruct (n_cells nt) as [g|]; [|discriminate]. cbn [obind] in C.
  destruct (nth_error g r) as [row|] eqn:R; [|discriminate]. cbn [obind] in C. apply nth_error_In in R, C. rewrite forallb_forall in N. apply N in R. rewrite forallb_forall in R. apply R in C.
  now apply negb_true_iff in C.
Qed.
(** A counter driven by an input, with coils at its two outputs: three scans at any two times are the same. *)
Definition still_prog : ctx := demo
  [[cellv I_NO [V R_I 0]; cellv I_CTU [V R_C 1; V R_NONE 9]; cellv I_COIL [V R_M 1]]; [cellv I_NOP []; cellv I_MULTI []; cellv I_COIL [V R_M 3]]].
Example C70_example : forall t t', no_timers still_prog /\ alike_but_time still_prog (at_time t) (at_time t') /\ keeps_shape still_prog (at_time t)
  /\ peek still_prog LCron = Some (VCron None)
  /\ many_scans (at_time t) 3 (start still_prog) = many_scans (at_time t') 3 (start still_prog)
  /\ exists s', many_scans (at_time t) 3 (start still_prog) = Ok (tt, s') /\ peek (s_ctx s') (LReg B_C 1) = Some (VZ 8).
Proof.
  intros t t'. assert (N : no_timers still_prog) by (apply no_timersb_ok; reflexivity).
  split; [exact N|]. split; [apply at_time_alike|]. split; [apply at_time_keeps|]. split; [reflexivity|].
  split; [apply C70_scans; [exact N|apply at_time_alike|apply at_time_keeps|reflexivity]|].
  eexists. split; [vm_compute; reflexivity|]. vm_compute. reflexivity.
Qed.
(** Several cycles of a task with fast and slow clocks. *)
Lemma ticking_keeps c a : keeps_shape c (ticking a).
Proof.
  constructor.
  - intros k ev x S _. unfold ticking, task_env. cbn [act]. destruct ev; cbn [task_act]; auto.
    1, 2: destruct (if (20 <? k)%nat then Some S_EXIT_TSK else None); exact S.
    rewrite <- S. unfold shape. cbn [x_in set_x_in x_q x_io x_h x_for x_mem x_prev x_regs x_tm x_out x_net]. f_equal. f_equal. f_equal.
    destruct (x_in x) as [l|]; [|reflexivity]. cbn [option_map]. f_equal. revert n. induction l as [|m l IH]; intros [|n]; cbn [nth_map map]; try reflexivity; f_equal; auto.
    unfold in_shape, feed_in. destruct m. cbn. destruct i_I; cbn; [now rewrite map_length, seq_length|reflexivity].
  - intros k ev x S _. unfold ticking, task_env. cbn [act]. destruct ev; cbn [task_act]; auto. all: destruct (if (20 <? k)%nat then Some S_EXIT_TSK else None); reflexivity.
  - intros k id col row x S _. exact S.
Qed.
Example C70_task_example : forall a b, no_timers (running_task 0 0) /\ indifferent (running_task 0 0) (ticking a) (ticking b) /\ keeps_shape (running_task 0 0) (ticking a)
  /\ same_run (ladder_task (ticking a) 9 (start (running_task 0 0))) (ladder_task (ticking b) 9 (start (running_task 0 0))).
Proof.
  intros a b. assert (N : no_timers (running_task 0 0)) by (apply no_timersb_ok; reflexivity). split; [exact N|]. split; [apply ticking_indifferent|]. split; [apply ticking_keeps|].
  apply C70_task; [exact N|vm_compute; discriminate|vm_compute; discriminate|apply ticking_indifferent|apply ticking_keeps| |constructor].
  exists (x_si (running_task 0 0)). cbn [start s_ctx]. rewrite set_si_self. auto.
Qed.
Example C70_task_ends : exists t, ladder_task (ticking 7) 9 (start (running_task 0 0)) = Ok (Ended, t) /\ (12 < List.length (s_tr t))%nat /\ existsb is_millis (s_tr t) = true.
Proof. eexists. split; [vm_compute; reflexivity|]. split; [vm_compute; lia|reflexivity]. Qed.
