(** Property theorems: cron jobs (C43, C44, C46). *)
From Verif Require Import P_Cron Demo.
From Verif Require Import DemoTask.

(** ** C43 *)

(** C43: a scan asks for the local time once and then, before the first instruction, clears the flags of the auto-reset
    jobs in use and lets the jobs whose expression contains that time copy their enable register to their flag, in the
    order of the jobs; nothing else is changed. The instructions of the program are executed after that. *)
Theorem C43_scan : forall E W m s s' k js, scan_ready E W (s_ctx s) m -> scans E s s' ->
  peek (s_ctx s) LCron = Some (VCron (Some k)) -> cr_jobs k = Some js -> calendar (wall E (length (s_tr s))) ->
  exists s0, s_tr s0 = EvTime :: s_tr s
    /\ (forall z, flag_of (s_ctx s0) z = after_jobs (wall E (length (s_tr s))) (firstn (cr_used k) js) (flag_of (s_ctx s)) z)
    /\ changes_only (s_ctx s) (s_ctx s0) (fun l => l = LExec \/ exists j, In j (firstn (cr_used k) js) /\ j_en j = true /\ 0 <= j_flag j /\ l = LReg B_M (ix (j_flag j)))
    /\ (scan_complete E W (s_ctx s) s0 s' \/ (exists n r col e, scan_fault E W (s_ctx s) s0 s' n r col e) \/ (exists n, scan_overrun E W (s_ctx s) s0 s' n)).
Proof. exact C43_scan_l. Qed.
Print Assumptions C43_scan.

(** C43: a flag that neither the program nor code outside the library sets still has, when the scan ends, the value the
    jobs gave it, however the scan ends. *)
Theorem C43_end_of_scan : forall E W m s s' k js z, scan_ready E W (s_ctx s) m -> scans E s s' ->
  peek (s_ctx s) LCron = Some (VCron (Some k)) -> cr_jobs k = Some js -> calendar (wall E (length (s_tr s))) ->
  ~ W (LReg B_M (ix z)) -> (forall n r col i, in_program (s_ctx s) n r col i -> ~ names (s_ctx s) i n r col (LReg B_M (ix z))) ->
  flag_of (s_ctx s') z = after_jobs (wall E (length (s_tr s))) (firstn (cr_used k) js) (flag_of (s_ctx s)) z.
Proof. exact C43_end_of_scan_l. Qed.
Print Assumptions C43_end_of_scan.

(** C43: an M register that is the flag of no job in use is left alone by the jobs. *)
Theorem C43_others : forall t js f z, (forall j, In j js -> j_en j = true -> j_flag j <> z) -> after_jobs t js f z = f z.
Proof. exact C43_others_l. Qed.
Print Assumptions C43_others.

(** C43: one job among others. If no other job has its flag, or has its enable register as flag, then the flag ends with
    the value of the enable register when it is the job's time; otherwise with 0 if the job is an auto-reset job and
    with its old value if not. (If the job's enable register is its own flag, an auto-reset job copies the 0 just
    stored.) *)
Theorem C43_each_job : forall t before j after f, j_en j = true ->
  (forall j', In j' (before ++ after) -> j_en j' = true -> j_flag j' <> j_flag j /\ j_flag j' <> j_enreg j) ->
  after_jobs t (before ++ j :: after) f (j_flag j) =
    if matches t (j_map j) then (if j_auto j && (j_enreg j =? j_flag j) then Some 0 else f (j_enreg j))
    else if j_auto j then Some 0 else f (j_flag j).
Proof. exact C43_each_job_l. Qed.
Print Assumptions C43_each_job.

(** C43: doing the jobs one by one, each first clearing its flag and then firing, gives the same, unless the flag of an
    auto-reset job is also the flag or the enable register of an earlier job. *)
Theorem C43_job_by_job : forall t js f z, orderly js -> after_jobs t js f z = job_by_job t js f z.
Proof. exact C43_job_by_job_l. Qed.
Print Assumptions C43_job_by_job.

(** C43, finding: without that condition the two readings differ: all flags are cleared before the first job is done, so
    the second of two jobs with one flag does not clear what the first has just set. *)
Theorem C43_shared_flag_actual : forall t j1 j2 f v, j_en j1 = true -> j_en j2 = true -> j_auto j2 = true -> j_flag j2 = j_flag j1 -> j_enreg j1 <> j_flag j1 ->
  matches t (j_map j1) = true -> matches t (j_map j2) = false -> f (j_enreg j1) = Some v ->
  after_jobs t [j1; j2] f (j_flag j1) = Some v /\ job_by_job t [j1; j2] f (j_flag j1) = Some 0.
Proof. exact C43_shared_flag_actual_l. Qed.
Print Assumptions C43_shared_flag_actual.

(** C43, C46: with a job table as the library sets it up, and the M registers allocated, the jobs are done without any
    access outside the M registers, the job table or the bit maps, on every date of the years 2000 to 2100. *)
Theorem C46_evaluation_safe : forall E s k nm, peek (s_ctx s) LCron = Some (VCron (Some k)) -> table_ok (q_m (x_q (s_ctx s))) k ->
  peek (s_ctx s) (LRegLen B_M) = Some (VN nm) -> (q_m (x_q (s_ctx s)) <= nm)%nat -> calendar (wall E (length (s_tr s))) ->
  exists go s', scan_cron E s = Ok (go, s').
Proof. exact C46_evaluation_safe_l. Qed.
Print Assumptions C46_evaluation_safe.

(** C43, finding: on a date before the year 2000 the year map is read far outside its bounds as soon as the other six
    fields of a job match. Here for the first job in use. *)
Theorem C43_before_2000_undefined : forall t k, 0 <= tm_year t < 100 -> full_map k ->
  bit_is_set (k_sec k) (u32 (tm_sec t)) = Ok true -> bit_is_set (k_min k) (u32 (tm_min t)) = Ok true -> bit_is_set (k_hour k) (u32 (tm_hour t)) = Ok true ->
  bit_is_set (k_mday k) (u32 (tm_mday t)) = Ok true -> bit_is_set (k_mon k) (u32 (tm_mon t + 1)) = Ok true -> bit_is_set (k_wday k) (u32 (tm_wday t)) = Ok true ->
  cron_valid t k = Bad UB_oob.
Proof. exact C43_before_2000_undefined_l. Qed.
Print Assumptions C43_before_2000_undefined.
(* On 1 January 2020, 00:00:00, the first job sets M1; the second one clears M2, which was 1, and does not fire. *)
Example C43_case :
  let s := start with_jobs in let s' := scan_st quiet_env with_jobs in
  scan_ready quiet_env (fun _ => False) (s_ctx s) 1000 /\ scans quiet_env s s' /\ calendar (wall quiet_env (length (s_tr s)))
  /\ (exists k js, peek (s_ctx s) LCron = Some (VCron (Some k)) /\ cr_jobs k = Some js /\ cr_used k = 2%nat /\ orderly (firstn 2 js)
      /\ map (fun j => matches (wall quiet_env 0) (j_map j)) js = [true; false])
  /\ map (flag_of (s_ctx s)) [0; 1; 2; 3] = [Some 1; Some 0; Some 1; Some 0]
  /\ map (flag_of (s_ctx s')) [0; 1; 2; 3] = [Some 1; Some 1; Some 0; Some 1].
Proof.
  intros s s'. split; [apply (readyb_ok with_jobs (fun k => 10 * Z.of_nat k)); vm_compute; reflexivity|]. split; [vm_compute; reflexivity|].
  split; [vm_compute; repeat split; discriminate|]. split; [|split; vm_compute; reflexivity].
  eexists _, _. split; [vm_compute; reflexivity|]. split; [vm_compute; reflexivity|]. split; [reflexivity|]. split; [|vm_compute; reflexivity].
  vm_compute. repeat split; intros; repeat match goal with H : _ \/ _ |- _ => destruct H end; try contradiction; subst; simpl in *; discriminate.
Qed.
(* The second job alone, at 10:15:30 on a Wednesday: it fires. *)
Example C43_fires_case :
  let t := mk_tm 30 15 10 1 0 3 120 in
  calendar t /\ exists k js, peek with_jobs LCron = Some (VCron (Some k)) /\ cr_jobs k = Some js
    /\ map (after_jobs t js (flag_of with_jobs)) [0; 1; 2; 3] = [Some 1; Some 1; Some 1; Some 0].
Proof. split; [vm_compute; repeat split; discriminate|]. eexists _, _. split; [vm_compute; reflexivity|]. split; vm_compute; reflexivity. Qed.

(** ** C44 *)

(** C44: ladder_ctx_init leaves the cron structure allocated and without jobs, and cron_init adds none. *)
Theorem C44_after_init : forall alloc a c c', ctx_init alloc a c = (true, c') ->
  jobless c' /\ forall al n e c2, cron_init al n c' = Ok (e, c2) -> jobless c2.
Proof. exact C44_after_init_l. Qed.
Print Assumptions C44_after_init.

(** C44 is violated: with no job in use every scan stops at once in state INV; no instruction is executed and no function
    is called. *)
Theorem C44_scan_actual : forall E s, jobless (s_ctx s) ->
  exists s', scans E s s' /\ calls s s' [] /\ peek (s_ctx s') LState = Some (VState S_INV)
    /\ changes_only (s_ctx s) (s_ctx s') (fun l => l = LExec \/ l = LState).
Proof. exact C44_scan_actual_l. Qed.
Print Assumptions C44_scan_actual.

(** C44 is violated: so the first cycle is a faulting one, whatever the program, and the task ends with it. *)
Theorem C44_task_actual : forall E W s nx s', callbacks E W -> tame W -> task_ready (s_ctx s) -> jobless (s_ctx s) ->
  peek (s_ctx s) LState = Some (VState S_RUNNING) -> cycle E s = Ok (nx, s') ->
  nx = T_exit /\ (forall k, task_loop E (S k) s = Ok (Ended, s'))
  /\ exists a b t0, begins W s a t0 /\ scans E a b /\ calls a b [] /\ peek (s_ctx b) LState = Some (VState S_INV).
Proof. exact C44_task_actual_l. Qed.
Print Assumptions C44_task_actual.

(** C44 is violated: a concrete fresh context whose task ends in its first cycle, although the program is just a
    connected coil and every function works. *)
Theorem C44_refuted : exists E W s s', callbacks E W /\ tame W /\ task_ready (s_ctx s) /\ wf_program (s_ctx s) /\ jobless (s_ctx s)
  /\ peek (s_ctx s) LState = Some (VState S_RUNNING)
  /\ ladder_task E 1 s = Ok (Ended, s') /\ peek (s_ctx s') (LReg B_M 1) = Some (VZ 0).
Proof. exact C44_refuted_l. Qed.
Print Assumptions C44_refuted.
(* The same context without the cron structure: the cycle completes and the coil is set. *)
Example C44_case :
  let c := set_x_cron None C44_ctx in
  let E := task_env (fun k => 5 * Z.of_nat k) (fun _ _ => 0) (fun _ => None) in
  exists s', ladder_task E 1 (start c) = Ok (Running, s') /\ peek (s_ctx s') (LReg B_M 1) = Some (VZ 1).
Proof. intros c E. eexists. split; vm_compute; reflexivity. Qed.

(** ** C46 *)

(** C46: a call of cron_add that succeeds found a free slot and both registers inside M, and the expression is well formed.
    The job is in the next slot, enabled, with the given registers and the parsed map; all other slots are as before,
    one more slot is in use, and nothing but the job table is changed. *)
Theorem C46_stored : forall auto en fl str c c' k, 0 <= en -> 0 <= fl -> (0 < q_m (x_q c))%nat -> Z.of_nat (q_m (x_q c)) <= 2 ^ 32 ->
  peek c LCron = Some (VCron (Some k)) -> cron_add auto en fl str c = Ok (E_OK, c') ->
  en < Z.of_nat (q_m (x_q c)) /\ fl < Z.of_nat (q_m (x_q c)) /\ cr_used k <> cr_qty k
  /\ exists k' old map, peek c' LCron = Some (VCron (Some k')) /\ slot k (cr_used k) = Some old /\ cron_parse (j_map old) str = Ok (L_OK, map)
    /\ slot k' (cr_used k) = Some (mk_job true auto en fl map) /\ (forall i, i <> cr_used k -> slot k' i = slot k i)
    /\ cr_used k' = S (cr_used k) /\ cr_qty k' = cr_qty k /\ changes_only c c' (fun l => l = LCron).
Proof. exact C46_stored_l. Qed.
Print Assumptions C46_stored.

(** C46: a well formed expression is accepted exactly if a slot is free and both registers are inside M. *)
Theorem C46_accepts : forall auto en fl str c k, 0 <= en < 2 ^ 32 -> 0 <= fl < 2 ^ 32 -> (0 < q_m (x_q c))%nat -> Z.of_nat (q_m (x_q c)) <= 2 ^ 32 ->
  peek c LCron = Some (VCron (Some k)) -> table_ok (q_m (x_q c)) k -> (forall mp, exists map, cron_parse mp str = Ok (L_OK, map)) ->
  (exists c', cron_add auto en fl str c = Ok (E_OK, c')) <->
  (cr_used k < cr_qty k)%nat /\ en < Z.of_nat (q_m (x_q c)) /\ fl < Z.of_nat (q_m (x_q c)).
Proof. exact C46_accepts_l. Qed.
Print Assumptions C46_accepts.

(** C46: a call that is refused keeps all jobs in use as they are and changes nothing but the job table. *)
Theorem C46_refused : forall auto en fl str c c' k e, (0 < q_m (x_q c))%nat -> Z.of_nat (q_m (x_q c)) <= 2 ^ 32 ->
  peek c LCron = Some (VCron (Some k)) -> cron_add auto en fl str c = Ok (e, c') -> e <> E_OK ->
  exists k', peek c' LCron = Some (VCron (Some k')) /\ cr_used k' = cr_used k /\ cr_qty k' = cr_qty k
    /\ (forall i, i <> cr_used k -> slot k' i = slot k i) /\ changes_only c c' (fun l => l = LCron).
Proof. exact C46_refused_l. Qed.
Print Assumptions C46_refused.

(** C46: so after any series of calls of cron_init and cron_add on a fresh context, in any order and with any arguments, the
    job table is as [table_ok] says: in particular every job in use names M registers that exist. Jobs once added stay. *)
Theorem C46_invariant : forall xs c c' k, set_up xs c c' -> (0 < q_m (x_q c))%nat -> Z.of_nat (q_m (x_q c)) <= 2 ^ 32 ->
  peek c LCron = Some (VCron (Some k)) -> table_ok (q_m (x_q c)) k ->
  changes_only c c' (fun l => l = LCron) /\ exists k', peek c' LCron = Some (VCron (Some k')) /\ table_ok (q_m (x_q c)) k'
    /\ (cr_used k <= cr_used k')%nat /\ forall i j, (i < cr_used k)%nat -> slot k i = Some j -> slot k' i = Some j.
Proof. exact C46_invariant_l. Qed.
Print Assumptions C46_invariant.

Theorem C46_fresh : forall alloc a c c', ctx_init alloc a c = (true, c') -> exists k, peek c' LCron = Some (VCron (Some k)) /\ table_ok (q_m (x_q c')) k.
Proof. exact C46_fresh_l. Qed.
Print Assumptions C46_fresh.

(** C46: the first call of cron_init on such a context allocates the slots; a second one is refused. *)
Theorem C46_init : forall n c k, peek c LCron = Some (VCron (Some k)) ->
  (cr_jobs k = None -> exists c' k', cron_init true n c = Ok (E_OK, c') /\ peek c' LCron = Some (VCron (Some k')) /\ cr_qty k' = n /\ cr_used k' = 0%nat
     /\ (forall i, (i < n)%nat -> slot k' i <> None) /\ changes_only c c' (fun l => l = LCron))
  /\ (cr_jobs k <> None -> forall al, cron_init al n c = Ok (E_FAIL, c)).
Proof. exact C46_init_l. Qed.
Print Assumptions C46_init.

(** C46, finding: in a context without M registers (which ladder_ctx_init does not make) the test of the registers lets every
    number through: quantity.m - 1 wraps to 2^32 - 1. *)
Theorem C46_no_flags_actual : forall auto en fl str c k old map, q_m (x_q c) = 0%nat -> 0 <= en < 2 ^ 32 -> 0 <= fl < 2 ^ 32 ->
  peek c LCron = Some (VCron (Some k)) -> slot k (cr_used k) = Some old -> cr_used k <> cr_qty k -> cron_parse (j_map old) str = Ok (L_OK, map) ->
  exists c', cron_add auto en fl str c = Ok (E_OK, c').
Proof. exact C46_no_flags_actual_l. Qed.
Print Assumptions C46_no_flags_actual.
(* Three calls: two slots, a job with both registers inside M, one with a register outside, which is refused. *)
Example C46_case :
  let c0 := set_x_cron (Some (mk_cron None 0 0)) (demo []) in
  let xs := [InitJobs true 2; AddJob false 0 1 every_second; AddJob false 0 4 every_second] in
  exists c1 c2 c3 k, setup (InitJobs true 2) c0 = Ok (E_OK, c1) /\ setup (AddJob false 0 1 every_second) c1 = Ok (E_OK, c2)
    /\ setup (AddJob false 0 4 every_second) c2 = Ok (E_FAIL, c3) /\ set_up xs c0 c3 /\ (0 < q_m (x_q c0))%nat
    /\ peek c3 LCron = Some (VCron (Some k)) /\ cr_used k = 1%nat /\ option_map j_flag (slot k 0) = Some 1.
Proof.
  eexists _, _, _, _. split; [vm_compute; reflexivity|]. split; [vm_compute; reflexivity|]. split; [vm_compute; reflexivity|]. split.
  { eapply su_call; [exact I|vm_compute; reflexivity|]. eapply su_call; [simpl; lia|vm_compute; reflexivity|]. eapply su_call; [simpl; lia|vm_compute; reflexivity|]. apply su_none. }
  split; [vm_compute; lia|]. split; [vm_compute; reflexivity|]. split; reflexivity.
Qed.
