(** one cycle of the task (C28, C29, C32, C34). *)
From Verif Require Import DemoTask.
From Verif Require Export Loop.
(*IMPORT DemoTask *)

Lemma scan_calls E a b : scans E a b -> exists scan, calls a b scan /\ Forall scan_call scan.
Proof.
  intros H. destruct (em_scan scan_call E (fun ev K => K) a tt b H) as (l & T & F). exists (rev l). split; [unfold calls; now rewrite rev_involutive|]. now apply Forall_rev.
Qed.
Lemma filter_scan scan : Forall scan_call scan -> filter is_delay scan = [].
Proof. induction 1 as [|ev l H _ IH]; simpl; auto. destruct ev; simpl in *; auto; contradiction. Qed.
Lemma filter_writes c l ws : Forall2 (hands c) l ws -> filter is_delay ws = [].
Proof. induction 1 as [|x ev l ws (q & qw & -> & _) _ IH]; simpl; auto. Qed.
Lemma filter_optional b ev : is_delay ev = false -> filter is_delay (optional b ev) = []. Proof. intros H. destruct b; simpl; auto. now rewrite H. Qed.
Lemma filter_reads l : filter is_delay (map EvRead l) = []. Proof. induction l; simpl; auto. Qed.
Lemma filter_delays l : filter is_delay (map EvDelay l) = map EvDelay l. Proof. induction l; simpl; auto. now rewrite IHl. Qed.
Lemma stats_fields t si si' : scan_stats t si = Ok si' -> 0 <= si_start si < 2 ^ 64 -> 0 <= t < 2 ^ 64 -> si_actual si' = lapse (si_start si) t /\ si_target si' = si_target si.
Proof.
  unfold scan_stats. assert (OI : forall x y : scanint, Ok x = Ok y -> x = y) by (intros x y K; congruence).
  intros H A B. rewrite lapse_model in H by auto. destruct (u32 _ =? 0); [discriminate|]. apply OI in H. rewrite <- H. auto.
Qed.

Lemma kept_dec c l : saved c l -> output_kept c l \/ ~ output_kept c l.
Proof.
  intros [(bk & j & _ & _ & ->)|O].
  - right. intros [(x' & id & qd & qa & k & _ & _ & [(K & _)|(K & _)]) _]; discriminate.
  - pose proof O as (m & id & qd & qa & i & A & B & C).
    assert (exists k, l = LOut m k i) as (k & ->) by (destruct C as [(-> & _)|(-> & _)]; eauto).
    destruct (Nat.eq_dec qd 0) as [Z|NZ].
    { right. intros [_ (id' & qd' & qa' & M & P & _)]. rewrite B in M. injection M as _ <- _. lia. }
    destruct (peek c (LOutLen m K_Q)) as [v|] eqn:P1.
    2:{ right. intros [_ (id' & qd' & qa' & M & P & K & _)]. congruence. }
    destruct (peek c (LOutLen m K_Qh)) as [v'|] eqn:P2.
    2:{ right. intros [_ (id' & qd' & qa' & M & P & _ & K)]. congruence. }
    left. split; auto. exists id, qd, qa. rewrite P1, P2. split; auto. split; [lia|]. split; discriminate.
Qed.

Lemma loop_running E k s : peek (s_ctx s) LState = Some (VState S_RUNNING) ->
  task_loop E (S k) s = (n <- cycle E ;; match n with T_exit => ret Ended | T_continue => task_loop E k end)%m s.
Proof.
  intros RU. pose proof RU as RU'. simpl in RU'. injection RU' as RU'. cbn [task_loop]. unfold bind at 1, getc at 1. rewrite RU'. change (lstate_eqb S_RUNNING S_EXIT_TSK) with false. cbv iota.
  assert (WT : wait E max_wait_cycles s = Ok (Some false, s)).
  { assert (N : exists n, max_wait_cycles = S n) by (eexists; reflexivity). destruct N as (n & ->). cbn [wait]. unfold bind at 1, getc at 1. rewrite RU'. reflexivity. }
  unfold bind at 1. rewrite WT. unfold wait_timeout. unfold bind at 1, ret at 1. unfold bind at 1, getc at 1. rewrite RU'. reflexivity.
Qed.

(** ** C29 *)

(** C29: a cycle that does not fault calls: clock, the hook before, every read function once in order; then the scan with its
    calls; then every write function once in order with the outputs the scan left, clock, alarm of the scan-time watchdog,
    the padding delay and the hook after. Outside the scan it changes only statistics and histories (and the state after an
    alarm); everything else is done by the called functions. *)
Lemma C29_order_l : forall E W m s s', cycle_ready E W (s_ctx s) m -> cycle E s = Ok (T_continue, s') ->
  exists a b t0 t1 late pad scan, begins W s a t0 /\ scans E a b /\ calls a b scan /\ Forall scan_call scan /\ closes W b s' t1 late pad /\ (length pad <= 1)%nat
    /\ same_program (s_ctx s) (s_ctx a) /\ same_program (s_ctx s) (s_ctx b).
Proof.
  intros E W m s s' [CB TA TR SR] H. destruct (cycle_ok E W CB TA s m TR SR s' H) as (a & b & t0 & t1 & si & si1 & si2 & P).
  destruct (scan_calls E a b (cp_scans _ _ _ _ _ _ _ _ _ _ _ _ P)) as (scan & S1 & S2).
  eexists a, b, t0, t1, _, _, scan. split; [apply P|]. split; [apply P|]. split; auto. split; auto. split; [apply P|]. split.
  - destruct (_ && _); simpl; lia.
  - destruct P as [_ _ _ _ (SA & SB & _) _ _ _ _ _ _ _ _ _ _]. auto.
Qed.
(** C29: the same when the scan faults, except that the outputs handed over are those of C28 and there is no padding. *)
Lemma C29_order_fault_l : forall E W m s s', cycle_ready E W (s_ctx s) m -> cycle E s = Ok (T_exit, s') ->
  exists a b t0 t1 late scan ws c, begins W s a t0 /\ scans E a b /\ calls a b scan /\ Forall scan_call scan
    /\ calls b s' (ws ++ EvMillis t1 :: optional (late && h_panic (x_h (s_ctx s))) EvPanic ++ optional (h_after (x_h (s_ctx s))) EvAfter)
    /\ Forall2 (hands c) (seq 0 (io_wq (x_io (s_ctx s)))) ws.
Proof.
  intros E W m s s' [CB TA TR SR] H. destruct (cycle_fault E W CB TA s m TR SR s' H) as (a & b & sf & t0 & t1 & late & ws & P).
  destruct (scan_calls E a b (fp_scans _ _ _ _ _ _ _ _ _ _ _ _ P)) as (scan & S1 & S2).
  exists a, b, t0, t1, late, scan, ws, (s_ctx sf). split; [apply P|]. split; [apply P|]. split; auto. split; auto. split; apply P.
Qed.
(** C29: hence the calls of any number of cycles are that many sequences of this form, each after some waiting delays. *)
Lemma C29_run_l : forall E W m k s s', cycle_ready E W (s_ctx s) m -> goes E W k s s' ->
  exists ls, length ls = k /\ calls s s' (concat ls) /\ Forall (iteration_calls (s_ctx s)) ls.
Proof.
  intros E W m k s s' CY G. revert CY. induction G as [s|j k s s1 s2 s3 WT J RU CY GO IH]; intros [CB TA TR SR].
  - exists []. split; auto. split; [reflexivity|constructor].
  - destruct (waits_ready E W CB TA _ _ _ _ TR SR WT) as (T1 & S1 & P1 & _). destruct (cycle_keeps E W CB TA _ _ _ T1 S1 CY) as (T2 & S2 & P2 & R2).
    destruct (IH (Build_cycle_ready _ _ _ _ CB TA T2 S2)) as (ls & L1 & L2 & L3).
    destruct (C29_order_l E W m s1 s2 (Build_cycle_ready _ _ _ _ CB TA T1 S1) CY) as (a & b & t0 & t1 & late & pad & scan & [BE _] & SC & CA & SF & (ws & CW & CC & _) & PD & _ & SB1).
    destruct (waits_keep E W CB TA _ _ _ WT) as (_ & CWT & _).
    assert (SB : same_program (s_ctx s) (s_ctx s1)) by auto. destruct (same_q _ _ SB) as (Q1 & Q2 & Q3 & _).
    destruct (same_q _ _ SB1) as (Q4 & Q5 & Q6 & _).
    exists ((repeat (EvDelay (q_delay (x_q (s_ctx s)))) j ++ (EvMillis t0 :: optional (h_before (x_h (s_ctx s))) EvBefore ++ map EvRead (seq 0 (io_rq (x_io (s_ctx s)))) ++ scan
        ++ ws ++ EvMillis t1 :: optional (late && h_panic (x_h (s_ctx s))) EvPanic ++ map EvDelay pad ++ optional (h_after (x_h (s_ctx s))) EvAfter)) :: ls).
    split; [simpl; auto|]. split.
    + cbn [concat]. eapply calls_trans; [|exact L2]. eapply calls_trans; [exact CWT|].
      rewrite Q3, Q2 in BE. rewrite Q6, Q3 in CC. pose proof (calls_trans _ _ _ _ _ BE (calls_trans _ _ _ _ _ CA CC)) as K. rewrite <- app_comm_cons, <- app_assoc in K. exact K.
    + constructor.
      * exists j, t0, scan, ws, t1, late, pad. split; [reflexivity|]. split; auto. split; [|auto].
        rewrite Q5, Q2 in CW. eapply Forall2_mono; [|exact CW]. intros x ev (q & qw & -> & _). eauto.
      * eapply Forall_impl; [|exact L3]. intros l L. unfold iteration_calls in *. destruct (same_q _ _ P2) as (Q7 & Q8 & Q9 & _). rewrite Q7, Q8, Q9, Q1, Q2, Q3 in L. exact L.
Qed.

(*EX
(* One cycle of a contact on an input and a coil on an output: the input read from the module is 1, so the output handed over is 1. *)
Example C29_case :
  let E := task_env (fun k => 5 * Z.of_nat k) (fun k i => Z.of_nat (1 + i)) (fun _ => None) in
  let c := synced (demo_task [[cellv I_NO [V R_I 0]; cellv I_COIL [V R_Q 0]]]) in
  cycle_ready E task_w c 1000 /\ exists s', cycle E (start c) = Ok (T_continue, s')
  /\ calls (start c) s' [EvMillis 0; EvBefore; EvRead 0; EvInstr; EvInstr; EvScanEnd; EvWrite 0 (Some [1; 1]) (Some [0; 0]); EvMillis 35; EvAfter].
Proof. cbv zeta. split; [decide_cycle|]. eexists. split; vm_compute; reflexivity. Qed.
(* A context that waits twice before it is set running, and then runs two cycles. *)
Example C29_run_case :
  let E := task_env (fun k => 5 * Z.of_nat k) (fun k i => Z.of_nat (1 + i)) (fun k => if (k =? 1)%nat then Some S_RUNNING else None) in
  let c := set_x_state S_STOPPED (synced (demo_task [[cellv I_NO [V R_I 0]; cellv I_COIL [V R_Q 0]]])) in
  cycle_ready E task_w c 1000 /\ exists s', goes E task_w 2 (start c) s'
  /\ length (filter (fun ev => match ev with EvWrite _ _ _ => true | _ => false end) (s_tr s')) = 2%nat.
Proof.
  intros E c. split; [subst E c; cbv zeta; decide_cycle|].
  set (d := EvDelay (q_delay (x_q c))). set (s1 := mk_st c [d]). set (s2 := mk_st (set_x_state S_RUNNING c) [d; d]).
  set (s3 := match cycle E s2 with Ok (_, t) => t | _ => s2 end). set (s4 := match cycle E s3 with Ok (_, t) => t | _ => s3 end).
  assert (W : waits task_w 2 (start c) s2).
  { apply (wt_more _ _ _ s1); [vm_compute; intuition discriminate|reflexivity|apply changes_refl|].
    apply (wt_more _ _ _ s2); [vm_compute; intuition discriminate|reflexivity|apply state_changes|apply wt_done]. }
  exists s4. split; [|vm_compute; reflexivity].
  apply (go_cycle _ _ 2 1 _ s2 s3 s4 W); [lia|reflexivity|vm_compute; reflexivity|].
  apply (go_cycle _ _ 0 0 s3 s3 s4 s4); [apply wt_done|lia|vm_compute; reflexivity|vm_compute; reflexivity|apply go_none].
Qed.
EX*)

(** ** C34 *)

(** C34: the delays of a cycle are: one of target minus measured milliseconds if there is a positive target and the cycle
    (from its first clock reading [t0] to the one after the writes, [t1]) was shorter; none otherwise. *)
Lemma C34_padding_l : forall E W m s s' si, cycle_ready E W (s_ctx s) m -> peek (s_ctx s) LStats = Some (VStats si) -> cycle E s = Ok (T_continue, s') ->
  exists a b t0 t1 late pad l, begins W s a t0 /\ scans E a b /\ closes W b s' t1 late pad /\ calls s s' l
    /\ filter is_delay l = map EvDelay pad
    /\ pad = (if (0 <? si_target si) && (lapse t0 t1 <? si_target si) then [si_target si - lapse t0 t1] else [])
    /\ late = alarm (s_ctx s) (lapse t0 t1).
Proof.
  intros E W m s s' si [CB TA TR SR] SI H. destruct (cycle_ok E W CB TA s m TR SR s' H) as (a & b & t0 & t1 & si0 & si1 & si2 & P).
  destruct (scan_calls E a b (cp_scans _ _ _ _ _ _ _ _ _ _ _ _ P)) as (scan & S1 & S2).
  pose proof (cp_begins _ _ _ _ _ _ _ _ _ _ _ _ P) as BE. pose proof (cp_closes _ _ _ _ _ _ _ _ _ _ _ _ P) as CL.
  destruct (cp_clock _ _ _ _ _ _ _ _ _ _ _ _ P) as [CK0 CK1]. destruct (cp_stats _ _ _ _ _ _ _ _ _ _ _ _ P) as (T1 & T2 & T3 & _).
  rewrite SI in T1. injection T1 as <-. rewrite T2 in T3. destruct (stats_fields _ _ _ T3) as [F1 F2]; auto. simpl in F1, F2.
  rewrite F1, F2 in CL. destruct (cp_same _ _ _ _ _ _ _ _ _ _ _ _ P) as (_ & SB & _).
  rewrite (alarm_conf (s_ctx s) (s_ctx b)) in CL by now apply same_conf.
  pose proof BE as BE0. pose proof CL as (ws & HW & CC & _). destruct BE0 as [BC _].
  eexists a, b, t0, t1, _, _, _. split; [exact BE|]. split; [apply P|]. split; [exact CL|]. split; [eapply calls_trans; [exact BC|eapply calls_trans; [exact S1|exact CC]]|].
  split; [|auto]. simpl. repeat (rewrite ?filter_app; simpl). rewrite filter_reads, (filter_scan _ S2), (filter_writes _ _ _ HW), !filter_optional by reflexivity.
  rewrite filter_delays. simpl. now rewrite app_nil_r.
Qed.
(** C34: a cycle that faults does not delay. *)
Lemma C34_fault_no_delay_l : forall E W m s s', cycle_ready E W (s_ctx s) m -> cycle E s = Ok (T_exit, s') ->
  exists l, calls s s' l /\ filter is_delay l = [].
Proof.
  intros E W m s s' CY H. destruct (C29_order_fault_l E W m s s' CY H) as (a & b & t0 & t1 & late & scan & ws & c & [BC _] & _ & S1 & S2 & CC & HW).
  eexists. split; [eapply calls_trans; [exact BC|eapply calls_trans; [exact S1|exact CC]]|].
  simpl. repeat (rewrite ?filter_app; simpl). rewrite filter_reads, (filter_scan _ S2), (filter_writes _ _ _ HW), !filter_optional by reflexivity. reflexivity.
Qed.

(*EX
(* Target 100 ms: the cycle takes 35 ms and the rest, 65 ms, is waited. *)
Example C34_case :
  let E := task_env (fun k => 5 * Z.of_nat k) (fun k i => Z.of_nat (1 + i)) (fun _ => None) in
  let c := synced (demo_task [[cellv I_NO [V R_I 0]; cellv I_COIL [V R_Q 0]]]) in
  let c := set_x_si (set_si_target 100 (x_si c)) c in
  cycle_ready E task_w c 1000 /\ exists s', cycle E (start c) = Ok (T_continue, s') /\ lapse 0 35 = 35
  /\ calls (start c) s' [EvMillis 0; EvBefore; EvRead 0; EvInstr; EvInstr; EvScanEnd; EvWrite 0 (Some [1; 1]) (Some [0; 0]); EvMillis 35; EvDelay 65; EvAfter].
Proof. cbv zeta. split; [decide_cycle|]. eexists. split; [vm_compute; reflexivity|]. split; vm_compute; reflexivity. Qed.
EX*)

(** ** C28 *)

(** C28: when the scan faults, the write functions of all modules in use get, with write_on_fault, the values that the outputs
    had when the cycle began, and zero otherwise; this holds for all outputs of modules that have digital outputs. At that
    moment the flags of memory, counters and timers have the values of their histories at the beginning of the cycle, the
    counter, D and R registers and timer accumulators are zero, and the state is EXIT_TSK. *)
Lemma C28_fault_outputs_l : forall E W m s s', cycle_ready E W (s_ctx s) m -> cycle E s = Ok (T_exit, s') ->
  exists a b c ws rest t0, begins W s a t0 /\ scans E a b /\ peek (s_ctx b) LState = Some (VState S_INV)
    /\ calls b s' (ws ++ rest) /\ Forall2 (hands c) (seq 0 (io_wq (x_io (s_ctx s)))) ws
    /\ (peek (s_ctx b) LWof = Some (VB true) -> forall l, output_kept (s_ctx s) l -> peek c l = peek (s_ctx s) l)
    /\ (peek (s_ctx b) LWof = Some (VB false) -> forall l, driven (s_ctx s) l -> peek c l = Some (VZ 0))
    /\ (forall l h, flag_place (s_ctx s) l -> past l = Some h -> peek c l = peek (s_ctx s) h)
    /\ (forall l, reg_place (s_ctx s) l -> peek c l = Some (VZ 0))
    /\ peek c LState = Some (VState S_EXIT_TSK)
    /\ (forall l, past l <> None -> peek (s_ctx s') l = peek c l)
    /\ Forall (fun ev => match ev with EvMillis _ | EvPanic | EvAfter => True | _ => False end) rest.
Proof.
  intros E W m s s' [CB TA TR SR] H. destruct (cycle_fault E W CB TA s m TR SR s' H) as (a & b & sf & t0 & t1 & late & ws & P).
  eexists a, b, (s_ctx sf), ws, _, t0. split; [apply P|]. split; [apply P|]. split; [apply P|]. split; [apply (fp_calls _ _ _ _ _ _ _ _ _ _ _ _ P)|].
  split; [apply P|]. split; [intros WF l OK; exact (fp_kept _ _ _ _ _ _ _ _ _ _ _ _ P l WF OK)|]. split; [intros WF l OK; exact (fp_zero _ _ _ _ _ _ _ _ _ _ _ _ P l WF OK)|]. split; [apply P|]. split; [apply P|]. split; [apply P|]. split.
  - intros l PN. apply (fp_after _ _ _ _ _ _ _ _ _ _ _ _ P). intros [->|[[-> _]|[K|[K|[K|(x & q & qw & _ & K)]]]]]; try (now apply PN); revert K; apply (harmless_now W TA); simpl; auto.
  - constructor; [exact I|]. apply Forall_app. split; [destruct (_ && _); simpl; auto|destruct (h_after _); simpl; auto].
Qed.
(** C28: in a run where flags and outputs were remembered (C32), the flags get back the values they had when the cycle began. *)
Lemma C28_flags_rolled_back_l : forall E W m s s' l, cycle_ready E W (s_ctx s) m -> remembers (s_ctx s) -> cycle E s = Ok (T_exit, s') ->
  flag_place (s_ctx s) l -> peek (s_ctx s') l = peek (s_ctx s) l.
Proof.
  intros E W m s s' l CY R H FL. destruct (C28_fault_outputs_l E W m s s' CY H) as (a & b & c & ws & rest & t0 & _ & _ & _ & _ & _ & _ & _ & F & _ & _ & K & _).
  assert (PN : past l <> None) by (apply (saved_now (s_ctx s)); left; auto). destruct (past l) as [h|] eqn:P; [|congruence].
  rewrite K by congruence. rewrite (F l h FL P). apply R; auto.
Qed.
(** C28: the task ends with such a cycle. *)
Lemma C28_ends_l : forall E k s s', peek (s_ctx s) LState = Some (VState S_RUNNING) -> cycle E s = Ok (T_exit, s') -> task_loop E (S k) s = Ok (Ended, s').
Proof.
  intros E k s s' RU H. pose proof RU as RU'. simpl in RU'. injection RU' as RU'. rewrite loop_running by exact RU. unfold bind. rewrite H. reflexivity.
Qed.
(** C28, finding: a module without digital outputs is left out. Its write function gets what the faulting scan computed,
    neither the previous values nor zero. *)
Lemma C28_analog_only_actual_l : forall E W m s s', cycle_ready E W (s_ctx s) m -> cycle E s = Ok (T_exit, s') ->
  exists a b c ws rest t0, begins W s a t0 /\ scans E a b /\ calls b s' (ws ++ rest) /\ Forall2 (hands c) (seq 0 (io_wq (x_io (s_ctx s)))) ws
    /\ forall x i id qa, (x < io_wq (x_io (s_ctx s)))%nat -> peek (s_ctx s) (LOutMeta x) = Some (VMeta id 0 qa) ->
         peek c (LOut x K_QW i) = peek (s_ctx b) (LOut x K_QW i).
Proof.
  intros E W m s s' [CB TA TR SR] H. destruct (cycle_fault E W CB TA s m TR SR s' H) as (a & b & sf & t0 & t1 & late & ws & P).
  eexists a, b, (s_ctx sf), ws, _, t0. split; [apply P|]. split; [apply P|]. split; [apply (fp_calls _ _ _ _ _ _ _ _ _ _ _ _ P)|]. split; [apply P|].
  intros x i id qa XL MT. apply (fp_analog _ _ _ _ _ _ _ _ _ _ _ _ P x K_QW i id qa); auto.
Qed.

(** C28 is violated by modules with analog outputs only: with write_on_fault, the write function gets the value 10 computed by
    the faulting scan, where the cycle began with 5. *)
Lemma C28_analog_refuted_l : exists E W m s s' x q qw w w', cycle_ready E W (s_ctx s) m /\ peek (s_ctx s) LWof = Some (VB true) /\ cycle E s = Ok (T_exit, s')
  /\ In (EvWrite x q qw) (s_tr s') /\ output_place (s_ctx s) (LOut x K_QW 0) /\ elem qw 0 = Some w /\ peek (s_ctx s) (LOut x K_QW 0) = Some (VZ w') /\ w <> w' /\ w <> 0.
Proof.
  set (c := set_x_out (Some [mk_outmod 1 0 2 None (Some [5; 6]) None (Some [5; 6])]) (set_x_wof true (demo_task [[cellv I_MOVE [V R_D 0; V R_QW 0]; cellv I_MOVE [V R_D 0; V R_D 99]]]))).
  exists (task_env (fun k => 5 * Z.of_nat k) (fun k i => Z.of_nat (1 + i)) (fun _ => None)), task_w, 1000, (start c). eexists. exists 0%nat, None, (Some [10; 6]), 10, 5.
  split; [decide_cycle|]. split; [reflexivity|]. split; [vm_compute; reflexivity|]. split; [simpl; auto 20|]. split.
  { exists 0%nat, 1, 0%nat, 2%nat, 0%nat. split; [vm_compute; auto|]. split; [reflexivity|]. right. repeat split; try (vm_compute; discriminate). lia. }
  repeat split; try reflexivity; lia.
Qed.
(*EX
(* A coil sets output 0 and memory 1, then a MOVE faults: both get their old value back (write_on_fault), or the outputs are cleared. *)
Example C28_case : forall wof,
  let E := task_env (fun k => 5 * Z.of_nat k) (fun k i => Z.of_nat (1 + i)) (fun _ => None) in
  let c := set_x_wof wof (synced (demo_task [[cellv I_COIL [V R_Q 0]; cellv I_COIL [V R_M 1]; cellv I_MOVE [V R_D 0; V R_D 99]]])) in
  cycle_ready E task_w c 1000 /\ exists s', cycle E (start c) = Ok (T_exit, s')
  /\ calls (start c) s' [EvMillis 0; EvBefore; EvRead 0; EvInstr; EvInstr; EvWrite 0 (Some [0; if wof then 1 else 0]) (Some [0; 0]); EvMillis 30; EvAfter]
  /\ peek (s_ctx s') (LReg B_M 1) = Some (VZ 0) /\ peek (s_ctx s') (LReg B_D 0) = Some (VZ 0).
Proof. cbv zeta. intros [|]. all: split; [decide_cycle|]; eexists; split; [vm_compute; reflexivity|]; split; [vm_compute; reflexivity|split; reflexivity]. Qed.
EX*)

(** ** C32 *)

Lemma cycle_opens E W m s s' nx : callbacks E W -> tame W -> task_ready (s_ctx s) -> scan_ready E (during_scan W) (s_ctx s) m -> cycle E s = Ok (nx, s') ->
  exists a b t0, begins W s a t0 /\ scans E a b /\ scan_ready E (during_scan W) (s_ctx a) m /\ same_program (s_ctx s) (s_ctx a)
     /\ (remembers (s_ctx s) -> forall l h, saved (s_ctx s) l -> past l = Some h -> peek (s_ctx a) h = peek (s_ctx s) l)
     /\ (forall l h, input_kept (s_ctx s) l -> past l = Some h -> peek (s_ctx a) h = peek (s_ctx s) l)
     /\ (forall l, past l <> None -> (forall m k i, l <> LIn m k i) -> peek (s_ctx a) l = peek (s_ctx s) l)
     /\ (nx = T_continue -> peek (s_ctx b) LState <> Some (VState S_INV)).
Proof.
  intros CB TA TR SR H. destruct (cycle_split E W CB s nx s' TR H) as (t0 & s1 & s2 & s3 & s4 & a & b & OP & X & _ & NX).
  destruct (begins_split E W CB TA _ _ _ _ _ _ _ OP) as (B1 & B2 & B3 & B4 & B5 & B6 & B7).
  exists a, b, t0. split; auto. split; auto. split; [|split; auto; split; [|split; auto; split; auto]].
  - eapply same_ready; eauto. eapply (limit_start m (s_ctx s)); [apply (sr_limit _ _ _ _ SR)|reflexivity|apply B7; reflexivity].
  - intros R l h SV P. pose proof (kept_dec (s_ctx s) l SV) as D.
    destruct D as [D|D]; [now apply B4|]. rewrite (B5 l h P); auto. intros [K _]. apply input_now in K as (x & k & i & -> & _).
    destruct SV as [(bk & j & _ & _ & K)|(x' & id & qd & qa & j & _ & _ & [(K & _)|(K & _)])]; discriminate.
  - intros ->. destruct NX as [(_ & K & _)|(K & _)]; [discriminate|auto].
Qed.
Lemma reach_past E W m a n r col t e t' h : tame W -> scan_ready E (during_scan W) (s_ctx a) m -> reaches E W a n r col t e t' -> is_past h -> peek (s_ctx t) h = peek (s_ctx a) h.
Proof.
  intros TA SA RE P. destruct (reach_frame E W a m SA n r col t e t' RE) as [J _]. apply J. intros [K|[K|(x & y & z & K)]].
  - now apply scan_past in K.
  - now apply (during_past W TA) in K.
  - subst h. destruct P as (l & P). destruct l; simpl in P; repeat match type of P with match ?x with _ => _ end = _ => destruct x end; discriminate.
Qed.
(** C32: at every instruction of a cycle the history of every flag and of every output is the value the flag or output had when
    the cycle began, provided the histories were up to date then (as they are after every cycle, C32_run). *)
Lemma C32_flags_outputs_l : forall E W m s s' nx, cycle_ready E W (s_ctx s) m -> cycle E s = Ok (nx, s') -> remembers (s_ctx s) ->
  exists a b t0, begins W s a t0 /\ scans E a b /\ forall n r col t e t' l h, reaches E W a n r col t e t' ->
    flag_place (s_ctx s) l \/ output_place (s_ctx s) l -> past l = Some h -> peek (s_ctx t) h = peek (s_ctx s) l.
Proof.
  intros E W m s s' nx [CB TA TR SR] H R.
  destruct (cycle_opens E W m s s' nx CB TA TR SR H) as (a & b & t0 & B & X & SA & _ & HA & _). exists a, b, t0. split; auto. split; auto. intros n r col t e t' l h RE SV P.
  rewrite <- (HA R l h SV P). eapply reach_past; eauto. exists l; auto.
Qed.
(** C32: the history of an input is the value the input had when the cycle began (as read in the previous cycle). *)
Lemma C32_inputs_l : forall E W m s s' nx, cycle_ready E W (s_ctx s) m -> cycle E s = Ok (nx, s') ->
  exists a b t0, begins W s a t0 /\ scans E a b /\ forall n r col t e t' l h, reaches E W a n r col t e t' ->
    input_place (s_ctx s) l -> with_digital (s_ctx s) l -> past l = Some h -> peek (s_ctx t) h = peek (s_ctx s) l.
Proof.
  intros E W m s s' nx [CB TA TR SR] H.
  destruct (cycle_opens E W m s s' nx CB TA TR SR H) as (a & b & t0 & B & X & SA & _ & _ & HA & _). exists a, b, t0. split; auto. split; auto. intros n r col t e t' l h RE IP WD P.
  rewrite <- (HA l h (conj IP WD) P). eapply reach_past; eauto. exists l; auto.
Qed.
(** C32: every cycle without fault leaves the histories of flags and outputs up to date, whatever they were before, and waiting
    keeps them so; the assumptions about a cycle also hold again. So the theorems about a cycle apply to every cycle of a run. *)
Lemma C32_run_l : forall E W m k s s', cycle_ready E W (s_ctx s) m -> goes E W k s s' -> (0 < k)%nat \/ remembers (s_ctx s) ->
  remembers (s_ctx s') /\ cycle_ready E W (s_ctx s') m /\ same_program (s_ctx s) (s_ctx s').
Proof.
  intros E W m k s s' [CB TA TR SR] G R. destruct (goes_keeps E W CB TA k s m s' TR SR G) as (A & B & C & D). split; auto. split; auto. constructor; auto.
Qed.
Lemma C32_waiting_l : forall E W m k s s' l, cycle_ready E W (s_ctx s) m -> waits W k s s' -> past l <> None \/ is_past l ->
  peek (s_ctx s') l = peek (s_ctx s) l.
Proof.
  intros E W m k s s' l [CB TA TR SR] G P. destruct (waits_keep E W CB TA k s s' G) as (_ & _ & _ & A). apply A. tauto.
Qed.
Lemma digital_q c m i : output_place c (LOut m K_Q i) -> with_digital c (LOut m K_Q i).
Proof. intros (m' & id & qd & qa & j & A & B & [(K & C & D & F)|(K & _)]); [|discriminate]. injection K as <- <-. exists id, qd, qa. split; auto. split; [lia|auto]. Qed.
Lemma digital_i c m i : input_place c (LIn m K_I i) -> with_digital c (LIn m K_I i).
Proof. intros (m' & id & qd & qa & j & A & B & [(K & C & D & F)|(K & _)]); [|discriminate]. injection K as <- <-. exists id, qd, qa. split; auto. split; [lia|auto]. Qed.
Lemma v_module_range v : 0 <= v_module v. Proof. unfold v_module. apply Z.mod_pos_bound. lia. Qed.
Lemma v_port_range v : 0 <= v_port v. Proof. unfold v_port. apply Z.mod_pos_bound || (apply Z.div_pos; [|lia]; unfold u32; apply Z.mod_pos_bound); lia. Qed.
Lemma prev_now c t v l h z : place_now v = Some l -> past l = Some h -> peek t h = peek c l -> same_program c t ->
  (match v_type v with R_Q | R_I => True | _ => 0 <= v_raw v end) -> flag_place c l \/ output_place c l \/ input_place c l -> prev_reads t v z <-> reads c v z.
Proof.
  intros CU PA PK SP RW PL. assert (HO : holds t h z <-> holds c l z) by (unfold holds; rewrite PK; reflexivity).
  destruct (same_q _ _ SP) as (_ & IO & _).
  unfold place_now in CU. unfold prev_reads, reads, bad_index.
  destruct (v_type v) eqn:TY; try discriminate; injection CU as <-; simpl in PA; injection PA as <-; cbn [bank_of].
  1-5: assert (IQ : in_qty (v_raw v) (bank_qty B_M (x_q c)) \/ True) by auto.
  all: try (destruct PL as [(b & i & IN & LT & K)|[(m & id & qd & qa & i & _ & _ & [(K & _)|(K & _)])|(m & id & qd & qa & i & _ & _ & [(K & _)|(K & _)])]]; try discriminate; injection K as <- <-;
    unfold in_qty, ix in *; split; [intros [_ H]; right; split; [lia|]; unfold holds_flag in *; rewrite ?HO in *; tauto|intros [(H & _)|(_ & H)]; [exfalso; apply H; lia|split; auto; unfold holds_flag in *; rewrite ?HO in *; tauto]]).
  - pose proof (v_module_range v). pose proof (v_port_range v).
    destruct PL as [(b & i & IN & LT & K)|[(m & id & qd & qa & i & A & B & [(K & LT & L1 & L2)|(K & _)])|(m & id & qd & qa & i & _ & _ & [(K & _)|(K & _)])]]; try discriminate. injection K as <- <-.
    rewrite IO. unfold ix in *. replace (v_module v <? Z.of_nat (io_wq (x_io c))) with true by (symmetry; apply Z.ltb_lt; lia). split.
    + intros (id' & qd' & qa' & M & H1). rewrite (same_get _ _ (LOutMeta _) SP I I), B in M. injection M as <- <- <-. right. split; [tauto|].
      replace (v_port v <? Z.of_nat qd) with true in H1 by (symmetry; apply Z.ltb_lt; lia). rewrite (same_get _ _ (LOutLen _ _) SP I I) in H1. destruct H1 as [[H1 _]|H1]; [contradiction|]. now apply HO.
    + intros [(H1 & _)|(_ & H1)]; [contradiction|]. exists id, qd, qa. rewrite (same_get _ _ (LOutMeta _) SP I I). split; auto.
      replace (v_port v <? Z.of_nat qd) with true by (symmetry; apply Z.ltb_lt; lia). right. now apply HO.
  - pose proof (v_module_range v). pose proof (v_port_range v).
    destruct PL as [(b & i & IN & LT & K)|[(m & id & qd & qa & i & _ & _ & [(K & _)|(K & _)])|(m & id & qd & qa & i & A & B & [(K & LT & L1 & L2)|(K & _)])]]; try discriminate. injection K as <- <-.
    rewrite IO. unfold ix in *. replace (v_module v <? Z.of_nat (io_rq (x_io c))) with true by (symmetry; apply Z.ltb_lt; lia). split.
    + intros (id' & qd' & qa' & M & H1). rewrite (same_get _ _ (LInMeta _) SP I I), B in M. injection M as <- <- <-. right. split; [tauto|].
      replace (v_port v <? Z.of_nat qd) with true in H1 by (symmetry; apply Z.ltb_lt; lia). rewrite (same_get _ _ (LInLen _ _) SP I I) in H1. destruct H1 as [[H1 _]|H1]; [contradiction|]. now apply HO.
    + intros [(H1 & _)|(_ & H1)]; [contradiction|]. exists id, qd, qa. rewrite (same_get _ _ (LInMeta _) SP I I). split; auto.
      replace (v_port v <? Z.of_nat qd) with true by (symmetry; apply Z.ltb_lt; lia). right. now apply HO.
Qed.
(** C32: hence the previous value of an operand (flag, digital output or digital input) that any instruction of a cycle sees is
    the value the operand had when the cycle began. *)
Lemma C32_operand_l : forall E W m s s' nx, cycle_ready E W (s_ctx s) m -> cycle E s = Ok (nx, s') -> remembers (s_ctx s) ->
  exists a b t0, begins W s a t0 /\ scans E a b /\ forall n r col t e t' v l z, reaches E W a n r col t e t' ->
    place_now v = Some l -> flag_place (s_ctx s) l \/ output_place (s_ctx s) l \/ input_place (s_ctx s) l ->
    (v_type v = R_Q \/ v_type v = R_I \/ 0 <= v_raw v) -> prev_reads (s_ctx t) v z <-> reads (s_ctx s) v z.
Proof.
  intros E W m s s' nx [CB TA TR SR] H R.
  destruct (cycle_opens E W m s s' nx CB TA TR SR H) as (a & b & t0 & B & X & SA & SP & HA & HI & _). exists a, b, t0. split; auto. split; auto.
  intros n r col t e t' v l z RE PN PL RW.
  assert (exists h, past l = Some h) as (h & P) by (unfold place_now in PN; destruct (v_type v); try discriminate; injection PN as <-; simpl; eauto).
  assert (PK : peek (s_ctx t) h = peek (s_ctx s) l).
  { rewrite (reach_past E W m a n r col t e t' h TA SA RE (ex_intro _ l P)). destruct PL as [PL|[PL|PL]]; [apply HA; auto; left; auto|apply HA; auto; right; auto|apply HI; auto].
    split; auto. unfold place_now in PN. destruct (v_type v); try discriminate; injection PN as <-; try exact I; [|now apply digital_i].
    destruct PL as (m' & id & qd & qa & j & A & _ & [(K & _)|(K & _)]); discriminate. }
  assert (ST : same_program (s_ctx s) (s_ctx t)).
  { destruct (reach_frame E W a m SA n r col t e t' RE) as [J _]. eapply same_trans; [exact SP|]. eapply scan_same; [exact J|].
    intros p [K|(x & y & z' & ->)]; [now apply (sr_layout _ _ _ _ SA)|simpl; auto]. }
  eapply prev_now; eauto. destruct (v_type v); auto; destruct RW as [K|[K|K]]; auto; discriminate.
Qed.
(*EX
(* A coil changes output 0 and memory 1 from 0 to 1; histories: before the cycle 0, after it 1. *)
Example C32_case :
  let E := task_env (fun k => 5 * Z.of_nat k) (fun k i => Z.of_nat (1 + i)) (fun _ => None) in
  let c := synced (demo_task [[cellv I_COIL [V R_Q 0]; cellv I_COIL [V R_M 1]]]) in
  cycle_ready E task_w c 1000 /\ exists s', cycle E (start c) = Ok (T_continue, s')
  /\ map (peek c) [LReg B_M 1; LReg B_Mh 1; LOut 0 K_Q 0; LOut 0 K_Qh 0; LIn 0 K_I 1; LIn 0 K_Ih 1] = map (fun z => Some (VZ z)) [0; 0; 0; 0; 0; 1]
  /\ map (peek (s_ctx s')) [LReg B_M 1; LReg B_Mh 1; LOut 0 K_Q 0; LOut 0 K_Qh 0; LIn 0 K_I 1; LIn 0 K_Ih 1] = map (fun z => Some (VZ z)) [1; 1; 1; 1; 2; 0].
Proof. cbv zeta. split; [decide_cycle|]. eexists. split; [vm_compute; reflexivity|]. split; vm_compute; reflexivity. Qed.
(* A context whose histories are up to date. *)
Example C32_remembers_case : remembers (synced (demo_task [[cellv I_COIL [V R_Q 0]; cellv I_COIL [V R_M 1]]])).
Proof.
  intros l h [(b & i & B & L & ->)|(m & id & qd & qa & i & M & MT & K)] P.
  - simpl in B. destruct b; simpl in P; try discriminate; injection P as <-; reflexivity.
  - destruct m as [|m]; [|vm_compute in M; lia]. destruct K as [(-> & _)|(-> & _)]; simpl in P; injection P as <-; reflexivity.
Qed.
EX*)
