(** machines that do not stop by themselves (C65). *)
From Verif Require Import DemoTask DemoSafe ScanPoint.
From Verif Require Export P_Calm P_Scan.
Open Scope list_scope.
Open Scope Z_scope.
(*IMPORT DemoScan DemoSafe DemoTask DemoCalm Props_Call Props_Port Props_Calm *)

Lemma sure_executed E W m s s0 s1 s2 before after n r col e : scan_ready E W (s_ctx s) m -> cron_step E s s0 ->
  program_cells (s_ctx s) = before ++ (n, r, col) :: after -> executes E W before s0 s1 -> executed E n r col s1 e s2 ->
  cannot_fail (code_at (s_ctx s) n r col) = true -> e = E_OK.
Proof.
  intros SR CS PC X1 X2 CF. pose proof (cron_J2 E W (s_ctx s) s s0 eq_refl CS) as J0.
  destruct (J2_executes E W (s_ctx s) (sr_env _ _ _ _ SR) (sr_layout _ _ _ _ SR) (sr_nets _ _ _ _ SR) before s0 s1) as [J1 _]; auto.
  { intros x IN. rewrite PC. apply in_or_app. now left. }
  destruct (J2_executed E W (s_ctx s) (sr_env _ _ _ _ SR) (sr_layout _ _ _ _ SR) (sr_nets _ _ _ _ SR) n r col s1 e s2) as (i & b & dq & C0 & _ & O & _); auto.
  { rewrite PC. apply in_or_app. right. now left. }
  unfold code_at in CF. rewrite C0 in CF. unfold outcome in O. destruct (ladder_function E i) as [f|] eqn:F; [|discriminate]. injection O as O. exact (sure_ok E i f col r CF F s1 e s2 O).
Qed.

Section Env.
Variables (cron : bool) (keys : nat -> list Z) (al : nat -> nat -> bool) (tv : nat -> Z * Z) (now : nat -> tm) (c0 : ctx).
Hypothesis W0 : well_formed_ctx c0.
Hypothesis F0 : port_fits cron c0.
Hypothesis NQ : forall k, dummy_key (keys k) <> 81 /\ dummy_key (keys k) <> 113.
Lemma firm_defined k ev c c' : ev <> EvPanic -> shape c = shape c0 -> due c ev -> port_call cron keys al k ev c = Ok c' -> holds_on c c'.
Proof.
  intros NP SH D K. destruct ev; cbn [port_call] in K; try (injection K as <-; now split); try contradiction; try congruence.
  - destruct (PortFacts.read_inv _ _ _ _ K) as (CH & _). destruct (NQ k) as [N1 N2].
    assert (ST : peek c' LState = peek c LState) by (apply CH; intros [[_ [X|X]]|(i & _ & X)]; congruence).
    assert (CR : peek c' LCron = peek c LCron) by (apply CH; intros [[X _]|(i & _ & X)]; discriminate). cbn [peek] in ST, CR. split; congruence.
  - destruct D as [D _]. rewrite (PortFacts.write_ok cron c0 c W0 F0 SH n D) in K. injection K as <-. now split.
Qed.
Lemma running_firm : firm_calls c0 (running cron keys al tv now).
Proof.
  constructor.
  - intros k ev c NP SH D. destruct (calm_defined cron keys al c0 W0 F0 k ev c NP SH D) as (c' & R & _). pose proof (firm_defined k ev c c' NP SH D R) as FD. cbn [act running port_env]. destruct ev; try contradiction; rewrite R; exact FD.
  - intros k id col row c SH D. destruct (calm_exec c0 id col row c SH D) as (r & R & _). cbn [fexec running port_env]. rewrite R. unfold dummy_exec in R. destruct (cleft col row c) as [b'| |]; cbn [rbind] in R; try discriminate.
    destruct (put_state col row b' c) as [c'| |] eqn:PS; cbn [rbind] in R; try discriminate. apply (q_put col row b') in PS. destruct PS as (P1 & _ & P2). injection R as <-. cbn [snd]. now split.
Qed.
End Env.

(** ** C65 *)

(** A scan of instructions of the list within the cycle limit executes all of them, whatever their operands and the registers:
    none fails, and the scan neither stops nor changes the state of the machine. *)
Lemma C65_scan_l : forall E W m s s', scan_ready E W (s_ctx s) m -> scans E s s' ->
  (forall n r col, In (n, r, col) (program_cells (s_ctx s)) -> cannot_fail (code_at (s_ctx s) n r col) = true) ->
  (forall n, (n < q_nets (x_q (s_ctx s)))%nat -> cost (s_ctx s) n <= m) ->
  exists s0, cron_step E s s0 /\ scan_complete E W (s_ctx s) s0 s'.
Proof.
  intros E W m s s' SR SC SU CO. destruct (C26_no_interference_l E W m s s' SR SC CO) as (s0 & CS & [K|(n & r & col & e & before & after & s1 & s2 & PC & X1 & X2 & NE & _)]); [eauto|].
  exfalso. apply NE. eapply (sure_executed E W m s); eauto. apply SU. rewrite PC. apply in_or_app. right. now left.
Qed.
(** Without regard to the limit: the only thing that can stop it is the limit. *)
Lemma C65_only_limit_l : forall E W m s s', scan_ready E W (s_ctx s) m -> scans E s s' ->
  (forall n r col, In (n, r, col) (program_cells (s_ctx s)) -> cannot_fail (code_at (s_ctx s) n r col) = true) ->
  exists s0, cron_step E s s0 /\ (scan_complete E W (s_ctx s) s0 s'
    \/ exists n, (n < q_nets (x_q (s_ctx s)))%nat /\ m < cost (s_ctx s) n /\ scan_overrun E W (s_ctx s) s0 s' n).
Proof.
  intros E W m s s' SR SC SU. destruct (C27_stops_at_first_fault_l E W m s s' SR SC) as (s0 & CS & [[K _]|[(n & r & col & e & before & after & s1 & s2 & PC & X1 & X2 & NE & _)|K]]); [eauto| |eauto].
  exfalso. apply NE. eapply (sure_executed E W m s); eauto. apply SU. rewrite PC. apply in_or_app. right. now left.
Qed.
(** The list is complete: every other instruction of the dispatch table can fail. *)
Lemma C65_others_l : forall i, known i -> cannot_fail i = false ->
  exists c e s', in_program c 0 0 0 i /\ executed quiet_env 0 0 0 (start c) e s' /\ e <> E_OK.
Proof.
  intros i K F. exists (demo [[on (cellv i (match i with I_TMOVE => [V R_NONE 0; V R_NONE 0; V R_NONE 0; V R_NONE 0; V R_NONE 1] | I_MOVE => [V R_NONE 7; V R_D 99] | _ => [V R_D 99; V R_NONE 1] end))]]).
  destruct i; try contradiction; try discriminate F; eexists; eexists; (split; [exists 1%nat, 1%nat, false; eexists; repeat split; simpl; auto|]); (split; [split; [reflexivity|]; eexists; eexists; eexists; split; [reflexivity|]; vm_compute; reflexivity|discriminate]).
Qed.
(** A machine with everything it needs, with room in its cycle limit, a program of instructions of the list, and cron jobs if it has a
    table of them, runs for ever if no call asks for the end: after any number of cycles the task is still going and its state is
    "running", and the panic hook was never called. *)
Lemma C65_task_l : forall E n s r s', equipped (s_ctx s) -> roomy (s_ctx s) -> calm_calls (s_ctx s) E -> firm_calls (s_ctx s) E -> sure (s_ctx s) -> cron_ready (s_ctx s) ->
  peek (s_ctx s) LState = Some (VState S_RUNNING) -> has_previous (s_ctx s) -> ladder_task E n s = Ok (r, s') ->
  r = Running /\ peek (s_ctx s') LState = Some (VState S_RUNNING) /\ exists l, s_tr s' = l ++ s_tr s /\ ~ In EvPanic l.
Proof.
  intros E n s r s' Q RM KS FK SU CR ST HH K. cbn [peek] in ST. injection ST as ST.
  assert (J0 : CalmFacts.J (s_ctx s) (s_tr s) false true s). { split; [split; [reflexivity|]; split; [reflexivity|]; cbn; auto|]. exists []. repeat split; auto. }
  destruct (CalmTask.t_task (s_ctx s) E E (panic_self _ _) KS Q RM (s_tr s) true (fun _ => FK) (fun _ => conj SU CR) n s J0) as [_ T].
  destruct (T _ _ K) as (l & L1 & _ & L2 & L3). destruct (L3 (guard_equipped _ Q HH)) as [_ L4]. destruct (L4 eq_refl) as [L5 L6]. split; auto. split; [cbn [peek]; congruence|]. exists l. auto.
Qed.

(** The example port: a machine that is well formed, large enough, equipped and has room, with such a program, runs until somebody
    types q. *)
Lemma C65_port_l : forall cron keys al tv now E n s, follows cron keys al tv now E -> (forall k, real_time (tv k)) -> (forall k, calendar (now k)) ->
  (forall k, dummy_key (keys k) <> 81 /\ dummy_key (keys k) <> 113) ->
  well_formed_ctx (s_ctx s) -> tables_ok (s_ctx s) -> port_fits cron (s_ctx s) -> equipped (s_ctx s) -> roomy (s_ctx s) -> has_previous (s_ctx s) ->
  sure (s_ctx s) -> cron_ready (s_ctx s) -> peek (s_ctx s) LState = Some (VState S_RUNNING) ->
  (exists s', ladder_task E n s = Ok (Running, s') /\ peek (s_ctx s') LState = Some (VState S_RUNNING) /\ same_program (s_ctx s) (s_ctx s'))
  \/ exists u, ladder_task E n s = Bad u /\ arithmetic u.
Proof.
  intros cron keys al tv now E n s F RT CA NQ W0 T0 F0 Q RM HP SU CR ST. pose proof (running_calm cron keys al tv now _ W0 F0) as KS.
  assert (G : going (s_ctx s)) by (cbn [peek] in ST; left; congruence).
  rewrite <- (C64_same_l (running cron keys al tv now) E n s Q RM KS (running_alike_but _ _ _ _ _ _ W0 F0 E F RT) G).
  destruct (C41_task_l _ _ n s (running_behaved cron keys al tv now CA) W0 T0) as [(r & s' & A & B & _ & D)|A]; [left|auto].
  destruct (C65_task_l _ n s r s' Q RM KS (running_firm cron keys al tv now _ W0 F0 NQ) SU CR ST HP A) as (-> & K & _). exists s'. auto.
Qed.
(*EX
(** A contact and a coil of flags that do not exist, a division by zero, a timer and its continuation: all are executed. *)
Example C65_scan_case :
  let c := demo_nets [net_on true [[cellv I_NO [V R_M 99]; cellv I_COIL [V R_D (- 3)]]; [cellv I_DIV [V R_NONE 1; V R_NONE 0; V R_D 0]; cellv I_COIL [V R_M 1]]]] in
  scan_ready quiet_env (fun _ => False) c 1000 /\ scans quiet_env (start c) (scan_st quiet_env c)
  /\ program_cells c = [(0, 0, 0); (0, 0, 1); (0, 1, 0); (0, 1, 1)]%nat
  /\ (forall n r col, In (n, r, col) (program_cells c) -> cannot_fail (code_at c n r col) = true) /\ cost c 0 <= 1000
  /\ peek (scan_of quiet_env c) LState = Some (VState S_RUNNING).
Proof.
  intros c. split; [apply (readyb_ok c (fun k => 10 * Z.of_nat k)); vm_compute; reflexivity|]. split; [vm_compute; reflexivity|]. split; [vm_compute; reflexivity|]. split; [|vm_compute; repeat split; discriminate].
  intros n r col IN. change (program_cells c) with [(0, 0, 0); (0, 0, 1); (0, 1, 0); (0, 1, 1)]%nat in IN. simpl in IN. destruct IN as [K|[K|[K|[K|[]]]]]; injection K as <- <- <-; reflexivity.
Qed.
(** The machine of C61_example among calls that never ask for the end. *)
Definition e65 : env := task_env (fun k => Z.of_nat k) (fun k i => Z.of_nat (k + i)) (fun _ => None).
Lemma e65_calls c : calm_calls c e65 /\ firm_calls c e65.
Proof.
  split; constructor.
  - intros k ev c1 _ S1 D. split; [now apply (ks_act _ _ (task_keeps _ _ _ c))|]. destruct ev; try contradiction; (split; [now left|reflexivity]).
  - intros k ev c1 _ S1 D. now apply (ks_exec _ _ (task_keeps _ _ _ c)).
  - intros k id col row c1 S1 D. cbn [fexec e65 task_env snd]. split; auto. split; auto.
  - intros k ev c1 _ S1 D. destruct ev; try contradiction; now split.
  - intros k id col row c1 S1 D. now split.
Qed.
Example C65_example : exists s', ladder_task e65 9 s61 = Ok (Running, s') /\ peek (s_ctx s') LState = Some (VState S_RUNNING) /\ (80 < List.length (s_tr s'))%nat.
Proof.
  destruct C64_example_ready as (A & B & _ & D). destruct (e65_calls (s_ctx s61)) as [F G]. destruct (ladder_task e65 9 s61) as [[r s']| |] eqn:K; [|vm_compute in K; discriminate|vm_compute in K; discriminate].
  destruct (C65_task e65 9 s61 r s' A B F G) as (-> & S & _); auto; [apply sureb_ok; vm_compute; reflexivity|left; reflexivity|]. exists s'. split; auto. split; auto.
  apply (f_equal (fun x => match x with Ok (_, s) => List.length (s_tr s) | _ => 0%nat end)) in K. cbv beta iota in K. rewrite <- K. vm_compute. lia.
Qed.
(** The machine of C62_example without watchdog and foreign function, with the panic handler set; keys switch inputs. *)
Definition pt65_keys (k : nat) : list Z := [120; 48 + Z.of_nat (k mod 8)].
Definition pt65 : ctx := set_x_q (set_q_wdg 0 (x_q pt_machine)) (set_x_h (mk_hooks true true true true true true true true)
  (set_x_net (Some [mk_network true 1 2 (Some [[cellv I_NO [V R_I 768]; cellv I_COIL [V R_Q 0]]])]) pt_machine)).
Lemma pt65_keys_ok k : dummy_key (pt65_keys k) <> 81 /\ dummy_key (pt65_keys k) <> 113.
Proof. pose proof (Nat.mod_upper_bound k 8 ltac:(lia)) as B. unfold pt65_keys. destruct (k mod 8)%nat as [|[|[|[|[|[|[|[|j]]]]]]]]; try (vm_compute; split; discriminate). lia. Qed.
Example C65_port_case : exists s', ladder_task (port_env true pt65_keys pt_al pt_clock pt_now) 9 (mk_st pt65 []) = Ok (Running, s') /\ peek (s_ctx s') LState = Some (VState S_RUNNING).
Proof.
  destruct pt_times as [T1 T2]. destruct (C65_port true pt65_keys pt_al pt_clock pt_now (port_env true pt65_keys pt_al pt_clock pt_now) 9 (mk_st pt65 [])) as [(s' & K & S & _)|(u & K & _)]; auto.
  - constructor; auto; intros; cbn [clk act fexec port_env]; try unfold port_clock; match goal with H : _ = Ok _ |- _ => now rewrite H end.
  - apply pt65_keys_ok.
  - apply wfb_ok; vm_compute; reflexivity.
  - apply tablesb_ok; vm_compute; reflexivity.
  - constructor; try (vm_compute; lia); try reflexivity; intros m M; (assert (m = 0%nat) by (vm_compute in M; lia)); subst m; exists 0, 8%nat, 8%nat; (split; [vm_compute; reflexivity|lia]).
  - apply equippedb_ok; vm_compute; reflexivity.
  - apply (roomyb_ok 1 2); vm_compute; reflexivity.
  - vm_compute; repeat split; discriminate.
  - apply sureb_ok; vm_compute; reflexivity.
  - left; reflexivity.
  - exists s'. auto.
  - exfalso. vm_compute in K. discriminate.
Qed.
EX*)
