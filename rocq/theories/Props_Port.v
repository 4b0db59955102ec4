(** Property theorems: the example port and the example foreign function (C62, C63). *)
From Coq Require Import String.
From Verif Require Import P_Port Demo.
Open Scope list_scope.
Open Scope Z_scope.
From Verif Require Import DemoSafe.

(** ** C62 *)

(** A machine that is well formed and large enough runs safely with the port, without the panic handler: whatever the port would do where it
    is undefined in C does not matter, because no such call is made, and the task runs any number of cycles with the machine
    staying well formed, or ends in undefined arithmetic of the program. Missing: the panic handler, see C62_panic_refuted. *)
Theorem C62_task_partial : forall cron keys al tv now E n s, follows cron keys al tv now E -> (forall k, real_time (tv k)) -> (forall k, calendar (now k)) ->
  well_formed_ctx (s_ctx s) -> tables_ok (s_ctx s) -> port_fits cron (s_ctx s) -> h_panic (x_h (s_ctx s)) = false ->
  (exists r s', ladder_task E n s = Ok (r, s') /\ well_formed_ctx (s_ctx s') /\ same_program (s_ctx s) (s_ctx s'))
  \/ exists u, ladder_task E n s = Bad u /\ arithmetic u.
Proof. exact C62_task_partial_l. Qed.
Print Assumptions C62_task_partial.

(** What is undefined in C has no influence: two environments that follow the port run alike. *)
Theorem C62_same_partial : forall cron keys al tv now E E' n s, follows cron keys al tv now E -> follows cron keys al tv now E' -> (forall k, real_time (tv k)) ->
  well_formed_ctx (s_ctx s) -> port_fits cron (s_ctx s) -> h_panic (x_h (s_ctx s)) = false -> ladder_task E n s = ladder_task E' n s.
Proof. exact C62_same_partial_l. Qed.
Print Assumptions C62_same_partial.

(** A machine made with ctx_init and built with the library, modules with the initialisation functions of the port, is well formed, and
    runs safely. *)
Theorem C62_built_partial : forall alloc a c0 c1 cron keys al tv now s c' keys' al' tv' E n tr, ctx_init alloc a c0 = (true, c1) -> a_init a = true ->
  Z.of_nat (a_nets a) <= 2 ^ 32 -> Z.of_nat (a_m a) <= 2 ^ 32 -> built (port_env cron keys al tv now) (start c1) s -> entered (s_ctx s) c' -> program_ok c' ->
  port_fits cron c' -> h_panic (x_h c') = false -> follows cron keys' al' tv' now E -> (forall k, real_time (tv' k)) -> (forall k, calendar (now k)) ->
  well_formed_ctx c' /\ ((exists r s', ladder_task E n (mk_st c' tr) = Ok (r, s') /\ well_formed_ctx (s_ctx s') /\ same_program c' (s_ctx s'))
                         \/ exists u, ladder_task E n (mk_st c' tr) = Bad u /\ arithmetic u).
Proof. exact C62_built_partial_l. Qed.
Print Assumptions C62_built_partial.

(** A module added with the initialisation function of the port has eight digital and eight analog ports, all 0, and no history
    of its analog ports. *)
Theorem C62_adds_input : forall cron keys al tv now alloc fn s s', reads_wf (s_ctx s) -> let n := io_rq (x_io (s_ctx s)) in
  add_read_fn (port_env cron keys al tv now) alloc fn true s = Ok (true, s') ->
  peek (s_ctx s') (LInMeta n) = Some (VMeta 0 8 8) /\ peek (s_ctx s') (LInLen n K_IWh) = None
  /\ forall k, k <> K_IWh -> peek (s_ctx s') (LInLen n k) = Some (VN 8) /\ forall i, (i < 8)%nat -> holds (s_ctx s') (LIn n k i) 0.
Proof. exact C62_adds_input_l. Qed.
Print Assumptions C62_adds_input.

Theorem C62_adds_output : forall cron keys al tv now alloc fn s s', writes_wf (s_ctx s) -> let n := io_wq (x_io (s_ctx s)) in
  add_write_fn (port_env cron keys al tv now) alloc fn true s = Ok (true, s') ->
  peek (s_ctx s') (LOutMeta n) = Some (VMeta 0 8 8) /\ peek (s_ctx s') (LOutLen n K_QWh) = None
  /\ forall k, k <> K_QWh -> peek (s_ctx s') (LOutLen n k) = Some (VN 8) /\ forall i, (i < 8)%nat -> holds (s_ctx s') (LOut n k i) 0.
Proof. exact C62_adds_output_l. Qed.
Print Assumptions C62_adds_output.

(** The read function: of the characters waiting the last one counts; q ends the task, a digit switches that input of the module,
    and nothing else changes. *)
Theorem C62_keys : forall typed key m c c', pressed typed key -> dummy_read typed m c = Ok c' ->
  changes_only c c' (fun l => (l = LState /\ quits key) \/ exists i, toggles key i /\ l = LIn m K_I i)
  /\ (quits key -> peek c' LState = Some (VState S_EXIT_TSK))
  /\ forall i, toggles key i -> exists v, holds c (LIn m K_I i) v /\ (0 < v -> holds c' (LIn m K_I i) 0) /\ (v <= 0 -> holds c' (LIn m K_I i) 1).
Proof. exact C62_keys_l. Qed.
Print Assumptions C62_keys.

Theorem C62_no_key : forall m c c', dummy_read [] m c = Ok c' -> unchanged c c'.
Proof. exact C62_no_key_l. Qed.
Print Assumptions C62_no_key.

(** The write function changes nothing; it needs everything it shows. *)
Theorem C62_display : forall cron m c c', dummy_write cron m c = Ok c' -> unchanged c c' /\ h_delay (x_h c) = true
  /\ (forall i, (i < 8)%nat -> peek c (LReg B_M i) <> None) /\ (cron = true -> forall i, (10 <= i < 18)%nat -> peek c (LReg B_M i) <> None)
  /\ (forall i, (i < 8)%nat -> peek c (LOut m K_Q i) <> None)
  /\ (forall i, (i < 7)%nat -> peek c (LReg B_Td i) <> None /\ peek c (LReg B_Tr i) <> None /\ peek c (LAcc i) <> None
                               /\ peek c (LReg B_Cd i) <> None /\ peek c (LReg B_Cr i) <> None /\ peek c (LReg B_C i) <> None)
  /\ forall n, (n < q_nets (x_q c))%nat -> exists en rows cols, peek c (LNet n) = Some (VNet en rows cols)
       /\ forall r col, (r < rows)%nat -> (col < cols)%nat -> peek c (LPow n r col) <> None.
Proof. exact C62_display_l. Qed.
Print Assumptions C62_display.

(** The example foreign function hands on the power on the left of its cell. *)
Theorem C62_foreign : forall n col row c, peek c LExec = Some (VExec (Some n)) -> peek c (LCell n row col) <> None ->
  exists b c', dummy_exec col row c = Ok (E_OK, c') /\ left_powered c n row col b /\ powered c' n row col b /\ changes_only c c' (fun l => l = LPow n row col).
Proof. exact C62_foreign_l. Qed.
Print Assumptions C62_foreign.

(** With the panic handler set the claim is false: there is a well-formed machine, large enough, in which the task reaches the cycle limit; what
    it does then depends on what lies behind the table of error names. *)
Theorem C62_panic_refuted : exists cron keys al tv now E E' n s, follows cron keys al tv now E /\ follows cron keys al tv now E' /\ (forall k, real_time (tv k)) /\ (forall k, calendar (now k))
  /\ well_formed_ctx (s_ctx s) /\ tables_ok (s_ctx s) /\ port_fits cron (s_ctx s) /\ ladder_task E n s <> ladder_task E' n s.
Proof. exact C62_panic_refuted_l. Qed.
Print Assumptions C62_panic_refuted.
(** One network of a contact and a coil, a foreign function below; one module of inputs and one of outputs, added with the
    initialisation functions of the port. *)
Definition pt_clock (k : nat) : Z * Z := (Z.of_nat k mod 1000, 250000).
Definition pt_now (_ : nat) : tm := mk_tm 0 0 0 1 0 0 120.
Definition pt_keys (k : nat) : list Z := if Nat.eqb k 2 then [120; 51] else if (20 <? k)%nat then [113] else [].
Definition pt_al (_ _ : nat) : bool := true.
Definition pt : env := port_env true pt_keys pt_al pt_clock pt_now.
(** Another environment following the port: what is undefined wrecks the machine. *)
Definition pt_wild : env :=
  mk_env (clk pt) (fun k ev c => match port_call true pt_keys pt_al k ev c with Ok c' => c' | _ => set_x_net None (set_x_in None c) end)
    (fun _ _ col row c => match dummy_exec col row c with Ok r => r | _ => (E_FAIL, set_x_net None c) end) (wall pt) (ext_ok pt) (finit pt).
Definition pt_args : init_args := mk_init_args 2 2 1 18 8 8 8 8 1 500 true false 1000 20.
Definition pt_init : ctx := snd (ctx_init (fun _ => true) pt_args garbage).
Definition pt_after {A} (m : M A) (s : st) : st := match m s with Ok (_, s') => s' | _ => s end.
Definition pt1 : st := pt_after (add_read_fn pt (fun _ => true) true true) (mk_st pt_init []).
Definition pt2 : st := pt_after (add_write_fn pt (fun _ => true) true true) pt1.
Definition pt3 : st := pt_after (add_foreign pt true true 1) pt2.
(** Input 3 drives output 0; the foreign function hands power on to a coil for M0. *)
Definition pt_net : network :=
  mk_network true 2 2 (Some [[cellv I_NO [V R_I 768]; cellv I_COIL [V R_Q 0]]; [cellv I_FOREIGN [V R_NONE 0]; cellv I_COIL [V R_M 0]]]).
Definition pt_hooks : hooks := mk_hooks true true true true true true false true.
Definition pt_machine : ctx := set_x_cron None (set_x_state S_RUNNING (set_x_h pt_hooks (set_x_net (Some [pt_net]) (s_ctx pt3)))).
Lemma pt_follows : follows true pt_keys pt_al pt_clock pt_now pt /\ follows true pt_keys pt_al pt_clock pt_now pt_wild.
Proof.
  split; constructor; auto.
  - intros k t H. cbn [clk pt port_env]. unfold port_clock. now rewrite H.
  - intros k ev c c' H. cbn [act pt port_env]. now rewrite H.
  - intros k id col row c r H. cbn [fexec pt port_env]. now rewrite H.
  - intros k t H. cbn [clk pt_wild pt port_env]. unfold port_clock. now rewrite H.
  - intros k ev c c' H. cbn [act pt_wild]. now rewrite H.
  - intros k id col row c r H. cbn [fexec pt_wild]. now rewrite H.
Qed.
Lemma pt_times : (forall k, real_time (pt_clock k)) /\ (forall k, calendar (pt_now k)).
Proof. split; intros k; [unfold real_time, pt_clock; cbn [fst snd]; pose proof (Z.mod_pos_bound (Z.of_nat k) 1000 ltac:(lia)); lia|unfold calendar; cbn; lia]. Qed.
Lemma pt_fits : well_formed_ctx pt_machine /\ tables_ok pt_machine /\ port_fits true pt_machine.
Proof.
  split; [apply wfb_ok; vm_compute; reflexivity|]. split; [apply tablesb_ok; vm_compute; reflexivity|].
  constructor; try (vm_compute; lia); try reflexivity; intros m M; (assert (m = 0%nat) by (vm_compute in M; lia)); subst m; exists 0, 8%nat, 8%nat; (split; [vm_compute; reflexivity|lia]).
Qed.
(** Key 3 switches input 3 on, which switches output 0 on; q ends the task. *)
Example C62_example : exists s', ladder_task pt 9 (mk_st pt_machine []) = Ok (Ended, s') /\ ladder_task pt_wild 9 (mk_st pt_machine []) = Ok (Ended, s')
  /\ well_formed_ctx (s_ctx s') /\ holds (s_ctx s') (LIn 0 K_I 3) 1 /\ holds (s_ctx s') (LOut 0 K_Q 0) 1 /\ holds (s_ctx s') (LReg B_M 0) 1.
Proof.
  destruct pt_follows as [F1 F2]. destruct pt_times as [T1 T2]. destruct pt_fits as (W & T & F).
  assert (K : exists s', ladder_task pt 9 (mk_st pt_machine []) = Ok (Ended, s') /\ holds (s_ctx s') (LIn 0 K_I 3) 1 /\ holds (s_ctx s') (LOut 0 K_Q 0) 1 /\ holds (s_ctx s') (LReg B_M 0) 1)
    by (eexists; split; [vm_compute; reflexivity|split; [|split]; vm_compute; reflexivity]).
  destruct K as (s' & K & K1). exists s'. split; [exact K|]. split.
  - rewrite <- K. symmetry. exact (C62_same_partial _ _ _ _ _ _ _ 9 (mk_st pt_machine []) F1 F2 T1 W F eq_refl).
  - split; auto. destruct (C62_task_partial _ _ _ _ _ _ 9 (mk_st pt_machine []) F1 T1 T2 W T F eq_refl) as [(r & s2 & A & B & _)|(u & A & _)]; rewrite K in A; [|discriminate].
    injection A as _ <-. exact B.
Qed.
Example C62_added : let n := io_rq (x_io pt_init) in add_read_fn pt (fun _ => true) true true (mk_st pt_init []) = Ok (true, pt1) /\ reads_wf pt_init
  /\ peek (s_ctx pt1) (LInMeta n) = Some (VMeta 0 8 8).
Proof. intros n. split; [vm_compute; reflexivity|]. split; [|vm_compute; reflexivity]. repeat split; try discriminate; try reflexivity; vm_compute; auto; lia. Qed.
Example C62_foreign_example : let c := set_x_exec (Some 0%nat) pt_machine in peek c LExec = Some (VExec (Some 0%nat)) /\ peek c (LCell 0 1 0) <> None
  /\ match dummy_exec 0 1 c with Ok (_, c') => peek c' (LPow 0 1 0) | _ => None end = Some (VB true).
Proof. intros c. split; [reflexivity|]. split; [discriminate|vm_compute; reflexivity]. Qed.
(** A machine of four timers is too small for the display. *)
Example C62_example_small : dummy_write true 0 (set_x_tm (option_map (firstn 4) (x_tm pt_machine)) pt_machine) = Bad UB_oob /\ dummy_write true 0 pt_machine = Ok pt_machine.
Proof. split; vm_compute; reflexivity. Qed.

(** ** C63 *)

(** The report names state, last instruction and last error, for the instructions and the errors up to division by zero. Missing:
    the other errors, see below. *)
Theorem C63_report_partial : forall c i b, l_instr (x_last c) = ins_code i -> instr_name i = Some b ->
  In (l_err (x_last c)) [E_OK; E_GETPREVVAL; E_GETDATAVAL; E_SETDATAVAL; E_NOFOREIGN; E_NOTABLE; E_OUTOFRANGE; E_DIVBYZERO] ->
  dummy_on_panic c = Ok (state_name (x_state c), b, error_name (l_err (x_last c))).
Proof. exact C63_report_partial_l. Qed.
Print Assumptions C63_report_partial.

(** A type mismatch is reported as FAIL. *)
Theorem C63_mismatch : forall c i b, l_instr (x_last c) = ins_code i -> instr_name i = Some b -> l_err (x_last c) = E_TYPEMISMATCH ->
  dummy_on_panic c = Ok (state_name (x_state c), b, "FAIL"%string).
Proof. exact C63_mismatch_l. Qed.
Print Assumptions C63_mismatch.

(** For overflow, null pointer and failure the handler reads behind its table, and for instruction codes without a name too. *)
Theorem C63_outside : forall c, In (l_err (x_last c)) [E_OVERFLOW; E_NULL; E_FAIL] \/ ~ (0 <= l_instr (x_last c) <= 36) -> dummy_on_panic c = Bad UB_oob.
Proof. exact C63_outside_l. Qed.
Print Assumptions C63_outside.

(** The cycle limit: the handler called by the library when a network exceeds the limit finds the error overflow, so that its call is undefined
    whenever the handler is set. *)
Theorem C63_limit : forall cron keys al tv now n s, h_panic (x_h (s_ctx s)) = true -> si_maxcyc (x_si (s_ctx s)) < n -> 0 <= si_maxcyc (x_si (s_ctx s)) ->
  exists s1 c, check_cycles (port_env cron keys al tv now) n s = Ok (false, s1) /\ hd_error (s_tr s1) = Some EvPanic
    /\ l_err (x_last c) = E_OVERFLOW /\ x_state c = S_ERROR /\ port_call cron keys al (List.length (tl (s_tr s1))) EvPanic c = Bad UB_oob
    /\ s_ctx s1 = act (port_env cron keys al tv now) (List.length (tl (s_tr s1))) EvPanic c.
Proof. exact C63_limit_l. Qed.
Print Assumptions C63_limit.

(** The clock of the port: whole milliseconds of the time of day, never running backwards if that does not. *)
Theorem C63_clock : forall tv, real_time tv -> exists t, dummy_millis (fst tv) (snd tv) = Ok t /\ t = 1000 * fst tv + snd tv / 1000.
Proof. exact C63_clock_l. Qed.
Print Assumptions C63_clock.

Theorem C63_clock_monotone : forall tv tv' t t', real_time tv -> real_time tv' -> fst tv * 1000000 + snd tv <= fst tv' * 1000000 + snd tv' ->
  dummy_millis (fst tv) (snd tv) = Ok t -> dummy_millis (fst tv') (snd tv') = Ok t' -> t <= t'.
Proof. exact C63_clock_monotone_l. Qed.
Print Assumptions C63_clock_monotone.

(** A delay of so many milliseconds sleeps exactly that long, in a form nanosleep accepts; negative ones do not sleep. *)
Theorem C63_delay : forall ms, (ms < 0 -> dummy_delay ms = None)
  /\ (0 <= ms -> exists s ns, dummy_delay ms = Some (s, ns) /\ 0 <= s /\ 0 <= ns < 1000000000 /\ s * 1000000000 + ns = ms * 1000000).
Proof. exact C63_delay_l. Qed.
Print Assumptions C63_delay.
Definition pt_faulty (i : ins) (e : err) : ctx := set_x_last (mk_lastinfo (ins_code i) 0 0 0 e) pt_machine.
Example C63_example : dummy_on_panic (pt_faulty I_DIV E_DIVBYZERO) = Ok ("RUNNING", "DIV", "DIVBYZERO")%string
  /\ dummy_on_panic (pt_faulty I_ADD E_TYPEMISMATCH) = Ok ("RUNNING", "ADD", "FAIL")%string
  /\ dummy_on_panic (pt_faulty I_ADD E_FAIL) = Bad UB_oob /\ dummy_on_panic (pt_faulty I_MULTI E_OK) = Bad UB_oob.
Proof. repeat split; reflexivity. Qed.
Example C63_example_time : dummy_millis 1700000000 123456 = Ok 1700000000123 /\ dummy_delay 1250 = Some (1, 250000000) /\ real_time (1700000000, 123456).
Proof. repeat split; try reflexivity; cbn; lia. Qed.
Example C63_example_limit : exists s, h_panic (x_h (s_ctx s)) = true /\ 0 <= si_maxcyc (x_si (s_ctx s)) < 1001.
Proof. exists (mk_st (set_x_h (mk_hooks true true true true true true true true) pt_machine) []). split; [reflexivity|vm_compute; split; congruence]. Qed.
