(** machines that do not panic (C64). *)
From Verif Require Import DemoTask DemoSafe.
From Verif Require Export CalmTask P_Port.
Open Scope list_scope.
Open Scope Z_scope.
(*IMPORT DemoSafe DemoTask Props_Call *)

Lemma panic_self c E : alike_but_panic c E E.
Proof. constructor; auto. Qed.
Lemma no_firm (P : Prop) : false = true -> P.
Proof. discriminate. Qed.
Lemma slot0 n fns {A} (mods : option A) : ((0 < n)%nat -> mods <> None /\ elem fns 0 = Some true) -> io_null n fns mods = Ok false.
Proof.
  intros H. destruct n as [|n]; [reflexivity|]. destruct H as [H1 H2]; [lia|]. cbn [io_null]. destruct mods; [|congruence]. destruct fns as [[|b l]|]; try discriminate. cbn in H2. injection H2 as ->. reflexivity.
Qed.
Lemma guard_equipped c : equipped c -> has_previous c -> task_guard c = Ok false.
Proof.
  intros [(B1 & B2 & B3 & B4 & B5) (R1 & R2 & R3 & R4) N _ I O (T1 & T2) _] (P1 & P2 & P3 & P4 & P5). unfold task_guard. rewrite T1, T2. cbn [negb orb].
  rewrite (slot0 _ _ _ (I 0%nat)). cbn [rbind]. rewrite (slot0 _ _ _ (O 0%nat)). cbn [rbind].
  rewrite !not_null by auto. unfold banks_null. cbn [existsb orb]. rewrite !andb_false_r. reflexivity.
Qed.
Lemma calm_start s : going (s_ctx s) -> CalmFacts.J (s_ctx s) (s_tr s) false false s.
Proof. intros G. split; [split; [reflexivity|]; split; [reflexivity|left; exact G]|]. exists []. repeat split; auto. Qed.

(* the port *)
Section Env.
Variables (cron : bool) (keys : nat -> list Z) (al : nat -> nat -> bool) (tv : nat -> Z * Z) (now : nat -> tm) (c0 : ctx).
Hypothesis W0 : well_formed_ctx c0.
Hypothesis F0 : port_fits cron c0.
Lemma calm_defined k ev c : ev <> EvPanic -> shape c = shape c0 -> due c ev ->
  exists c', port_call cron keys al k ev c = Ok c' /\ shape c' = shape c0 /\ peek c' LExec = peek c LExec /\ asks_at_most c c'.
Proof.
  intros NP SH D. destruct ev; cbn [port_call]; try (exists c; repeat (split; [auto; fail|]); split; auto; fail); try contradiction; try congruence.
  - destruct D as [D _]. destruct (PortFacts.read_ok cron c0 c (keys k) n W0 F0 SH D) as (c' & R & S'). exists c'. split; auto. split; auto. destruct (PortFacts.read_inv _ _ _ _ R) as (CH & QU & _).
    split; [apply CH; intros [[X _]|(i & _ & X)]; discriminate|]. assert (ST : peek c' LStats = peek c LStats) by (apply CH; intros [[X _]|(i & _ & X)]; discriminate).
    cbn [peek] in ST. split; [|congruence]. destruct (Z.eq_dec (dummy_key (keys k)) 81) as [Q|Q]; [|destruct (Z.eq_dec (dummy_key (keys k)) 113) as [Q'|Q']].
    + right. specialize (QU (or_introl Q)). cbn [peek] in QU. congruence.
    + right. specialize (QU (or_intror Q')). cbn [peek] in QU. congruence.
    + left. assert (SS : peek c' LState = peek c LState) by (apply CH; intros [[_ [X|X]]|(i & _ & X)]; congruence). cbn [peek] in SS. congruence.
  - destruct D as [D _]. exists c. split; [exact (PortFacts.write_ok cron c0 c W0 F0 SH n D)|]. repeat (split; auto).
Qed.
Lemma calm_exec id col row c : shape c = shape c0 -> due c (EvForeign id col row) -> exists r, dummy_exec col row c = Ok r /\ shape (snd r) = shape c0 /\ asks_at_most c (snd r).
Proof.
  intros SH (_ & n & X & C). cbn [peek] in X. assert (XE : x_exec c = Some n) by congruence. destruct (PortFacts.exec_ok n col row c XE C) as (b & _ & R). exists (E_OK, put_pow n row col b c).
  split; auto. destruct (PortFacts.exec_inv _ _ _ _ R) as (_ & _ & S'). split; [congruence|]. unfold dummy_exec in R. destruct (cleft col row c) as [b'| |]; cbn [rbind] in R; try discriminate.
  destruct (put_state col row b' c) as [c'| |] eqn:PS; cbn [rbind] in R; try discriminate. apply (q_put col row b') in PS. destruct PS as (P1 & P2 & _). injection R as <-. cbn [snd]. split; [now left|congruence].
Qed.
Lemma running_calm : calm_calls c0 (running cron keys al tv now).
Proof.
  constructor.
  - intros k ev c NP SH D. destruct (calm_defined k ev c NP SH D) as (c' & R & S' & _ & A). cbn [act running port_env]. destruct ev; try contradiction; rewrite R; auto.
  - intros k ev c NP SH D. destruct (calm_defined k ev c NP SH D) as (c' & R & _ & S' & _). cbn [act running port_env]. destruct ev; try contradiction; rewrite R; auto.
  - intros k id col row c SH D. destruct (calm_exec id col row c SH D) as (r & R & S'). cbn [fexec running port_env]. now rewrite R.
Qed.
Lemma running_alike_but E : follows cron keys al tv now E -> (forall k, real_time (tv k)) -> alike_but_panic c0 (running cron keys al tv now) E.
Proof.
  intros F RT. constructor.
  - intros k. cbn [clk running port_env]. unfold port_clock. destruct (dummy_millis (fst (tv k)) (snd (tv k))) as [t| |] eqn:M.
    + symmetry. eapply fo_clock; eauto.
    + exfalso. unfold dummy_millis in M. destruct (RT k) as [R1 R2]. destruct (Z.leb_spec (- 2 ^ 63) (fst (tv k) * 1000000 + snd (tv k))); [|lia]. destruct (Z.ltb_spec (fst (tv k) * 1000000 + snd (tv k)) (2 ^ 63)); [discriminate|lia].
    + exfalso. unfold dummy_millis in M. destruct (_ && _); discriminate.
  - intros k. cbn [wall running port_env]. symmetry. eapply fo_now; eauto.
  - intros k ev c NP SH D. destruct (calm_defined k ev c NP SH D) as (c' & R & _). cbn [act running port_env]. rewrite (fo_act _ _ _ _ _ _ F _ _ _ _ R). destruct ev; try contradiction; now rewrite R.
  - intros k id col row c SH D. destruct (calm_exec id col row c SH D) as (r & R & S'). cbn [fexec running port_env]. rewrite R. symmetry. eapply fo_exec; eauto.
Qed.
End Env.

(** ** C64 *)

(** A task that has everything it needs and room in its cycle limit, started running, never calls the panic hook, and is at every
    moment running or asked to end, however many cycles it runs, whatever its program computes, whatever the inputs and the clock. *)
Lemma C64_task_l : forall E n s r s', equipped (s_ctx s) -> roomy (s_ctx s) -> calm_calls (s_ctx s) E -> going (s_ctx s) -> ladder_task E n s = Ok (r, s') ->
  exists l, s_tr s' = l ++ s_tr s /\ ~ In EvPanic l /\ (has_previous (s_ctx s) -> going (s_ctx s')).
Proof.
  intros E n s r s' Q RM KS G K. destruct (CalmTask.t_task (s_ctx s) E E (panic_self _ _) KS Q RM (s_tr s) false (no_firm _) (no_firm _) n s (calm_start s G)) as [_ T].
  destruct (T _ _ K) as (l & L1 & _ & L2 & L3). exists l. split; auto. split; auto. intros HH. apply L3. now apply guard_equipped.
Qed.
(** What the panic hook does is of no consequence to such a machine. *)
Lemma C64_same_l : forall E E' n s, equipped (s_ctx s) -> roomy (s_ctx s) -> calm_calls (s_ctx s) E -> alike_but_panic (s_ctx s) E E' -> going (s_ctx s) ->
  ladder_task E n s = ladder_task E' n s.
Proof. intros E E' n s Q RM KS AL G. apply (CalmTask.t_task (s_ctx s) E E' AL KS Q RM (s_tr s) false (no_firm _) (no_firm _) n s (calm_start s G)). Qed.
(** A single scan. It may end in the state "invalid instruction", not in "error". *)
Lemma C64_scan_l : forall E s s', equipped (s_ctx s) -> roomy (s_ctx s) -> calm_calls (s_ctx s) E -> going (s_ctx s) -> ladder_scan E s = Ok (tt, s') ->
  exists l, s_tr s' = l ++ s_tr s /\ ~ In EvPanic l /\ (going (s_ctx s') \/ x_state (s_ctx s') = S_INV).
Proof.
  intros E s s' Q RM KS G K. destruct (CalmTask.scan_same (s_ctx s) E E (panic_self _ _) KS Q RM (s_tr s) false (no_firm _) (no_firm _) s (CalmTask.weaken _ _ _ _ (calm_start s G))) as [_ T].
  apply T in K. destruct K as [(_ & _ & ST) (l & L1 & _ & L2)]. exists l. split; auto. split; auto. destruct ST as [?|[_ ?]]; auto.
Qed.
(** The example port with its panic handler: a machine that is well formed, large enough, equipped and has room runs safely whatever
    the handler would do. *)
Lemma C64_port_l : forall cron keys al tv now E n s, follows cron keys al tv now E -> (forall k, real_time (tv k)) -> (forall k, calendar (now k)) ->
  well_formed_ctx (s_ctx s) -> tables_ok (s_ctx s) -> port_fits cron (s_ctx s) -> equipped (s_ctx s) -> roomy (s_ctx s) -> going (s_ctx s) ->
  (exists r s' l, ladder_task E n s = Ok (r, s') /\ well_formed_ctx (s_ctx s') /\ same_program (s_ctx s) (s_ctx s') /\ s_tr s' = l ++ s_tr s /\ ~ In EvPanic l)
  \/ exists u, ladder_task E n s = Bad u /\ arithmetic u.
Proof.
  intros cron keys al tv now E n s F RT CA W0 T0 F0 Q RM G. pose proof (running_calm cron keys al tv now _ W0 F0) as KS.
  rewrite <- (C64_same_l (running cron keys al tv now) E n s Q RM KS (running_alike_but _ _ _ _ _ _ W0 F0 E F RT) G).
  destruct (C41_task_l _ _ n s (running_behaved cron keys al tv now CA) W0 T0) as [(r & s' & A & B & _ & D)|A]; [left|auto].
  destruct (C64_task_l _ n s r s' Q RM KS G A) as (l & L1 & L2 & _). exists r, s', l. auto.
Qed.

(*EX
Lemma e61_calm c : calm_calls c e61.
Proof.
  constructor.
  - intros k ev c1 _ S1 D. split; [now apply (ks_act _ _ (task_keeps _ _ _ c))|]. destruct ev; try contradiction; cbn [act e61 task_env task_act]; try (split; [now left|reflexivity]);
      destruct (20 <? k)%nat; (split; [|reflexivity]); [now right|now left|now right|now left].
  - intros k ev c1 _ S1 D. now apply (ks_exec _ _ (task_keeps _ _ _ c)).
  - intros k id col row c1 S1 D. cbn [fexec e61 task_env snd]. split; auto. split; auto.
Qed.
(** The machine of C61_example, watched by every hook; the program copies an input to a flag. *)
Example C64_example_ready : equipped (s_ctx s61) /\ roomy (s_ctx s61) /\ going (s_ctx s61) /\ has_previous (s_ctx s61).
Proof.
  split; [|split; [|split; [now left|vm_compute; repeat split; discriminate]]].
  - constructor; try (vm_compute; repeat split; discriminate).
    + intros n nt K. change (x_net (s_ctx s61)) with (Some [nth 0 (match x_net (s_ctx s61) with Some l => l | None => [] end) (mk_network false 0 0 None)]) in K.
      destruct n as [|[|n]]; cbn [elem obind nth_error] in K; try discriminate. injection K as <-. vm_compute. discriminate.
    + intros n K. change (io_rq (x_io (s_ctx s61))) with 1%nat in K. assert (n = 0%nat) by lia. subst. split; [vm_compute; discriminate|reflexivity].
    + intros n K. change (io_wq (x_io (s_ctx s61))) with 1%nat in K. assert (n = 0%nat) by lia. subst. split; [vm_compute; discriminate|reflexivity].
  - exists 9%nat, 9%nat. split; [|vm_compute; congruence]. intros n nt K.
    change (x_net (s_ctx s61)) with (Some [nth 0 (match x_net (s_ctx s61) with Some l => l | None => [] end) (mk_network false 0 0 None)]) in K.
    destruct n as [|[|n]]; cbn [elem obind nth_error] in K; try discriminate. injection K as <-. vm_compute. lia.
Qed.
Example C64_example : exists r s' l, ladder_task e61 9 s61 = Ok (r, s') /\ s_tr s' = l ++ s_tr s61 /\ ~ In EvPanic l /\ going (s_ctx s') /\ (12 < List.length l)%nat.
Proof.
  destruct C64_example_ready as (A & B & C & D). destruct (ladder_task e61 9 s61) as [[r s']| |] eqn:K; [|vm_compute in K; discriminate|vm_compute in K; discriminate].
  destruct (C64_task e61 9 s61 r s' A B (e61_calm _) C K) as (l & L1 & L2 & L3). exists r, s', l. repeat split; auto.
  apply (f_equal (fun x => match x with Ok (_, s) => List.length (s_tr s) | _ => 0%nat end)) in K. cbv beta iota in K. rewrite L1, app_length in K. change (s_tr s61) with (@nil event) in K. cbn [List.length] in K. rewrite Nat.add_0_r in K. rewrite <- K. vm_compute. lia.
Qed.
(** The requirements count: with a watchdog of one millisecond, with a limit of three cycles, with an empty slot in the table of
    inputs, without the table of data registers, and started in another state, the panic hook is called. *)
Definition panics (c : ctx) : bool :=
  match ladder_task (task_env (fun k => 10 * Z.of_nat k) (fun k i => Z.of_nat (k + i)) (fun _ => None)) 2 (mk_st c []) with
  | Ok (_, s) => existsb (fun ev => match ev with EvPanic => true | _ => false end) (s_tr s) | _ => false end.
Example C64_example_needed : panics (s_ctx s61) = false
  /\ panics (set_x_q (set_q_wdg 1 (x_q (s_ctx s61))) (s_ctx s61)) = true
  /\ panics (set_x_si (set_si_maxcyc 3 (x_si (s_ctx s61))) (s_ctx s61)) = true
  /\ panics (set_x_in (Some [demo_in; demo_in]) (set_x_io (mk_hwio 2 1 (Some [true; false]) (Some [true]) (Some [false]) (Some [false])) (s_ctx s61))) = true
  /\ panics (set_x_q (set_q_d 0 (x_q (s_ctx s61))) (set_x_regs (mk_regs (Some [0; 7; 0; 0]) None (Some [0])) (set_x_net (x_net (demo [[cellv I_NO [V R_D 0]; cellv I_COIL [V R_M 0]]])) (s_ctx s61)))) = true
  /\ panics (set_x_state S_STOPPED (s_ctx s61)) = true.
Proof. repeat split; vm_compute; reflexivity. Qed.
EX*)
