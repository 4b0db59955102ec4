(** Property theorems: machines that do not panic (C64). *)
From Verif Require Import P_Calm Demo.
From Verif Require Import DemoSafe DemoTask Props_Call.

(** ** C64 *)

(** A task that has everything it needs and room in its cycle limit, started running, never calls the panic hook, and is at every
    moment running or asked to end, however many cycles it runs, whatever its program computes, whatever the inputs and the clock. *)
Theorem C64_task : forall E n s r s', equipped (s_ctx s) -> roomy (s_ctx s) -> calm_calls (s_ctx s) E -> going (s_ctx s) -> ladder_task E n s = Ok (r, s') ->
  exists l, s_tr s' = l ++ s_tr s /\ ~ In EvPanic l /\ (has_previous (s_ctx s) -> going (s_ctx s')).
Proof. exact C64_task_l. Qed.
Print Assumptions C64_task.

(** What the panic hook does is of no consequence to such a machine. *)
Theorem C64_same : forall E E' n s, equipped (s_ctx s) -> roomy (s_ctx s) -> calm_calls (s_ctx s) E -> alike_but_panic (s_ctx s) E E' -> going (s_ctx s) ->
  ladder_task E n s = ladder_task E' n s.
Proof. exact C64_same_l. Qed.
Print Assumptions C64_same.

(** A single scan. It may end in the state "invalid instruction", not in "error". *)
Theorem C64_scan : forall E s s', equipped (s_ctx s) -> roomy (s_ctx s) -> calm_calls (s_ctx s) E -> going (s_ctx s) -> ladder_scan E s = Ok (tt, s') ->
  exists l, s_tr s' = l ++ s_tr s /\ ~ In EvPanic l /\ (going (s_ctx s') \/ x_state (s_ctx s') = S_INV).
Proof. exact C64_scan_l. Qed.
Print Assumptions C64_scan.

(** The example port with its panic handler: a machine that is well formed, large enough, equipped and has room runs safely whatever
    the handler would do. *)
Theorem C64_port : forall cron keys al tv now E n s, follows cron keys al tv now E -> (forall k, real_time (tv k)) -> (forall k, calendar (now k)) ->
  well_formed_ctx (s_ctx s) -> tables_ok (s_ctx s) -> port_fits cron (s_ctx s) -> equipped (s_ctx s) -> roomy (s_ctx s) -> going (s_ctx s) ->
  (exists r s' l, ladder_task E n s = Ok (r, s') /\ well_formed_ctx (s_ctx s') /\ same_program (s_ctx s) (s_ctx s') /\ s_tr s' = l ++ s_tr s /\ ~ In EvPanic l)
  \/ exists u, ladder_task E n s = Bad u /\ arithmetic u.
Proof. exact C64_port_l. Qed.
Print Assumptions C64_port.
Lemma e61_calm c : calm_calls c e61.
Proof.
  constructor.
  - intros k ev c1 _ S1 D. split; [now apply (ks_act _ _ (task_keeps _ _ _ c))|]. destruct ev; try contradiction; cbn [act e61 task_env task_act]; try (split; [now left|reflexivity]);
      destruct (20 <? k)%nat; (split; [|reflexivity]); [now right|now left|now right|now left].
  - intros k ev c1 _ S1 D. now apply (ks_exec _ _ (task_keeps _ _ _ c)).
  - intros k id col row c1 S1 D. cbn [fexec e61 task_env snd]. split; auto. split; auto.
Qed.
(** The machine of C61_example, watched by every hook; the program copies an input to a flag. *)
Example C64_example_ready : equipped (s_ctx s61) /\ roomy (s_ctx s61) /\ going (s_ctx s61) /\ has_previous (s_ctx s61).
Proof.
  split; [|split; [|split; [now left|vm_compute; repeat split; discriminate]]].
  - constructor; try (vm_compute; repeat split; discriminate).
    + intros n nt K. change (x_net (s_ctx s61)) with (Some [nth 0 (match x_net (s_ctx s61) with Some l => l | None => [] end) (mk_network false 0 0 None)]) in K.
      destruct n as [|[|n]]; cbn [elem obind nth_error] in K; try discriminate. injection K as <-. vm_compute. discriminate.
    + intros n K. change (io_rq (x_io (s_ctx s61))) with 1%nat in K. assert (n = 0%nat) by lia. subst. split; [vm_compute; discriminate|reflexivity].
    + intros n K. change (io_wq (x_io (s_ctx s61))) with 1%nat in K. assert (n = 0%nat) by lia. subst. split; [vm_compute; discriminate|reflexivity].
  - exists 9%nat, 9%nat. split; [|vm_compute; congruence]. intros n nt K.
    change (x_net (s_ctx s61)) with (Some [nth 0 (match x_net (s_ctx s61) with Some l => l | None => [] end) (mk_network false 0 0 None)]) in K.
    destruct n as [|[|n]]; cbn [elem obind nth_error] in K; try discriminate. injection K as <-. vm_compute. lia.
Qed.
Example C64_example : exists r s' l, ladder_task e61 9 s61 = Ok (r, s') /\ s_tr s' = l ++ s_tr s61 /\ ~ In EvPanic l /\ going (s_ctx s') /\ (12 < List.length l)%nat.
Proof.
  destruct C64_example_ready as (A & B & C & D). destruct (ladder_task e61 9 s61) as [[r s']| |] eqn:K; [|vm_compute in K; discriminate|vm_compute in K; discriminate].
  destruct (C64_task e61 9 s61 r s' A B (e61_calm _) C K) as (l & L1 & L2 & L3). exists r, s', l. repeat split; auto.
  apply (f_equal (fun x => match x with Ok (_, s) => List.length (s_tr s) | _ => 0%nat end)) in K. cbv beta iota in K. rewrite L1, app_length in K. change (s_tr s61) with (@nil event) in K. cbn [List.length] in K. rewrite Nat.add_0_r in K. rewrite <- K. vm_compute. lia.
Qed.
(** The requirements count: with a watchdog of one millisecond, with a limit of three cycles, with an empty slot in the table of
    inputs, without the table of data registers, and started in another state, the panic hook is called. *)
Definition panics (c : ctx) : bool :=
  match ladder_task (task_env (fun k => 10 * Z.of_nat k) (fun k i => Z.of_nat (k + i)) (fun _ => None)) 2 (mk_st c []) with
  | Ok (_, s) => existsb (fun ev => match ev with EvPanic => true | _ => false end) (s_tr s) | _ => false end.
Example C64_example_needed : panics (s_ctx s61) = false
  /\ panics (set_x_q (set_q_wdg 1 (x_q (s_ctx s61))) (s_ctx s61)) = true
  /\ panics (set_x_si (set_si_maxcyc 3 (x_si (s_ctx s61))) (s_ctx s61)) = true
  /\ panics (set_x_in (Some [demo_in; demo_in]) (set_x_io (mk_hwio 2 1 (Some [true; false]) (Some [true]) (Some [false]) (Some [false])) (s_ctx s61))) = true
  /\ panics (set_x_q (set_q_d 0 (x_q (s_ctx s61))) (set_x_regs (mk_regs (Some [0; 7; 0; 0]) None (Some [0])) (set_x_net (x_net (demo [[cellv I_NO [V R_D 0]; cellv I_COIL [V R_M 0]]])) (s_ctx s61)))) = true
  /\ panics (set_x_state S_STOPPED (s_ctx s61)) = true.
Proof. repeat split; vm_compute; reflexivity. Qed.
