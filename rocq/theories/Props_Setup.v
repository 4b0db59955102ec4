(** Property theorems: fault recovery, registration of modules and foreign functions (C37, C38, C47). *)
From Verif Require Import P_Setup Demo.

(** ** C37 *)

(** C37: in any state other than ERROR the request is refused and nothing at all changes. *)
Theorem C37_only_in_error : forall E s, peek (s_ctx s) LState <> Some (VState S_ERROR) -> fault_clear E s = Ok (false, s).
Proof. exact C37_only_in_error_l. Qed.
Print Assumptions C37_only_in_error.

(** C37: in state ERROR recovery succeeds when the banks and output modules are there: the state is RUNNING, accumulators of
    timers, counters, timer and counter flags, D, R, and all outputs with their histories are zero; nothing else changes (in
    particular M, inputs and their histories and the program), apart from what the clock and panic callbacks may do. *)
Theorem C37_recovers : forall E W s q io, env_writes E W -> (forall l, W l -> ~ is_layout l) -> ~ W LState ->
  peek (s_ctx s) LState = Some (VState S_ERROR) -> sized (s_ctx s) -> outs_sized (s_ctx s) ->
  peek (s_ctx s) LQty = Some (VQty q) -> peek (s_ctx s) LIo = Some (VIo io) ->
  exists s', fault_clear E s = Ok (true, s') /\ peek (s_ctx s') LState = Some (VState S_RUNNING)
  /\ (forall b i, In b [B_Td; B_Tr; B_C; B_Cd; B_Cr; B_D; B_R] -> (i < bank_qty b q)%nat -> peek (s_ctx s') (LReg b i) = Some (VZ 0))
  /\ (forall i, (i < q_t q)%nat -> peek (s_ctx s') (LAcc i) = Some (VZ 0))
  /\ (forall m k i id qd qa, peek (s_ctx s) LOutCount <> None -> (m < io_wq io)%nat -> peek (s_ctx s) (LOutMeta m) = Some (VMeta id qd qa) ->
       (i < ports qd qa k)%nat -> peek (s_ctx s) (LOutLen m k) <> None -> peek (s_ctx s) (LOutLen m (current k)) <> None ->
       peek (s_ctx s') (LOut m k i) = Some (VZ 0))
  /\ changes_only (s_ctx s) (s_ctx s') (fun l => l = LState \/ l = LStats
       \/ (exists b i, In b recovered /\ (i < bank_qty b q)%nat /\ l = LReg b i)
       \/ (exists i, (i < q_t q)%nat /\ l = LAcc i) \/ (exists m k i, (m < io_wq io)%nat /\ l = LOut m k i) \/ W l).
Proof. exact C37_recovers_l. Qed.
Print Assumptions C37_recovers.
(* A faulted context with timer 0 at 7, C0 at 0 and C1 at 7, D0 at 10 and output Q0.1 on; M0 stays on. *)
Example C37_case :
  let c := set_x_state S_ERROR (set_x_tm (Some [mk_timer 5 7; mk_timer 0 0; mk_timer 0 0; mk_timer 0 0]) (demo [])) in
  sized c /\ outs_sized c /\ peek c LState = Some (VState S_ERROR)
  /\ exists s', fault_clear quiet_env (start c) = Ok (true, s') /\ peek (s_ctx s') LState = Some (VState S_RUNNING)
     /\ peek c (LAcc 0) = Some (VZ 7) /\ peek (s_ctx s') (LAcc 0) = Some (VZ 0)
     /\ peek c (LReg B_D 0) = Some (VZ 10) /\ peek (s_ctx s') (LReg B_D 0) = Some (VZ 0)
     /\ peek c (LOut 0 K_Q 1) = Some (VZ 1) /\ peek (s_ctx s') (LOut 0 K_Q 1) = Some (VZ 0) /\ peek (s_ctx s') (LOut 0 K_Qh 1) = Some (VZ 0)
     /\ peek (s_ctx s') (LReg B_M 0) = Some (VZ 1).
Proof.
  cbv zeta. split; [split; [intros []; eexists; (split; [reflexivity|]); simpl; lia|eexists; split; [reflexivity|simpl; lia]]|].
  split; [right; intros m M; simpl in M; assert (m = 0)%nat as -> by lia; exists 1, 2%nat, 2%nat; split; [reflexivity|];
    intros []; right; eexists; (split; [reflexivity|]); simpl; lia|].
  split; [reflexivity|]. eexists. split; [vm_compute; reflexivity|]. repeat split; reflexivity.
Qed.

(** ** C38 *)

(** C38: adding a read module always returns; it succeeds exactly if a function is given, fewer than 255 modules exist, the
    memory is available and the initialisation function, if any, agrees. Success appends one module and keeps all others;
    failure changes nothing but the last error. *)
Theorem C38_read : forall E alloc fn ini s io, polite_init E -> reads_wf (s_ctx s) -> peek (s_ctx s) LIo = Some (VIo io) ->
  let n := io_rq io in
  exists b s', add_read_fn E alloc fn ini s = Ok (b, s') /\ reads_wf (s_ctx s')
  /\ (b = true <-> fn = true /\ (n < 255)%nat /\ (forall k, (k < 3)%nat -> alloc k = true) /\ (ini = true -> ext_ok E (length (s_tr s)) = true))
  /\ (b = true -> peek (s_ctx s') LInCount = Some (VN (S n))
       /\ changes_only (s_ctx s) (s_ctx s') (fun l => in_place n l \/ l = LInCount \/ l = LIo)
       /\ exists io', peek (s_ctx s') LIo = Some (VIo io') /\ io_rq io' = S n /\ extended (io_rd io) (io_rd io') true
            /\ extended (io_ird io) (io_ird io') ini /\ io_wq io' = io_wq io /\ io_wr io' = io_wr io /\ io_iwr io' = io_iwr io)
  /\ (b = false -> changes_only (s_ctx s) (s_ctx s') (fun l => l = LErr)).
Proof. exact C38_read_l. Qed.
Print Assumptions C38_read.

(** C38: adding a write module always returns; it succeeds exactly if a function is given, fewer than 255 modules exist, the
    memory is available and the initialisation function, if any, agrees. Success appends one module and keeps all others;
    failure changes nothing but the last error. *)
Theorem C38_write : forall E alloc fn ini s io, polite_init E -> writes_wf (s_ctx s) -> peek (s_ctx s) LIo = Some (VIo io) ->
  let n := io_wq io in
  exists b s', add_write_fn E alloc fn ini s = Ok (b, s') /\ writes_wf (s_ctx s')
  /\ (b = true <-> fn = true /\ (n < 255)%nat /\ (forall k, (k < 3)%nat -> alloc k = true) /\ (ini = true -> ext_ok E (length (s_tr s)) = true))
  /\ (b = true -> peek (s_ctx s') LOutCount = Some (VN (S n))
       /\ changes_only (s_ctx s) (s_ctx s') (fun l => out_place n l \/ l = LOutCount \/ l = LIo)
       /\ exists io', peek (s_ctx s') LIo = Some (VIo io') /\ io_wq io' = S n /\ extended (io_wr io) (io_wr io') true
            /\ extended (io_iwr io) (io_iwr io') ini /\ io_rq io' = io_rq io /\ io_rd io' = io_rd io /\ io_ird io' = io_ird io)
  /\ (b = false -> changes_only (s_ctx s) (s_ctx s') (fun l => l = LErr)).
Proof. exact C38_write_l. Qed.
Print Assumptions C38_write.

(** C38: a series of requests adds as many read modules as were reported successful, and never more than 255 exist. *)
Theorem C38_reads : forall E bs s s' io, polite_init E -> reads_wf (s_ctx s) -> peek (s_ctx s) LIo = Some (VIo io) -> (io_rq io <= 255)%nat ->
  adds_read E bs s s' -> reads_wf (s_ctx s') /\ exists io', peek (s_ctx s') LIo = Some (VIo io') /\ io_rq io' = (io_rq io + successes bs)%nat /\ (io_rq io' <= 255)%nat
    /\ forall m k i, (m < io_rq io)%nat -> peek (s_ctx s') (LInMeta m) = peek (s_ctx s) (LInMeta m) /\ peek (s_ctx s') (LIn m k i) = peek (s_ctx s) (LIn m k i).
Proof. exact C38_reads_l. Qed.
Print Assumptions C38_reads.

(** C38: the same for write modules. *)
Theorem C38_writes : forall E bs s s' io, polite_init E -> writes_wf (s_ctx s) -> peek (s_ctx s) LIo = Some (VIo io) -> (io_wq io <= 255)%nat ->
  adds_write E bs s s' -> writes_wf (s_ctx s') /\ exists io', peek (s_ctx s') LIo = Some (VIo io') /\ io_wq io' = (io_wq io + successes bs)%nat /\ (io_wq io' <= 255)%nat
    /\ forall m k i, (m < io_wq io)%nat -> peek (s_ctx s') (LOutMeta m) = peek (s_ctx s) (LOutMeta m) /\ peek (s_ctx s') (LOut m k i) = peek (s_ctx s) (LOut m k i).
Proof. exact C38_writes_l. Qed.
Print Assumptions C38_writes.
(* A module with initialisation function is added to the freshly initialised context, then one whose memory is refused. *)
Example C38_case :
  polite_init quiet_env /\ reads_wf demo_init
  /\ exists s1 s2, add_read_fn quiet_env (fun _ => true) true true (start demo_init) = Ok (true, s1)
     /\ add_read_fn quiet_env (fun k => (k <? 2)%nat) true true s1 = Ok (false, s2)
     /\ adds_read quiet_env [true; false] (start demo_init) s2
     /\ peek (s_ctx s2) LInCount = Some (VN 1) /\ peek (s_ctx s2) LErr = Some (VErr E_FAIL).
Proof.
  split; [split; intros; intros l _; reflexivity|]. split; [unfold reads_wf, exactly; simpl; tauto|].
  eexists. eexists. split; [vm_compute; reflexivity|]. split; [vm_compute; reflexivity|]. split.
  - eapply ar_more with (alloc := fun _ => true) (fn := true) (ini := true); [vm_compute; reflexivity|].
    eapply ar_more with (alloc := fun k => (k <? 2)%nat) (fn := true) (ini := true); [vm_compute; reflexivity|]. constructor.
  - split; reflexivity.
Qed.

(** ** C47 *)

(** C47: when the foreign functions counted are exactly those stored, a request that succeeds was within the limit of 100
    (in 32-bit arithmetic), appends one function, whose initialisation was told the previous count as its id, and keeps the
    others; a request that fails leaves all registered functions as they were. Nothing but the last error changes otherwise. *)
Theorem C47_adds : forall E alloc fn n s f, polite_foreign E -> peek (s_ctx s) LForeign = Some (VForeign f) -> exactly (fo_qty f) (fo_fn f) ->
  exists b s', add_foreign E alloc fn n s = Ok (b, s')
  /\ (b = true -> fn = true /\ n <> 0 /\ (Z.of_nat (fo_qty f) + n) mod 2 ^ 32 <= 100
       /\ exists d, finit E (length (s_tr s)) (mk_fdesc (Z.of_nat (fo_qty f)) (mk_iocd 0 0 0 0) false) = (true, d)
          /\ peek (s_ctx s') LForeign = Some (VForeign (mk_foreign (S (fo_qty f)) (Some (match fo_fn f with None => [] | Some l => l end ++ [d]))))
          /\ changes_only (s_ctx s) (s_ctx s') (fun l => l = LForeign))
  /\ (b = false -> changes_only (s_ctx s) (s_ctx s') (fun l => l = LErr)).
Proof. exact C47_adds_l. Qed.
Print Assumptions C47_adds.

(** C47: hence the limit holds after any series of requests for at most 100 functions each. *)
Theorem C47_limit : forall E alloc fn n s s' f, polite_foreign E -> peek (s_ctx s) LForeign = Some (VForeign f) -> exactly (fo_qty f) (fo_fn f) ->
  (fo_qty f <= 100)%nat -> 0 <= n <= 2 ^ 32 - 101 -> add_foreign E alloc fn n s = Ok (true, s') ->
  exists f', peek (s_ctx s') LForeign = Some (VForeign f') /\ (fo_qty f' <= 100)%nat /\ exactly (fo_qty f') (fo_fn f').
Proof. exact C47_limit_l. Qed.
Print Assumptions C47_limit.

(** C47, finding: the limit is computed modulo 2^32, so with 100 functions registered a request for 2^32 - 1 more is accepted
    and a 101st is stored. *)
Theorem C47_limit_refuted : exists E c s', polite_foreign E /\ (exists f, peek c LForeign = Some (VForeign f) /\ exactly (fo_qty f) (fo_fn f) /\ fo_qty f = 100%nat)
  /\ add_foreign E true true (2 ^ 32 - 1) (start c) = Ok (true, s')
  /\ exists f, peek (s_ctx s') LForeign = Some (VForeign f) /\ fo_qty f = 101%nat.
Proof. exact C47_limit_refuted_l. Qed.
Print Assumptions C47_limit_refuted.
Example C47_case : polite_foreign quiet_env /\ exists s', add_foreign quiet_env true true 1 (start demo_init) = Ok (true, s')
  /\ peek (s_ctx s') LForeign = Some (VForeign (mk_foreign 1 (Some [mk_fdesc 0 (mk_iocd 0 0 0 0) false])))
  /\ exists s2, add_foreign quiet_env true true 200 s' = Ok (false, s2) /\ peek (s_ctx s2) LForeign = peek (s_ctx s') LForeign.
Proof. split; [intros k ev c H; reflexivity|]. eexists. split; [vm_compute; reflexivity|]. split; [reflexivity|]. eexists. split; [vm_compute; reflexivity|reflexivity]. Qed.
