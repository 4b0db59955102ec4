(** Property theorems: initialisation, clearing, statistics (C33, C35, C36). *)
From Verif Require Import P_Init Demo.

(** ** C35 *)

(** C35: the initialisation succeeds exactly if the parameters are in range and the memory it asks for is available. *)
Theorem C35_accepts : forall alloc a c,
  fst (ctx_init alloc a c) = true <->
  valid_args a /\ forall k, (k < init_allocs (a_rows a) (a_nets a) (a_init a))%nat -> alloc k = true.
Proof. exact C35_accepts_l. Qed.
Print Assumptions C35_accepts.

(** C35: out-of-range parameters are rejected and the context is not touched. *)
Theorem C35_rejected : forall alloc a c, ~ valid_args a -> ctx_init alloc a c = (false, c).
Proof. exact C35_rejected_l. Qed.
Print Assumptions C35_rejected.

(** C35: a successful initialisation leaves a fresh context, whatever the memory contained before. *)
Theorem C35_fresh : forall alloc a c c', ctx_init alloc a c = (true, c') -> fresh a c'.
Proof. exact C35_fresh_l. Qed.
Print Assumptions C35_fresh.

(** C35: such a context meets what the statements about instructions assume: banks of the configured sizes, flags 0 or 1. *)
Theorem C35_usable : forall alloc a c c', ctx_init alloc a c = (true, c') -> stores_ok c' /\ flags_ok c'.
Proof. exact C35_usable_l. Qed.
Print Assumptions C35_usable.

(** C35: when memory runs out the context ends in state ERROR without register banks and timers. *)
Theorem C35_no_memory : forall alloc a c c', valid_args a -> ctx_init alloc a c = (false, c') ->
  peek c' LState = Some (VState S_ERROR) /\ (forall b, peek c' (LRegLen b) = None) /\ peek c' LTmLen = None.
Proof. exact C35_no_memory_l. Qed.
Print Assumptions C35_no_memory.

(** C35, finding: in that case the pointer to the networks is kept although the memory has been released (if networks
    were to be created and their array had been allocated). *)
Theorem C35_dangling_actual : forall alloc a c c', valid_args a -> a_init a = true -> alloc 0%nat = true ->
  ctx_init alloc a c = (false, c') -> peek c' LNets <> None.
Proof. exact C35_dangling_actual_l. Qed.
Print Assumptions C35_dangling_actual.
Definition C35_args : init_args := mk_init_args 6 4 2 8 4 3 5 2 1 500 true false 1000 20.
Example C35_case : valid_args C35_args /\ fst (ctx_init (fun _ => true) C35_args garbage) = true
  /\ fst (ctx_init (fun k => (k <? 5)%nat) C35_args garbage) = false
  /\ ctx_init (fun _ => true) (mk_init_args 6 33 2 8 4 3 5 2 1 500 true false 1000 20) garbage = (false, garbage).
Proof. split; [unfold valid_args; simpl; lia|]. repeat split; vm_compute; reflexivity. Qed.

(** ** C36 *)

(** C36: clearing the memory zeroes M, the counter and timer flags and their histories, and changes nothing else. *)
Theorem C36_memory : forall c, banks_ok c ->
  exists c', clear_memory c = Ok c'
    /\ (forall b i, In b flag_banks -> (i < bank_qty b (x_q c))%nat -> peek c' (LReg b i) = Some (VZ 0))
    /\ changes_only c c' (fun l => exists b i, In b flag_banks /\ (i < bank_qty b (x_q c))%nat /\ l = LReg b i).
Proof. exact C36_memory_l. Qed.
Print Assumptions C36_memory.

(** C36: clearing the program makes every cell of the program empty and changes nothing but the cells. (A stale operand count
    of a cell without operands is kept.) *)
Theorem C36_program : forall c, whole_program c ->
  exists c', clear_program c = Ok c'
    /\ (forall n r col, program_cell c n r col ->
          powered c' n r col false /\ peek c' (LDataLen n r col) = None
          /\ exists dq, peek c' (LCell n r col) = Some (VCell false I_NOP dq) /\ (peek c (LDataLen n r col) <> None -> dq = 0%nat)
                /\ (peek c (LDataLen n r col) = None -> exists bar i, peek c (LCell n r col) = Some (VCell bar i dq)))
    /\ changes_only c c' (fun l => exists n r col, program_cell c n r col /\ cell_place n r col l).
Proof. exact C36_program_l. Qed.
Print Assumptions C36_program.
(* The demonstration context: M0 and M2 are set; cell (0,0) holds a contact. *)
Example C36_case :
  let c := demo [[on (cellv I_NO [V R_M 0]); cellv I_COIL [V R_M 1]]] in
  banks_ok c /\ whole_program c /\ program_cell c 0 0 0 /\ powered c 0 0 0 true /\ peek c (LReg B_M 2) = Some (VZ 1)
  /\ (exists c', clear_memory c = Ok c' /\ peek c' (LReg B_M 2) = Some (VZ 0) /\ peek c' (LReg B_D 0) = Some (VZ 10))
  /\ (exists c', clear_program c = Ok c' /\ powered c' 0 0 0 false /\ peek c' (LCell 0 0 0) = Some (VCell false I_NOP 0) /\ peek c' (LReg B_M 2) = Some (VZ 1)).
Proof.
  cbv zeta. split; [apply stores_okb_ok; vm_compute; reflexivity|]. split.
  { intros n N. simpl in N. assert (n = 0)%nat as -> by lia. exists true, 1%nat, 2%nat. split; [reflexivity|]. intros r col R C.
    assert (r = 0)%nat as -> by lia. destruct col as [|[|col]]; [| |lia]; do 3 eexists; (split; [reflexivity|]); right; eexists; (split; [reflexivity|]); simpl; lia. }
  split; [split; [simpl; lia|exists true, 1%nat, 2%nat; split; [reflexivity|lia]]|].
  split; [reflexivity|]. split; [reflexivity|]. split; (eexists; split; [vm_compute; reflexivity|]); repeat split; reflexivity.
Qed.

(** ** C33 *)

(** C33: after any number of measurements (fewer than 2^32, adding up to less than 2^64 ms) the statistics are the minimum,
    maximum, total, number, average and latest of the measured times, and the overrun flag tells whether the latest exceeds the target. *)
Theorem C33_statistics : forall ts s, ts <> [] -> si_count s = 0 -> si_total s = 0 -> si_max s = 0 ->
  0 <= si_start s < 2 ^ 64 -> (forall t, In t ts -> 0 <= t < 2 ^ 64) ->
  Z.of_nat (length ts) < 2 ^ 32 -> sum (times (si_start s) ts) < 2 ^ 64 ->
  exists s', stats_after ts s = Ok s' /\ describes s' (times (si_start s) ts) /\ si_target s' = si_target s /\ si_maxcyc s' = si_maxcyc s.
Proof. exact C33_statistics_l. Qed.
Print Assumptions C33_statistics.

(** C33: hence minimum <= average <= maximum. *)
Theorem C33_ordered : forall s l, describes s l -> si_min s <= si_avg s <= si_max s.
Proof. exact C33_ordered_l. Qed.
Print Assumptions C33_ordered.

(** C33, finding: the counter of measurements has 32 bits; the measurement that makes it wrap divides by zero. *)
Theorem C33_wrap_undefined : forall t s, si_count s = 2 ^ 32 - 1 -> scan_stats t s = Bad UB_div.
Proof. exact C33_wrap_undefined_l. Qed.
Print Assumptions C33_wrap_undefined.

(** C33: the library's measurement reads the clock once, updates the statistics with it, and switches to ERROR exactly if the
    measured time exceeds a non-zero watchdog; it changes nothing else (the hooks may change places in [W]). *)
Theorem C33_measure : forall E W s s' st0 w h, env_writes E W -> (forall l, W l -> ~ is_layout l) -> ~ W LState -> ~ W LStats ->
  peek (s_ctx s) LHooks = Some (VHooks h) -> h_millis h = true -> peek (s_ctx s) LStats = Some (VStats st0) ->
  (exists q, peek (s_ctx s) LQty = Some (VQty q) /\ q_wdg q = w) ->
  scan_time E s = Ok (tt, s') ->
  exists t st1, In (EvMillis t) (s_tr s') /\ 0 <= t < 2 ^ 64 /\ stats_after [t] st0 = Ok st1
    /\ peek (s_ctx s') LStats = Some (VStats st1)
    /\ peek (s_ctx s') LState = (if (0 <? w) && (w <? si_actual st1) then Some (VState S_ERROR) else peek (s_ctx s) LState)
    /\ changes_only (s_ctx s) (s_ctx s') (fun l => l = LStats \/ l = LState \/ W l).
Proof. exact C33_measure_l. Qed.
Print Assumptions C33_measure.

(** C33: without a clock the measurement switches to ERROR. *)
Theorem C33_no_clock : forall E W s s' h, env_writes E W -> ~ W LState ->
  peek (s_ctx s) LHooks = Some (VHooks h) -> h_millis h = false -> scan_time E s = Ok (tt, s') ->
  peek (s_ctx s') LState = Some (VState S_ERROR).
Proof. exact C33_no_clock_l. Qed.
Print Assumptions C33_no_clock.
(* Readings 100, 130, 135, 175 ms, the first measurement starting at 90 ms, target 35 ms. *)
Example C33_case :
  let s := mk_scanint 0 90 1000 35 (2 ^ 64 - 1) 0 0 0 0 false in
  times 90 [100; 130; 135; 175] = [10; 30; 5; 40]
  /\ stats_after [100; 130; 135; 175] s = Ok (mk_scanint 40 175 1000 35 5 40 85 21 4 true)
  /\ describes (mk_scanint 40 175 1000 35 5 40 85 21 4 true) [10; 30; 5; 40].
Proof.
  split; [reflexivity|]. split; [reflexivity|]. unfold describes; simpl. repeat split; auto; try lia; intros d D; intuition lia.
Qed.
(* The watchdog is 5 ms and the clock advances 10 ms per reading. *)
Example C33_measure_case :
  let c := set_x_q (set_q_wdg 5 (x_q demo_init)) (set_x_h (mk_hooks true true false false false false false false) demo_init) in
  let s := mk_st c [EvMillis 0] in
  exists s', scan_time quiet_env s = Ok (tt, s') /\ peek (s_ctx s') LState = Some (VState S_ERROR)
   /\ exists s2, scan_time quiet_env (mk_st (set_x_q (set_q_wdg 50 (x_q c)) c) [EvMillis 0]) = Ok (tt, s2)
      /\ peek (s_ctx s2) LState = Some (VState S_STOPPED).
Proof. cbv zeta. eexists. split; [vm_compute; reflexivity|]. split; [reflexivity|]. eexists. split; [vm_compute; reflexivity|]. reflexivity. Qed.
