(** whole program scans: disabled networks, termination and watchdog, faults, write sets (C25, C26, C27, C42). *)
From Verif Require Export DemoScan.

(** ** C42 *)

(** C42: a scan changes nothing outside its write set: status, power of scanned cells, the registers named by the
    program's instructions, cron flags, and what the code outside the library changes. *)
Lemma C42_write_set_l : forall E W s s',
  env_writes E W -> (forall l, W l -> ~ is_layout l) ->
  (forall k, peek (s_ctx s) LNets = Some (VN k) -> Z.of_nat k <= 2 ^ 32) ->
  scans E s s' ->
  changes_only (s_ctx s) (s_ctx s') (fun l => scan_writes (s_ctx s) l \/ W l).
Proof. intros E W s s' H1 H2 H3 R. exact (wp_ok _ _ _ _ _ _ (scan_frame E W s H1 H2 H3) R). Qed.

(** C42: a register that no instruction of a scanned network names as destination, timer or counter, and that is not
    a cron flag, keeps its value. *)
Lemma C42_unnamed_register_l : forall E W s s' b i,
  env_writes E W -> (forall l, W l -> ~ is_layout l) ->
  (forall k, peek (s_ctx s) LNets = Some (VN k) -> Z.of_nat k <= 2 ^ 32) ->
  scans E s s' ->
  (forall n r col code, in_program (s_ctx s) n r col code -> ~ names (s_ctx s) code n r col (LReg b i)) ->
  ~ cron_flag (s_ctx s) (LReg b i) -> ~ W (LReg b i) ->
  peek (s_ctx s') (LReg b i) = peek (s_ctx s) (LReg b i).
Proof.
  intros E W s s' b i H1 H2 H3 R N C HW. apply (C42_write_set_l E W s s'); auto. intros [K|K]; auto.
  destruct K as [K|[(n & r & col & a & d & _ & K)|[(n & r & col & i0 & P & K)|K]]]; try discriminate; auto.
  - simpl in K. intuition discriminate.
  - eapply N; eauto.
Qed.

(** C42: an input keeps its value unless an instruction names it as destination. *)
Lemma C42_inputs_l : forall E W s s' m k i,
  env_writes E W -> (forall l, W l -> ~ is_layout l) ->
  (forall k, peek (s_ctx s) LNets = Some (VN k) -> Z.of_nat k <= 2 ^ 32) ->
  scans E s s' ->
  (forall n r col code j v, in_program (s_ctx s) n r col code -> dest_operand code = Some j ->
     peek (s_ctx s) (LData n r col j) = Some (VVal v) -> target (s_ctx s) v <> Some (LIn m k i)) ->
  ~ W (LIn m k i) ->
  peek (s_ctx s') (LIn m k i) = peek (s_ctx s) (LIn m k i).
Proof.
  intros E W s s' m k i H1 H2 H3 R N HW. apply (C42_write_set_l E W s s'); auto. intros [K|K]; auto.
  destruct K as [K|[(n & r & col & a & d & _ & K)|[(n & r & col & i0 & P & K)|(kk & js & j & _ & _ & _ & _ & _ & K)]]]; try discriminate; auto.
  - simpl in K. intuition discriminate.
  - destruct K as [(j & v & A & B & T)|[(_ & v & _ & _ & T)|[(_ & v & _ & _ & T)|(_ & n' & r' & c' & a' & b' & A & K)]]]; try discriminate.
    + eapply N; eauto.
    + simpl in T. intuition discriminate.
    + simpl in T. intuition discriminate.
Qed.
(*EX
(* A coil on M1 and a move to D3: M3 and D0 are named by nobody. *)
Example C42_case :
  let c := demo_nets [net_on true [[cellv I_NO [V R_M 0]; cellv I_COIL [V R_M 1]]; [cellv I_MOVE [V R_D 0; V R_D 3]; cellv I_NOP []]]] in
  scans quiet_env (start c) (scan_st quiet_env c)
  /\ peek c (LReg B_M 1) = Some (VZ 0) /\ peek (scan_of quiet_env c) (LReg B_M 1) = Some (VZ 1)
  /\ peek c (LReg B_D 3) = Some (VZ 0) /\ peek (scan_of quiet_env c) (LReg B_D 3) = Some (VZ 10)
  /\ peek (scan_of quiet_env c) (LReg B_M 3) = peek c (LReg B_M 3).
Proof. vm_compute. repeat split; reflexivity. Qed.
EX*)

(** ** C25 *)

(** C25: everything belonging to a disabled network is unchanged by a scan, except first operands when the program
    contains a TMOVE. *)
Lemma C25_disabled_untouched_l : forall E W s s' n rows cols l,
  env_writes E W -> (forall l, W l -> ~ is_layout l) ->
  (forall k, peek (s_ctx s) LNets = Some (VN k) -> Z.of_nat k <= 2 ^ 32) ->
  scans E s s' ->
  peek (s_ctx s) (LNet n) = Some (VNet false rows cols) ->
  (exists r col, l = LPow n r col \/ l = LCell n r col \/ l = LDataLen n r col \/ l = LRowLen n r \/ l = LRows n
     \/ l = LNet n \/ exists i, l = LData n r col i /\
        (i <> 0%nat \/ forall n' r' col', ~ in_program (s_ctx s) n' r' col' I_TMOVE)) ->
  ~ W l ->
  peek (s_ctx s') l = peek (s_ctx s) l.
Proof.
  intros E W s s' n rows cols l H1 H2 H3 R D L HW. apply (C42_write_set_l E W s s'); auto. intros [K|K]; auto.
  destruct L as (r & col & L).
  destruct K as [K|[(n0 & r0 & col0 & a & d & [_ SC] & K)|[(n0 & r0 & col0 & i0 & P & K)|(kk & js & j & _ & _ & _ & _ & _ & K)]]].
  - simpl in K. destruct L as [->|[->|[->|[->|[->|[->|(i & -> & _)]]]]]]; intuition discriminate.
  - subst l. destruct L as [L|[L|[L|[L|[L|[L|(i & L & _)]]]]]]; try discriminate. injection L as -> -> ->. congruence.
  - destruct K as [(j & v & A & B & T)|[(_ & v & _ & _ & T)|[(_ & v & _ & _ & T)|(-> & n' & r' & c' & a' & b' & A & ->)]]].
    + apply target_place in T. destruct L as [->|[->|[->|[->|[->|[->|(i & -> & _)]]]]]]; contradiction.
    + simpl in T. destruct L as [->|[->|[->|[->|[->|[->|(i & -> & _)]]]]]]; intuition discriminate.
    + simpl in T. destruct L as [->|[->|[->|[->|[->|[->|(i & -> & _)]]]]]]; intuition discriminate.
    + destruct L as [L|[L|[L|[L|[L|[L|(i & L & I0)]]]]]]; try discriminate. injection L as -> -> -> <-.
      destruct I0 as [I0|I0]; [auto|]. eapply I0; eauto.
  - subst l. destruct L as [L|[L|[L|[L|[L|[L|(i & L & _)]]]]]]; discriminate.
Qed.

(** C25: the instructions a scan executes all belong to enabled networks. *)
Lemma C25_only_enabled_run_l : forall c n r col, In (n, r, col) (program_cells c) ->
  exists rows cols, scanned c n rows cols /\ (r < rows)%nat /\ (col < cols)%nat.
Proof.
  intros c n r col H. unfold program_cells in H. apply in_flat_map in H as (k & K & H). apply in_seq in K.
  unfold net_cells in H. apply in_flat_map in H as (x & X & H). unfold plan in X.
  destruct (peek c (LNet k)) as [[| | | | | |[|] rows cols| | | | | | | | | | ]|] eqn:P; try contradiction.
  pose proof (plan_ok c k rows cols rows 0 x X) as OK. destruct x as [|cl rs|]; simpl in H; try contradiction.
  apply in_map_iff in H as (r' & E & H). injection E as <- <- <-. apply filter_In in H as [H _]. destruct OK as [O1 O2].
  exists rows, cols. repeat split; auto. lia.
Qed.

(** C25: the scan executes, in order, some beginning of that list of cells and then at most one more of it that fails. *)
Lemma C25_executed_l : forall E W m s s', scan_ready E W (s_ctx s) m -> scans E s s' ->
  exists s0 s1 before rest, cron_step E s s0 /\ program_cells (s_ctx s) = before ++ rest /\ executes E W before s0 s1
    /\ (changes_only (s_ctx s1) (s_ctx s') (fun l => l = LErr \/ l = LState \/ W l)
        \/ exists n r col e s2, In (n, r, col) rest /\ executed E n r col s1 e s2
             /\ changes_only (s_ctx s2) (s_ctx s') (fun l => l = LErr \/ l = LState)).
Proof.
  intros E W m s s' RD R. destruct (scan_ends E W s s' m RD R) as (s0 & C0 & [[[EX ST] _]|[(n & r & col & e & b4 & af & s1 & s2 & EQ & EX & X & NE & TR & CH & _)|(n & _ & _ & b4 & af & s1 & EQ & EX & CH & _)]]).
  - exists s0, s', (program_cells (s_ctx s)), []. rewrite app_nil_r. split; [exact C0|]. repeat split; auto. left. apply changes_refl.
  - exists s0, s1, b4, ((n, r, col) :: af). split; [exact C0|]. repeat split; auto. right. exists n, r, col, e, s2. repeat split; simpl; auto; apply X.
  - exists s0, s1, b4, af. split; [exact C0|]. repeat split; auto.
Qed.
(*EX
(* Network 0 is a disabled table holding 4 and 5; network 1 moves a value into it; network 2 is disabled and has a coil. *)
Example C25_case :
  let c := demo_nets [net_on false [[cellv I_NOP [V R_D 4]; cellv I_NOP [V R_D 5]]];
                      net_on true [[cellv I_NO [V R_M 0]; cellv I_COIL [V R_M 1]]];
                      net_on false [[cellv I_CONN []; cellv I_COIL [V R_M 3]]]] in
  scan_ready quiet_env (fun _ => False) c 1000 /\ scans quiet_env (start c) (scan_st quiet_env c)
  /\ program_cells c = [(1, 0, 0); (1, 0, 1)]%nat
  /\ peek (scan_of quiet_env c) (LReg B_M 1) = Some (VZ 1) /\ peek (scan_of quiet_env c) (LReg B_M 3) = Some (VZ 0).
Proof.
  intros c. split; [apply (readyb_ok c (fun k => 10 * Z.of_nat k)); vm_compute; reflexivity|]. vm_compute. repeat split; reflexivity.
Qed.
EX*)

(** ** C26 *)

(** C26: a scan never runs for ever, whatever the program, the registers and the limit, as long as the code outside the
    library leaves the program layout alone. *)
Lemma C26_terminates_l : forall E W s, env_writes E W -> (forall l, W l -> ~ is_layout l) ->
  (forall k, peek (s_ctx s) LNets = Some (VN k) -> Z.of_nat k <= 2 ^ 32) -> ladder_scan E s <> NoFuel.
Proof. intros E W s H1 H2 H3. exact (wp_fuel _ _ _ _ (scan_frame E W s H1 H2 H3)). Qed.

(** C26: if some network needs more iterations than the limit, the scan ends in state ERROR with error OVERFLOW, unless
    an instruction failed before that. *)
Lemma C26_watchdog_stops_l : forall E W m s s' n,
  scan_ready E W (s_ctx s) m -> scans E s s' -> (n < q_nets (x_q (s_ctx s)))%nat -> m < cost (s_ctx s) n ->
  (peek (s_ctx s') LState = Some (VState S_ERROR) /\ peek (s_ctx s') LErr = Some (VErr E_OVERFLOW))
  \/ (exists s0 n' r col e, cron_step E s s0 /\ scan_fault E W (s_ctx s) s0 s' n' r col e).
Proof.
  intros E W m s s' n RD R Hn Hc. destruct (scan_ends E W s s' m RD R) as (s0 & C0 & [[_ K]|[K|(k & _ & _ & K)]]).
  - specialize (K n Hn). lia.
  - destruct K as (n' & r & col & e & K). right. eauto 10.
  - left. destruct K as (b4 & af & s1 & _ & _ & _ & K1 & K2). auto.
Qed.

(** C26: if no network does, the scan runs to completion or to the first failing instruction. *)
Lemma C26_no_interference_l : forall E W m s s',
  scan_ready E W (s_ctx s) m -> scans E s s' -> (forall n, (n < q_nets (x_q (s_ctx s)))%nat -> cost (s_ctx s) n <= m) ->
  exists s0, cron_step E s s0
    /\ (scan_complete E W (s_ctx s) s0 s' \/ exists n r col e, scan_fault E W (s_ctx s) s0 s' n r col e).
Proof.
  intros E W m s s' RD R Hc. destruct (scan_ends E W s s' m RD R) as (s0 & C0 & [[K _]|[K|(k & Hk & L & _)]]).
  - eauto.
  - eauto.
  - specialize (Hc k Hk). lia.
Qed.

(** C26: a complete scan needed no more iterations than the limit in any network. *)
Lemma C26_within_limit_l : forall E W m s s' st0,
  scan_ready E W (s_ctx s) m -> scans E s s' ->
  peek (s_ctx s) LState = Some (VState st0) -> st0 <> S_INV -> st0 <> S_ERROR -> peek (s_ctx s') LState = Some (VState st0) ->
  forall n, (n < q_nets (x_q (s_ctx s)))%nat -> cost (s_ctx s) n <= m.
Proof.
  intros E W m s s' st0 RD R S0 N1 N2 S1. destruct (scan_ends E W s s' m RD R) as (s0 & C0 & [[_ K]|[K|(k & _ & _ & K)]]); auto.
  - destruct K as (n' & r & col & e & b4 & af & s1 & s2 & _ & _ & _ & _ & _ & _ & _ & K & _). congruence.
  - destruct K as (b4 & af & s1 & _ & _ & _ & K1 & K2). congruence.
Qed.

(** C26: the number of iterations of a network is at most rows * (1 + columns * rows). *)
Lemma C26_iterations_l : forall c n en rows cols, peek c (LNet n) = Some (VNet en rows cols) ->
  cost c n <= Z.of_nat rows * (1 + Z.of_nat cols * Z.of_nat rows).
Proof.
  intros c n en rows cols P. unfold cost, plan. rewrite P. assert (POS : 0 <= Z.of_nat cols * Z.of_nat rows) by nia. destruct en; [|change (0 <= Z.of_nat rows * (1 + Z.of_nat cols * Z.of_nat rows)); nia].
  set (code := code_at c n). set (bar := bar_at c n).
  change (ticks (net_steps rows cols code bar rows 0) <= Z.of_nat rows * (1 + Z.of_nat cols * Z.of_nat rows)).
  assert (LK : forall l col, (looked code l col <= length l)%nat).
  { induction l as [|r t IH]; intros col; simpl; [lia|]. destruct (always_run _); [lia|]. specialize (IH col). lia. }
  assert (TR : forall k, ticks (repeat Tick k) = Z.of_nat k).
  { intros k. unfold ticks. f_equal. induction k; simpl; auto. }
  assert (COL : forall g col, (g < rows)%nat -> ticks (column_steps rows cols code bar g col) <= Z.of_nat rows).
  { intros g col G. unfold column_steps. rewrite ticks_app, TR.
    assert (Z0 : ticks (if negb (branch rows cols code bar g) || existsb (fun r => always_run (code r col)) (group rows bar g col) then [Run col (group rows bar g col)] else []) = 0)
      by (destruct (_ || _); reflexivity). rewrite Z0.
    specialize (LK (group rows bar g col) col). unfold group in *. rewrite seq_length in LK. assert (JJ : (joined bar (rows - S g) g col <= rows - S g)%nat) by apply (joined_le c n). lia. }
  assert (COLS : forall g k col, (g < rows)%nat -> ticks (flat_map (column_steps rows cols code bar g) (seq col k)) <= Z.of_nat k * Z.of_nat rows).
  { intros g k. induction k as [|k IH]; intros col G; cbn [seq flat_map]; [change (ticks []) with 0; lia|]. rewrite ticks_app, Nat2Z.inj_succ. specialize (COL g col G). specialize (IH (S col) G). nia. }
  assert (RUNG : forall g, (g < rows)%nat -> ticks (rung_steps rows cols code bar g) <= 1 + Z.of_nat cols * Z.of_nat rows).
  { intros g G. unfold rung_steps. rewrite ticks_tick. destruct (multi _); [change (ticks []) with 0; lia|]. rewrite ticks_app.
    specialize (COLS g cols 0%nat G). change (ticks [Close]) with 0. lia. }
  assert (ALL : forall f g, ticks (net_steps rows cols code bar f g) <= Z.of_nat f * (1 + Z.of_nat cols * Z.of_nat rows)).
  { induction f as [|f IH]; intros g; cbn [net_steps]; [change (ticks []) with 0; lia|]. destruct (g <? rows)%nat eqn:G; [|change (ticks []) with 0; nia].
    apply Nat.ltb_lt in G. rewrite ticks_app. specialize (RUNG g G). specialize (IH (next_rung rows code bar g)). nia. }
  apply ALL.
Qed.
(*EX
(* Two rungs of two cells need six iterations: a limit of 6 lets the scan complete, a limit of 5 stops it. *)
Example C26_case :
  let c := demo_nets [net_on true [[cellv I_CONN []; cellv I_COIL [V R_M 1]]; [cellv I_CONN []; cellv I_COIL [V R_M 3]]]] in
  let c6 := set_x_si (set_si_maxcyc 6 (x_si c)) c in
  let c5 := set_x_si (set_si_maxcyc 5 (x_si c)) c in
  cost c 0 = 6
  /\ scan_ready quiet_env (fun _ => False) c6 6 /\ scans quiet_env (start c6) (scan_st quiet_env c6)
  /\ peek (scan_of quiet_env c6) LState = Some (VState S_RUNNING) /\ peek (scan_of quiet_env c6) (LReg B_M 3) = Some (VZ 1)
  /\ scan_ready quiet_env (fun _ => False) c5 5 /\ scans quiet_env (start c5) (scan_st quiet_env c5)
  /\ peek (scan_of quiet_env c5) LState = Some (VState S_ERROR) /\ peek (scan_of quiet_env c5) (LReg B_M 3) = Some (VZ 0).
Proof.
  intros c c6 c5. split; [vm_compute; reflexivity|].
  split; [apply (readyb_ok c6 (fun k => 10 * Z.of_nat k)); vm_compute; reflexivity|].
  split; [vm_compute; reflexivity|]. split; [vm_compute; reflexivity|]. split; [vm_compute; reflexivity|].
  split; [apply (readyb_ok c5 (fun k => 10 * Z.of_nat k)); vm_compute; reflexivity|].
  vm_compute. repeat split; reflexivity.
Qed.
EX*)

(** ** C27 *)

(** C27: a scan executes the cells of the program in order up to the end, up to the first that fails, or up to the
    watchdog; these exclude one another by the final state. *)
Lemma C27_stops_at_first_fault_l : forall E W m s s',
  scan_ready E W (s_ctx s) m -> scans E s s' ->
  exists s0, cron_step E s s0 /\
   ((scan_complete E W (s_ctx s) s0 s' /\ forall n, (n < q_nets (x_q (s_ctx s)))%nat -> cost (s_ctx s) n <= m)
    \/ (exists n r col e, scan_fault E W (s_ctx s) s0 s' n r col e)
    \/ (exists n, (n < q_nets (x_q (s_ctx s)))%nat /\ m < cost (s_ctx s) n /\ scan_overrun E W (s_ctx s) s0 s' n)).
Proof. intros E W m s s'. apply scan_ends. Qed.

(** C27: a scan that ends in state INV was stopped by the first instruction that returned an error: no call to the
    outside and no change besides state and error followed it, and last.network, row, column, instr and err
    identify it. *)
Lemma C27_fault_identified_l : forall E W m s s',
  scan_ready E W (s_ctx s) m -> scans E s s' ->
  peek (s_ctx s) LState <> Some (VState S_INV) -> peek (s_ctx s') LState = Some (VState S_INV) ->
  exists s0 n r col e, cron_step E s s0 /\ scan_fault E W (s_ctx s) s0 s' n r col e.
Proof.
  intros E W m s s' RD R S0 S1. destruct (scan_ends E W s s' m RD R) as (s0 & C0 & [[[_ K] _]|[K|(k & _ & _ & K)]]).
  - congruence.
  - destruct K as (n & r & col & e & K). eauto 10.
  - destruct K as (b4 & af & s1 & _ & _ & _ & K1 & K2). congruence.
Qed.

(** C27, finding: the part about invalid codes is false. The table consulted before executing a column has no entry for
    them, so a single invalid cell makes the scan read out of bounds instead of ending in state INV. *)
Lemma C27_invalid_code_refuted_l : exists E c, in_program c 0 0 0 I_INV /\ ladder_scan E (start c) = Bad UB_oob.
Proof.
  exists quiet_env, (demo [[cellv I_INV []]]). split; [|vm_compute; reflexivity].
  exists 1%nat, 1%nat, false, 0%nat. repeat split; simpl; auto.
Qed.
(*EX
(* An invalid code below a coil in one group is executed: the state becomes INV. *)
Example C27_invalid_in_group :
  let c := demo [[cellv I_COIL [V R_M 1]]; [bar (cellv I_INV [])]] in
  peek (scan_of quiet_env c) LState = Some (VState S_INV) /\ peek (scan_of quiet_env c) LErr = Some (VErr E_FAIL)
  /\ peek (scan_of quiet_env c) LLast = Some (VLast 37 0 0 1).
Proof. vm_compute. repeat split; reflexivity. Qed.
(* The second rung moves to a register that does not exist: the coil of the third rung is not executed. *)
Example C27_case :
  let c := demo_nets [net_on true [[cellv I_CONN []; cellv I_COIL [V R_M 1]]; [cellv I_CONN []; cellv I_MOVE [V R_D 0; V R_D 9]];
                                   [cellv I_CONN []; cellv I_COIL [V R_M 3]]]] in
  scan_ready quiet_env (fun _ => False) c 1000 /\ scans quiet_env (start c) (scan_st quiet_env c)
  /\ peek (scan_of quiet_env c) LState = Some (VState S_INV) /\ peek (scan_of quiet_env c) LLast = Some (VLast (ins_code I_MOVE) 0 1 1)
  /\ peek (scan_of quiet_env c) (LReg B_M 1) = Some (VZ 1) /\ peek (scan_of quiet_env c) (LReg B_M 3) = Some (VZ 0).
Proof.
  intros c. split; [apply (readyb_ok c (fun k => 10 * Z.of_nat k)); vm_compute; reflexivity|]. vm_compute. repeat split; reflexivity.
Qed.
EX*)
