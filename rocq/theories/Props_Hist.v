(** Property theorems: timers and counters in running programs (C09 to C11, C13 to C15). *)
From Verif Require Import P_Hist Demo.
From Verif Require Import DemoTask.
(* A program with the five blocks, each behind a switch on input 0, on timers 0 to 2 and counters 0 and 1. *)
Definition hist_row (i : ins) (a b : value) (y : nat) : list (list cell) :=
  [[cellv I_NO [V R_I 0]; cellv i [a; b]; cellv I_COIL [V R_M (Z.of_nat y)]]; [cellv I_NOP []; cellv I_MULTI []; cellv I_NOP []]].
Definition hist_prog : ctx := synced (demo_task
  (hist_row I_TON (V R_T 0) (V R_NONE 40) 0 ++ hist_row I_TOF (V R_T 1) (V R_NONE 50) 1 ++ hist_row I_TP (V R_T 2) (V R_NONE 50) 2
   ++ hist_row I_CTU (V R_C 0) (V R_NONE 2) 3 ++ hist_row I_CTD (V R_C 1) (V R_NONE 7) 3)).
Definition hist_env : env := task_env (fun k => Z.of_nat k) (fun k i => if (i =? 0)%nat then (Z.of_nat k / 100) mod 2 else 0) (fun _ => None).
Definition unnamedb (c : ctx) (regs : list loc) (u : nat * nat * nat) : bool :=
  let '(n, r, col) := u in
  match code_at c n r col with
  | I_NO | I_NOP | I_MULTI => true
  | I_COIL => match peek c (LData n r col 0) with Some (VVal v) => match v_type v with R_M => true | _ => false end | _ => true end
  | I_TON | I_TOF | I_TP => match peek c (LData n r col 0) with Some (VVal v) => forallb (fun l => match l with
      | LReg B_Tr i | LReg B_Td i | LTs i | LAcc i => negb (i =? ix (v_raw v))%nat | _ => true end) regs | _ => true end
  | I_CTU | I_CTD => match peek c (LData n r col 0) with Some (VVal v) => forallb (fun l => match l with
      | LReg B_C i | LReg B_Cd i | LReg B_Cr i => negb (i =? ix (v_raw v))%nat | _ => true end) regs | _ => true end
  | _ => false
  end.
Definition not_M (l : loc) : bool := match l with LReg B_M _ => false | _ => true end.
Lemma unnamedb_ok c regs n r col l : unnamedb c regs (n, r, col) = true -> forallb not_M regs = true -> In l regs -> ~ names c (code_at c n r col) n r col l.
Proof.
  unfold unnamedb. intros U NM L N. rewrite forallb_forall in NM. specialize (NM l L).
  destruct (code_at c n r col) eqn:CO; try discriminate U;
    destruct N as [(j & v & D & P & T)|[([] & v & P & Z & IR)|[([] & v & P & Z & IR)|(K & _)]]]; try discriminate;
    try (rewrite P in U; rewrite forallb_forall in U; specialize (U l L); simpl in IR; decompose [or] IR; subst; try contradiction; simpl in U; rewrite Nat.eqb_refl in U; discriminate).
  simpl in D. injection D as <-. rewrite P in U. destruct (v_type v) eqn:TY; try discriminate U. unfold target in T. rewrite TY in T. cbn [bank_of] in T.
  repeat match type of T with (if ?b then _ else _) = _ => destruct b | match ?b with _ => _ end = _ => destruct b end; try discriminate; injection T as <-; discriminate NM.
Qed.
Lemma sole_by k c n r col regs : 
  nth_error (program_cells c) k = Some (n, r, col) ->
  forallb (fun u => negb (let '(a, b, d) := u in (a =? n) && (b =? r) && (d =? col))%nat) (firstn k (program_cells c) ++ skipn (S k) (program_cells c)) = true ->
  forallb (unnamedb c regs) (firstn k (program_cells c) ++ skipn (S k) (program_cells c)) = true -> forallb not_M regs = true ->
  (forall l, In l regs -> match l with LIn _ _ _ | LState => False | _ => True end) ->
  sole_user task_w c n r col regs.
Proof.
  intros N F U NM TW. split.
  - exists (firstn k (program_cells c)), (skipn (S k) (program_cells c)). split.
    + rewrite <- (firstn_skipn k (program_cells c)) at 1. f_equal. clear - N. revert N. generalize (program_cells c). induction k as [|k IH]; intros [|x l] N; try discriminate; simpl in *; [injection N as ->; auto|auto].
    + split.
      * intros K. rewrite forallb_forall in F. specialize (F _ K). cbv beta iota in F. rewrite !Nat.eqb_refl in F. discriminate.
      * intros n' r' col' l K L. rewrite forallb_forall in U. eapply unnamedb_ok; eauto.
  - intros ev l L K. specialize (TW l L). destruct ev; simpl in K; try contradiction; [subst l|subst l|destruct K as (i & ->)]; contradiction.
Qed.
Lemma hist_free l : (match l with LPow _ _ _ => True | LIn _ _ _ => True | _ => False end) -> ~ during_scan task_w l.
Proof. intros H (ev & S & K). destruct ev; simpl in S, K; contradiction. Qed.
Lemma hist_switch r : (r = 0 \/ r = 2 \/ r = 4 \/ r = 6 \/ r = 8)%nat -> switch task_w hist_prog 0 r (V R_I 0) (LIn 0 K_I 0).
Proof.
  intros H. assert (HH : has_history hist_prog (V R_I 0)).
  { exists (LIn 0 K_I 0). split; [reflexivity|]. split; [|auto]. right; right. exists 0%nat. do 3 eexists. exists 0%nat. split; [vm_compute; lia|]. split; [reflexivity|].
    left. split; [reflexivity|]. split; [vm_compute; lia|]. split; vm_compute; discriminate. }
  assert (LA : left_alone task_w hist_prog (LIn 0 K_I 0)).
  { split; [apply input_alone; vm_compute; reflexivity|now apply hist_free]. }
  decompose [or] H; subst r.
  all: constructor; try assumption; try (vm_compute; reflexivity); try decide_op; try (apply hist_free; exact I).
  - exists (firstn 1 (program_cells hist_prog)), (skipn 2 (program_cells hist_prog)). vm_compute. auto 40.
  - exists (firstn 6 (program_cells hist_prog)), (skipn 7 (program_cells hist_prog)). vm_compute. auto 40.
  - exists (firstn 11 (program_cells hist_prog)), (skipn 12 (program_cells hist_prog)). vm_compute. auto 40.
  - exists (firstn 16 (program_cells hist_prog)), (skipn 17 (program_cells hist_prog)). vm_compute. auto 40.
  - exists (firstn 21 (program_cells hist_prog)), (skipn 22 (program_cells hist_prog)). vm_compute. auto 40.
Qed.
Lemma hist_marked : marked hist_prog.
Proof.
  intros n rows cols r col k [SC1 SC2] R C. simpl in SC1. assert (n = 0)%nat as -> by lia. injection SC2 as <- <-.
  do 10 (destruct r as [|r]; [do 3 (destruct col as [|col]; [simpl; intros; try lia; intuition (subst; auto; lia)|]); lia|]). lia.
Qed.
Lemma hist_ready : cycle_ready hist_env task_w hist_prog 1000 /\ in_time hist_prog 1000 /\ goes hist_env task_w 12 (start hist_prog) (ran hist_env 12 hist_prog) /\ quiet_clock hist_env.
Proof.
  split; [unfold hist_env, hist_prog; decide_cycle|]. split; [apply in_timeb_ok; vm_compute; reflexivity|]. split; [apply cycles_goes; vm_compute; reflexivity|].
  intros k t c. reflexivity.
Qed.
(* The value of a place at the ends of the twelve cycles. *)
Definition seen (l : loc) : list Z :=
  map (fun k => match peek (s_ctx (ran hist_env k hist_prog)) l with Some (VZ z) => z | _ => -1 end) (seq 1 12).
Ltac decide_block k := repeat match goal with
  | |- _ /\ _ => split
  | |- basetime _ = _ => reflexivity
  | |- code_at _ _ _ _ = _ => reflexivity
  | |- operand_at _ _ _ _ _ _ => decide_op
  | |- cell_exists _ _ _ _ => vm_compute; eauto
  | |- exists v, operand_at _ _ _ _ _ v /\ _ => eexists; split; [decide_op|try (split; reflexivity); reflexivity]
  | |- timer_exists _ _ => do 4 eexists; split; [split; [vm_compute; reflexivity|auto]|split; [split; [vm_compute; reflexivity|auto]|split; vm_compute; reflexivity]]
  | |- sole_user _ _ _ _ _ _ => apply (sole_by k); [vm_compute; reflexivity..|simpl; intros l L; decompose [or] L; subst; try contradiction; exact I]
  | |- switch _ _ _ _ _ _ => apply hist_switch; lia
  | |- unjoined _ _ _ _ _ => constructor; [reflexivity|reflexivity|apply hist_free; exact I|exists 10%nat, 3%nat; split; [split; [simpl; lia|reflexivity]|lia]]
  | |- _ <= _ => vm_compute; discriminate
  | |- _ < _ => vm_compute; reflexivity
  | |- _ = _ => vm_compute; reflexivity
  end.
(* The input is on in the cycles 4, 5, 8 and 9. *)
Example hist_input : marked hist_prog /\ seen (LIn 0 K_I 0) = [0; 0; 0; 1; 1; 0; 0; 1; 1; 0; 0; 0].
Proof. split; [apply hist_marked|vm_compute; reflexivity]. Qed.

(** ** C09 *)

(** C09: in any run of the task, a TON whose timer nothing else sets is executed once in every cycle, and at the end of every cycle
    its registers are what its inputs up to this cycle and the clock say ([on_delay]). *)
Theorem C09_run : forall E W m k s s' n r col i v1 f,
  quiet_clock E -> basetime (v_type v1) = Some f -> 0 <= v_raw v1 * f < 2 ^ 32 ->
  cycle_ready E W (s_ctx s) m -> in_time (s_ctx s) m -> goes E W k s s' ->
  timer_block (s_ctx s) I_TON n r col i v1 -> sole_user W (s_ctx s) n r col (timer_regs i) -> timer_idle (s_ctx s) i ->
  exists lg, length lg = k /\ log E W (timer_cycle E W n r col i) s lg s' /\ on_delay E n r col i v1 f lg s.
Proof. exact C09_run_l. Qed.
Print Assumptions C09_run.

(** C09: with a switch in front of the TON, its input in every cycle is the value of the switch's input in that cycle. So the timer
    registers of the run are given by the values of the input and of the clock alone. *)
Theorem C09_switch : forall E W m k s s' n r i v1 f v l,
  quiet_clock E -> basetime (v_type v1) = Some f -> 0 <= v_raw v1 * f < 2 ^ 32 ->
  cycle_ready E W (s_ctx s) m -> in_time (s_ctx s) m -> goes E W k s s' -> marked (s_ctx s) -> switch W (s_ctx s) n r v l ->
  timer_block (s_ctx s) I_TON n r 1 i v1 -> sole_user W (s_ctx s) n r 1 (timer_regs i) -> timer_idle (s_ctx s) i ->
  exists lg, length lg = k /\ log E W (fun s1 s2 x => timer_cycle E W n r 1 i s1 s2 x /\ input_is v s2 (at_on x)) s lg s'
    /\ on_delay E n r 1 i v1 f lg s.
Proof. exact C09_switch_l. Qed.
Print Assumptions C09_switch.
(* In the second cycle of the input the time is over. *)
Example C09_run_case : timer_block hist_prog I_TON 0 0 1 0 (V R_NONE 40) /\ sole_user task_w hist_prog 0 0 1 (timer_regs 0)
  /\ timer_idle hist_prog 0 /\ basetime (v_type (V R_NONE 40)) = Some 1 /\ switch task_w hist_prog 0 0 (V R_I 0) (LIn 0 K_I 0)
  /\ seen (LReg B_Td 0) = [0; 0; 0; 0; 1; 0; 0; 0; 1; 0; 0; 0] /\ seen (LAcc 0) = [0; 0; 0; 1; 40; 0; 0; 1; 40; 0; 0; 0].
Proof. unfold timer_block, timer_idle, pulse_cell, holds. decide_block (1%nat). Qed.

(** ** C10 *)

(** C10: the same for TOF. *)
Theorem C10_run : forall E W m k s s' n r col i v1 f,
  quiet_clock E -> basetime (v_type v1) = Some f -> 0 <= v_raw v1 * f < 2 ^ 32 ->
  cycle_ready E W (s_ctx s) m -> in_time (s_ctx s) m -> goes E W k s s' ->
  timer_block (s_ctx s) I_TOF n r col i v1 -> sole_user W (s_ctx s) n r col (timer_regs i) -> timer_idle (s_ctx s) i ->
  exists lg, length lg = k /\ log E W (timer_cycle E W n r col i) s lg s' /\ off_delay E n r col i v1 f lg s.
Proof. exact C10_run_l. Qed.
Print Assumptions C10_run.

(** C10: with a switch in front of the TOF. *)
Theorem C10_switch : forall E W m k s s' n r i v1 f v l,
  quiet_clock E -> basetime (v_type v1) = Some f -> 0 <= v_raw v1 * f < 2 ^ 32 ->
  cycle_ready E W (s_ctx s) m -> in_time (s_ctx s) m -> goes E W k s s' -> marked (s_ctx s) -> switch W (s_ctx s) n r v l ->
  timer_block (s_ctx s) I_TOF n r 1 i v1 -> sole_user W (s_ctx s) n r 1 (timer_regs i) -> timer_idle (s_ctx s) i ->
  exists lg, length lg = k /\ log E W (fun s1 s2 x => timer_cycle E W n r 1 i s1 s2 x /\ input_is v s2 (at_on x)) s lg s'
    /\ off_delay E n r 1 i v1 f lg s.
Proof. exact C10_switch_l. Qed.
Print Assumptions C10_switch.
(* The output is off once the input was off for 50 ms. *)
Example C10_run_case : timer_block hist_prog I_TOF 0 2 1 1 (V R_NONE 50) /\ sole_user task_w hist_prog 0 2 1 (timer_regs 1)
  /\ timer_idle hist_prog 1 /\ basetime (v_type (V R_NONE 50)) = Some 1 /\ switch task_w hist_prog 0 2 (V R_I 0) (LIn 0 K_I 0)
  /\ seen (LReg B_Td 1) = [0; 0; 1; 0; 0; 0; 0; 0; 0; 0; 0; 1].
Proof. unfold timer_block, timer_idle, pulse_cell, holds. decide_block (6%nat). Qed.

(** ** C11 *)

(** C11, for runs of the task: a TP makes one pulse of the preset length. Missing, because it is false: that later rising edges of
    the input start further pulses. As [one_pulse] says, the output stays off for the rest of the run. *)
Theorem C11_run_partial : forall E W m k s s' n r col i v1 f,
  quiet_clock E -> basetime (v_type v1) = Some f -> 0 <= v_raw v1 * f < 2 ^ 32 ->
  cycle_ready E W (s_ctx s) m -> in_time (s_ctx s) m -> goes E W k s s' ->
  timer_block (s_ctx s) I_TP n r col i v1 -> pulse_cell (s_ctx s) n r col i -> sole_user W (s_ctx s) n r col (timer_regs i) ->
  timer_idle (s_ctx s) i -> holds (s_ctx s) (LAcc i) 0 ->
  exists lg, length lg = k /\ log E W (timer_cycle E W n r col i) s lg s' /\ one_pulse E n r col i v1 f lg s.
Proof. exact C11_run_partial_l. Qed.
Print Assumptions C11_run_partial.
(* The second time the input comes on there is no pulse. *)
Example C11_run_case : timer_block hist_prog I_TP 0 4 1 2 (V R_NONE 50) /\ sole_user task_w hist_prog 0 4 1 (timer_regs 2)
  /\ timer_idle hist_prog 2 /\ basetime (v_type (V R_NONE 50)) = Some 1 /\ switch task_w hist_prog 0 4 (V R_I 0) (LIn 0 K_I 0) /\ pulse_cell hist_prog 0 4 1 2 /\ holds hist_prog (LAcc 2) 0
  /\ seen (LReg B_Tr 2) = [0; 0; 0; 1; 1; 0; 0; 0; 0; 0; 0; 0].
Proof. unfold timer_block, timer_idle, pulse_cell, holds. decide_block (11%nat). Qed.

(** ** C13 *)

(** C13: in any run of the task, a CTU whose counter nothing else sets is executed once in every cycle, and at the end of every cycle
    its count is the number of rising edges of its input since the last cycle with a powered reset input, capped at the preset, and
    the done flag says whether the preset is reached. *)
Theorem C13_run : forall E W m k s s' n r col i p,
  1 <= p < 2 ^ 31 -> cycle_ready E W (s_ctx s) m -> in_time (s_ctx s) m -> goes E W k s s' ->
  counter_block (s_ctx s) I_CTU n r col i p -> sole_user W (s_ctx s) n r (S col) (counter_regs i) -> counter_fresh (s_ctx s) i 0 ->
  exists lg, length lg = k /\ log E W (counter_cycle E W n r col i) s lg s' /\ counts_up n r col i p lg.
Proof. exact C13_run_l. Qed.
Print Assumptions C13_run.

(** C13: with a switch in front of the CTU and the reset row not joined to it, the count at the end of every cycle is the number of
    rising edges of the switch's input from the first cycle on (an input that is on in the first cycle counts as one), capped at the
    preset. *)
Theorem C13_switch : forall E W m k s s' n r i p v l,
  1 <= p < 2 ^ 31 -> cycle_ready E W (s_ctx s) m -> in_time (s_ctx s) m -> goes E W k s s' -> marked (s_ctx s) -> switch W (s_ctx s) n r v l ->
  counter_block (s_ctx s) I_CTU n r 0 i p -> sole_user W (s_ctx s) n r 1 (counter_regs i) -> counter_fresh (s_ctx s) i 0 ->
  unjoined W (s_ctx s) n r 0 ->
  exists lg, length lg = k /\ log E W (fun s1 s2 x => counter_cycle E W n r 0 i s1 s2 x /\ input_is v s2 (at_on x)) s lg s'
    /\ forall q x, nth_error lg q = Some x -> let e := edges (on_at lg) 0 q in
         counter_is (s_ctx (at_end x)) i (Z.min p e) (p <=? e) /\ (p <= e -> powered (s_ctx (at_post x)) n r 1 true).
Proof. exact C13_switch_l. Qed.
Print Assumptions C13_switch.
Example C13_run_case : counter_block hist_prog I_CTU 0 6 0 0 2 /\ sole_user task_w hist_prog 0 6 1 (counter_regs 0)
  /\ counter_fresh hist_prog 0 0 /\ unjoined task_w hist_prog 0 6 0 /\ switch task_w hist_prog 0 6 (V R_I 0) (LIn 0 K_I 0)
  /\ seen (LReg B_C 0) = [0; 0; 0; 1; 1; 1; 1; 2; 2; 2; 2; 2] /\ seen (LReg B_Cd 0) = [0; 0; 0; 0; 0; 0; 0; 1; 1; 1; 1; 1].
Proof. unfold counter_block, counter_fresh, holds. decide_block (16%nat). Qed.

(** ** C14 *)

(** C14: the same for CTD: in any run of the task from a counter loaded with its preset, the count at the end of every cycle is the
    preset minus the number of rising edges since the last powered reset input, not below 0. *)
Theorem C14_run : forall E W m k s s' n r col i p,
  1 <= p < 2 ^ 31 -> cycle_ready E W (s_ctx s) m -> in_time (s_ctx s) m -> goes E W k s s' ->
  counter_block (s_ctx s) I_CTD n r col i p -> sole_user W (s_ctx s) n r (S col) (counter_regs i) -> counter_fresh (s_ctx s) i p ->
  exists lg, length lg = k /\ log E W (counter_cycle E W n r col i) s lg s' /\ counts_down n r col i p lg.
Proof. exact C14_run_l. Qed.
Print Assumptions C14_run.

(** C14: and with a switch in front of it. *)
Theorem C14_switch : forall E W m k s s' n r i p v l,
  1 <= p < 2 ^ 31 -> cycle_ready E W (s_ctx s) m -> in_time (s_ctx s) m -> goes E W k s s' -> marked (s_ctx s) -> switch W (s_ctx s) n r v l ->
  counter_block (s_ctx s) I_CTD n r 0 i p -> sole_user W (s_ctx s) n r 1 (counter_regs i) -> counter_fresh (s_ctx s) i p ->
  unjoined W (s_ctx s) n r 0 ->
  exists lg, length lg = k /\ log E W (fun s1 s2 x => counter_cycle E W n r 0 i s1 s2 x /\ input_is v s2 (at_on x)) s lg s'
    /\ forall q x, nth_error lg q = Some x -> let e := edges (on_at lg) 0 q in
         counter_is (s_ctx (at_end x)) i (Z.max 0 (p - e)) (Z.max 0 (p - e) =? 0) /\ (p <= e -> powered (s_ctx (at_post x)) n r 1 true).
Proof. exact C14_switch_l. Qed.
Print Assumptions C14_switch.
Example C14_run_case : counter_block hist_prog I_CTD 0 8 0 1 7 /\ sole_user task_w hist_prog 0 8 1 (counter_regs 1)
  /\ counter_fresh hist_prog 1 7 /\ unjoined task_w hist_prog 0 8 0 /\ switch task_w hist_prog 0 8 (V R_I 0) (LIn 0 K_I 0)
  /\ seen (LReg B_C 1) = [7; 7; 7; 6; 6; 6; 6; 5; 5; 5; 5; 5] /\ seen (LReg B_Cd 1) = [0; 0; 0; 0; 0; 0; 0; 0; 0; 0; 0; 0].
Proof. unfold counter_block, counter_fresh, holds. decide_block (21%nat). Qed.

(** ** C15 *)

(** C15, what happens instead, for runs of the task: a counter whose reset row is not joined to its count row is never reset, whatever
    the program puts in front of the reset input. Its count is the number of all edges since the run began. *)
Theorem C15_run_never_reset_actual : forall E W m k s s' n r col i p,
  1 <= p < 2 ^ 31 -> cycle_ready E W (s_ctx s) m -> in_time (s_ctx s) m -> goes E W k s s' -> marked (s_ctx s) ->
  counter_block (s_ctx s) I_CTU n r col i p -> sole_user W (s_ctx s) n r (S col) (counter_regs i) -> counter_fresh (s_ctx s) i 0 ->
  unjoined W (s_ctx s) n r col ->
  exists lg, length lg = k /\ log E W (counter_cycle E W n r col i) s lg s'
    /\ forall q x, nth_error lg q = Some x -> at_second x = false
         /\ let e := edges (on_at lg) 0 q in counter_is (s_ctx (at_end x)) i (Z.min p e) (p <=? e).
Proof. exact C15_run_never_reset_actual_l. Qed.
Print Assumptions C15_run_never_reset_actual.
(* A program that closes the contact in front of the reset input and never resets its counter. *)
Definition never_prog : ctx := synced (demo_task
  [[cellv I_NO [V R_I 0]; cellv I_CTU [V R_C 0; V R_NONE 2]]; [cellv I_NO [V R_M 0]; cellv I_MULTI []]]).
Example C15_run_case : cycle_ready hist_env task_w never_prog 1000 /\ in_time never_prog 1000 /\ goes hist_env task_w 30 (start never_prog) (ran hist_env 30 never_prog)
  /\ counter_block never_prog I_CTU 0 0 0 0 2 /\ sole_user task_w never_prog 0 0 1 (counter_regs 0) /\ counter_fresh never_prog 0 0
  /\ code_at never_prog 0 1 0 = I_NO /\ peek (s_ctx (ran hist_env 30 never_prog)) (LReg B_M 0) = Some (VZ 1)
  /\ peek (s_ctx (ran hist_env 30 never_prog)) (LReg B_C 0) = Some (VZ 2).
Proof.
  split; [unfold hist_env, never_prog; decide_cycle|]. split; [apply in_timeb_ok; vm_compute; reflexivity|]. split; [apply cycles_goes; vm_compute; reflexivity|].
  unfold counter_block, counter_fresh, holds. decide_block (1%nat).
Qed.
