(** timers and counters in running programs (C09 to C11, C13 to C15). *)
From Verif Require Import DemoTask.
From Verif Require Export HistFacts P_Timer P_Counter.
(*IMPORT DemoTask *)

(* The plain runs and those behind a switch have the same proof; [X] is what is known about the inputs. *)
Section R.
Variables (E : env) (W : event -> loc -> Prop) (m : Z) (k : nat) (s s' : st).
Lemma ton_run (X : st -> bool -> Prop) n r col i v1 f :
  (forall s1 a b s2 t0 t t' on, cycle_ready E W (s_ctx s1) m -> same_program (s_ctx s) (s_ctx s1) -> whole E W m s1 a b s2 t0 -> in_turn E W a b n r col t t' ->
     left_powered (s_ctx t) n r col on -> X s2 on) ->
  quiet_clock E -> basetime (v_type v1) = Some f -> 0 <= v_raw v1 * f < 2 ^ 32 ->
  cycle_ready E W (s_ctx s) m -> in_time (s_ctx s) m -> goes E W k s s' ->
  timer_block (s_ctx s) I_TON n r col i v1 -> sole_user W (s_ctx s) n r col (timer_regs i) -> timer_idle (s_ctx s) i ->
  exists lg, length lg = k /\ log E W (fun s1 s2 x => timer_cycle E W n r col i s1 s2 x /\ X s2 (at_on x)) s lg s' /\ on_delay E n r col i v1 f lg s.
Proof.
  intros HX QC BT FI CY IT G TB SU ID.
  destruct (HistFacts.timer_run X I_TON E W m k s s' n r col i v1 HX CY IT G TB SU) as (lg & LL & LG & HI & S0 & SE & _).
  exists lg. split; auto. split; auto. intros q x X0 pre on. assert (LQ : (q < k)%nat) by (rewrite <- LL; apply nth_error_Some; congruence).
  pose proof (idle_same _ _ _ (S0 ltac:(lia)) ID) as ID0. pose proof (SE q x X0) as SX.
  destruct (C09_on_delay_l E n r col i v1 f _ _ _ q QC BT FI ID0 (HI q LQ) q (le_n q)) as (A & B & C).
  unfold post_at in A, B, C. rewrite (nth_map_err _ _ _ _ _ X0) in A, B, C. unfold on_at at 1 in A. rewrite (nth_map_err _ _ _ _ _ X0) in A.
  split; [|split].
  - intros K. destruct (A K) as [A1 A2]. split; auto. eapply is_same; eauto.
  - intros j S1 K. destruct (B j S1 K) as [A1 A2]. split; auto. eapply is_same; eauto.
  - intros j S1 K. destruct (C j S1 K) as [A1 A2]. split; auto. eapply is_same; eauto.
Qed.
Lemma tof_run (X : st -> bool -> Prop) n r col i v1 f :
  (forall s1 a b s2 t0 t t' on, cycle_ready E W (s_ctx s1) m -> same_program (s_ctx s) (s_ctx s1) -> whole E W m s1 a b s2 t0 -> in_turn E W a b n r col t t' ->
     left_powered (s_ctx t) n r col on -> X s2 on) ->
  quiet_clock E -> basetime (v_type v1) = Some f -> 0 <= v_raw v1 * f < 2 ^ 32 ->
  cycle_ready E W (s_ctx s) m -> in_time (s_ctx s) m -> goes E W k s s' ->
  timer_block (s_ctx s) I_TOF n r col i v1 -> sole_user W (s_ctx s) n r col (timer_regs i) -> timer_idle (s_ctx s) i ->
  exists lg, length lg = k /\ log E W (fun s1 s2 x => timer_cycle E W n r col i s1 s2 x /\ X s2 (at_on x)) s lg s' /\ off_delay E n r col i v1 f lg s.
Proof.
  intros HX QC BT FI CY IT G TB SU ID.
  destruct (HistFacts.timer_run X I_TOF E W m k s s' n r col i v1 HX CY IT G TB SU) as (lg & LL & LG & HI & S0 & SE & _).
  exists lg. split; auto. split; auto. intros q x X0 pre off. assert (LQ : (q < k)%nat) by (rewrite <- LL; apply nth_error_Some; congruence).
  pose proof (idle_same _ _ _ (S0 ltac:(lia)) ID) as ID0. pose proof (SE q x X0) as SX.
  destruct (C10_off_delay_l E n r col i v1 f _ _ _ q QC BT FI ID0 (HI q LQ) q (le_n q)) as (A & B & C).
  unfold post_at in A, B, C. rewrite (nth_map_err _ _ _ _ _ X0) in A, B, C. unfold on_at at 1 in A. rewrite (nth_map_err _ _ _ _ _ X0) in A.
  split; [|split].
  - intros K. destruct (A K) as [A1 A2]. split; auto. eapply is_same; eauto.
  - intros j S1 K. destruct (B j S1 K) as [A1 A2]. split; auto. eapply is_same; eauto.
  - intros j S1 K. destruct (C j S1 K) as [A1 A2]. split; auto. eapply is_same; eauto.
Qed.
Lemma ctu_run (X : st -> bool -> bool -> Prop) n r col i p :
  (forall s1 a b s2 t0 t t' on sec, cycle_ready E W (s_ctx s1) m -> same_program (s_ctx s) (s_ctx s1) -> whole E W m s1 a b s2 t0 -> in_turn E W a b n r (S col) t t' ->
     powered (s_ctx t) n r col on -> powered (s_ctx t) n (S r) col sec -> X s2 on sec) ->
  1 <= p < 2 ^ 31 -> cycle_ready E W (s_ctx s) m -> in_time (s_ctx s) m -> goes E W k s s' ->
  counter_block (s_ctx s) I_CTU n r col i p -> sole_user W (s_ctx s) n r (S col) (counter_regs i) -> counter_fresh (s_ctx s) i 0 ->
  exists lg, length lg = k /\ log E W (fun s1 s2 x => counter_cycle E W n r col i s1 s2 x /\ X s2 (at_on x) (at_second x)) s lg s' /\ counts_up n r col i p lg.
Proof.
  intros HX FI CY IT G TB SU ID.
  destruct (HistFacts.counter_run X I_CTU E W m k s s' n r col i p HX CY IT G TB SU) as (lg & LL & LG & HI & S0 & SE).
  exists lg. split; auto. split; auto. intros q x X0. assert (LQ : (q < k)%nat) by (rewrite <- LL; apply nth_error_Some; congruence).
  pose proof (fresh_same _ _ _ _ (S0 ltac:(lia)) ID) as ID0. pose proof (SE q x X0) as SX.
  destruct (C13_count_l E n r col i p _ _ _ _ q FI ID0 (HI q LQ) q (le_n q)) as (A & B).
  split; auto. intros j LR e. destruct (B j LR) as [B1 B2]. unfold post_at in B1, B2. rewrite (nth_map_err _ _ _ _ _ X0) in B1, B2. split; auto. eapply count_same; eauto.
Qed.
Lemma ctd_run (X : st -> bool -> bool -> Prop) n r col i p :
  (forall s1 a b s2 t0 t t' on sec, cycle_ready E W (s_ctx s1) m -> same_program (s_ctx s) (s_ctx s1) -> whole E W m s1 a b s2 t0 -> in_turn E W a b n r (S col) t t' ->
     powered (s_ctx t) n r col on -> powered (s_ctx t) n (S r) col sec -> X s2 on sec) ->
  1 <= p < 2 ^ 31 -> cycle_ready E W (s_ctx s) m -> in_time (s_ctx s) m -> goes E W k s s' ->
  counter_block (s_ctx s) I_CTD n r col i p -> sole_user W (s_ctx s) n r (S col) (counter_regs i) -> counter_fresh (s_ctx s) i p ->
  exists lg, length lg = k /\ log E W (fun s1 s2 x => counter_cycle E W n r col i s1 s2 x /\ X s2 (at_on x) (at_second x)) s lg s' /\ counts_down n r col i p lg.
Proof.
  intros HX FI CY IT G TB SU ID.
  destruct (HistFacts.counter_run X I_CTD E W m k s s' n r col i p HX CY IT G TB SU) as (lg & LL & LG & HI & S0 & SE).
  exists lg. split; auto. split; auto. intros q x X0. assert (LQ : (q < k)%nat) by (rewrite <- LL; apply nth_error_Some; congruence).
  pose proof (fresh_same _ _ _ _ (S0 ltac:(lia)) ID) as ID0. pose proof (SE q x X0) as SX.
  destruct (C14_count_l E n r col i p _ _ _ _ q FI ID0 (HI q LQ) q (le_n q)) as (A & B).
  split; auto. intros j LR e. destruct (B j LR) as [B1 B2]. unfold post_at in B1, B2. rewrite (nth_map_err _ _ _ _ _ X0) in B1, B2. split; auto. eapply count_same; eauto.
Qed.
End R.
(* With no powered reset input the last reset is the first cycle. *)
Lemma log_second {A} E W (R : st -> st -> A -> Prop) (f : A -> bool) s lg s' : (forall s1 s2 x, R s1 s2 x -> f x = false) -> log E W R s lg s' -> forall j, nth j (map f lg) false = false.
Proof. intros H. induction 1 as [s|j s s1 s2 s3 x lg WT J RU CC RX L IH]; intros [|i]; simpl; auto. eapply H; eauto. Qed.
Lemma first_reset f q : (forall j : nat, f j = false) -> last_reset f 0 q.
Proof. intros H. split; [lia|]. split; [right; auto|]. intros; apply H. Qed.

(*EX
(* A program with the five blocks, each behind a switch on input 0, on timers 0 to 2 and counters 0 and 1. *)
Definition hist_row (i : ins) (a b : value) (y : nat) : list (list cell) :=
  [[cellv I_NO [V R_I 0]; cellv i [a; b]; cellv I_COIL [V R_M (Z.of_nat y)]]; [cellv I_NOP []; cellv I_MULTI []; cellv I_NOP []]].
Definition hist_prog : ctx := synced (demo_task
  (hist_row I_TON (V R_T 0) (V R_NONE 40) 0 ++ hist_row I_TOF (V R_T 1) (V R_NONE 50) 1 ++ hist_row I_TP (V R_T 2) (V R_NONE 50) 2
   ++ hist_row I_CTU (V R_C 0) (V R_NONE 2) 3 ++ hist_row I_CTD (V R_C 1) (V R_NONE 7) 3)).
Definition hist_env : env := task_env (fun k => Z.of_nat k) (fun k i => if (i =? 0)%nat then (Z.of_nat k / 100) mod 2 else 0) (fun _ => None).
Definition unnamedb (c : ctx) (regs : list loc) (u : nat * nat * nat) : bool :=
  let '(n, r, col) := u in
  match code_at c n r col with
  | I_NO | I_NOP | I_MULTI => true
  | I_COIL => match peek c (LData n r col 0) with Some (VVal v) => match v_type v with R_M => true | _ => false end | _ => true end
  | I_TON | I_TOF | I_TP => match peek c (LData n r col 0) with Some (VVal v) => forallb (fun l => match l with
      | LReg B_Tr i | LReg B_Td i | LTs i | LAcc i => negb (i =? ix (v_raw v))%nat | _ => true end) regs | _ => true end
  | I_CTU | I_CTD => match peek c (LData n r col 0) with Some (VVal v) => forallb (fun l => match l with
      | LReg B_C i | LReg B_Cd i | LReg B_Cr i => negb (i =? ix (v_raw v))%nat | _ => true end) regs | _ => true end
  | _ => false
  end.
Definition not_M (l : loc) : bool := match l with LReg B_M _ => false | _ => true end.
Lemma unnamedb_ok c regs n r col l : unnamedb c regs (n, r, col) = true -> forallb not_M regs = true -> In l regs -> ~ names c (code_at c n r col) n r col l.
Proof.
  unfold unnamedb. intros U NM L N. rewrite forallb_forall in NM. specialize (NM l L).
  destruct (code_at c n r col) eqn:CO; try discriminate U;
    destruct N as [(j & v & D & P & T)|[([] & v & P & Z & IR)|[([] & v & P & Z & IR)|(K & _)]]]; try discriminate;
    try (rewrite P in U; rewrite forallb_forall in U; specialize (U l L); simpl in IR; decompose [or] IR; subst; try contradiction; simpl in U; rewrite Nat.eqb_refl in U; discriminate).
  simpl in D. injection D as <-. rewrite P in U. destruct (v_type v) eqn:TY; try discriminate U. unfold target in T. rewrite TY in T. cbn [bank_of] in T.
  repeat match type of T with (if ?b then _ else _) = _ => destruct b | match ?b with _ => _ end = _ => destruct b end; try discriminate; injection T as <-; discriminate NM.
Qed.
Lemma sole_by k c n r col regs : 
  nth_error (program_cells c) k = Some (n, r, col) ->
  forallb (fun u => negb (let '(a, b, d) := u in (a =? n) && (b =? r) && (d =? col))%nat) (firstn k (program_cells c) ++ skipn (S k) (program_cells c)) = true ->
  forallb (unnamedb c regs) (firstn k (program_cells c) ++ skipn (S k) (program_cells c)) = true -> forallb not_M regs = true ->
  (forall l, In l regs -> match l with LIn _ _ _ | LState => False | _ => True end) ->
  sole_user task_w c n r col regs.
Proof.
  intros N F U NM TW. split.
  - exists (firstn k (program_cells c)), (skipn (S k) (program_cells c)). split.
    + rewrite <- (firstn_skipn k (program_cells c)) at 1. f_equal. clear - N. revert N. generalize (program_cells c). induction k as [|k IH]; intros [|x l] N; try discriminate; simpl in *; [injection N as ->; auto|auto].
    + split.
      * intros K. rewrite forallb_forall in F. specialize (F _ K). cbv beta iota in F. rewrite !Nat.eqb_refl in F. discriminate.
      * intros n' r' col' l K L. rewrite forallb_forall in U. eapply unnamedb_ok; eauto.
  - intros ev l L K. specialize (TW l L). destruct ev; simpl in K; try contradiction; [subst l|subst l|destruct K as (i & ->)]; contradiction.
Qed.
Lemma hist_free l : (match l with LPow _ _ _ => True | LIn _ _ _ => True | _ => False end) -> ~ during_scan task_w l.
Proof. intros H (ev & S & K). destruct ev; simpl in S, K; contradiction. Qed.
Lemma hist_switch r : (r = 0 \/ r = 2 \/ r = 4 \/ r = 6 \/ r = 8)%nat -> switch task_w hist_prog 0 r (V R_I 0) (LIn 0 K_I 0).
Proof.
  intros H. assert (HH : has_history hist_prog (V R_I 0)).
  { exists (LIn 0 K_I 0). split; [reflexivity|]. split; [|auto]. right; right. exists 0%nat. do 3 eexists. exists 0%nat. split; [vm_compute; lia|]. split; [reflexivity|].
    left. split; [reflexivity|]. split; [vm_compute; lia|]. split; vm_compute; discriminate. }
  assert (LA : left_alone task_w hist_prog (LIn 0 K_I 0)).
  { split; [apply input_alone; vm_compute; reflexivity|now apply hist_free]. }
  decompose [or] H; subst r.
  all: constructor; try assumption; try (vm_compute; reflexivity); try decide_op; try (apply hist_free; exact I).
  - exists (firstn 1 (program_cells hist_prog)), (skipn 2 (program_cells hist_prog)). vm_compute. auto 40.
  - exists (firstn 6 (program_cells hist_prog)), (skipn 7 (program_cells hist_prog)). vm_compute. auto 40.
  - exists (firstn 11 (program_cells hist_prog)), (skipn 12 (program_cells hist_prog)). vm_compute. auto 40.
  - exists (firstn 16 (program_cells hist_prog)), (skipn 17 (program_cells hist_prog)). vm_compute. auto 40.
  - exists (firstn 21 (program_cells hist_prog)), (skipn 22 (program_cells hist_prog)). vm_compute. auto 40.
Qed.
Lemma hist_marked : marked hist_prog.
Proof.
  intros n rows cols r col k [SC1 SC2] R C. simpl in SC1. assert (n = 0)%nat as -> by lia. injection SC2 as <- <-.
  do 10 (destruct r as [|r]; [do 3 (destruct col as [|col]; [simpl; intros; try lia; intuition (subst; auto; lia)|]); lia|]). lia.
Qed.
Lemma hist_ready : cycle_ready hist_env task_w hist_prog 1000 /\ in_time hist_prog 1000 /\ goes hist_env task_w 12 (start hist_prog) (ran hist_env 12 hist_prog) /\ quiet_clock hist_env.
Proof.
  split; [unfold hist_env, hist_prog; decide_cycle|]. split; [apply in_timeb_ok; vm_compute; reflexivity|]. split; [apply cycles_goes; vm_compute; reflexivity|].
  intros k t c. reflexivity.
Qed.
(* The value of a place at the ends of the twelve cycles. *)
Definition seen (l : loc) : list Z :=
  map (fun k => match peek (s_ctx (ran hist_env k hist_prog)) l with Some (VZ z) => z | _ => -1 end) (seq 1 12).
Ltac decide_block k := repeat match goal with
  | |- _ /\ _ => split
  | |- basetime _ = _ => reflexivity
  | |- code_at _ _ _ _ = _ => reflexivity
  | |- operand_at _ _ _ _ _ _ => decide_op
  | |- cell_exists _ _ _ _ => vm_compute; eauto
  | |- exists v, operand_at _ _ _ _ _ v /\ _ => eexists; split; [decide_op|try (split; reflexivity); reflexivity]
  | |- timer_exists _ _ => do 4 eexists; split; [split; [vm_compute; reflexivity|auto]|split; [split; [vm_compute; reflexivity|auto]|split; vm_compute; reflexivity]]
  | |- sole_user _ _ _ _ _ _ => apply (sole_by k); [vm_compute; reflexivity..|simpl; intros l L; decompose [or] L; subst; try contradiction; exact I]
  | |- switch _ _ _ _ _ _ => apply hist_switch; lia
  | |- unjoined _ _ _ _ _ => constructor; [reflexivity|reflexivity|apply hist_free; exact I|exists 10%nat, 3%nat; split; [split; [simpl; lia|reflexivity]|lia]]
  | |- _ <= _ => vm_compute; discriminate
  | |- _ < _ => vm_compute; reflexivity
  | |- _ = _ => vm_compute; reflexivity
  end.
(* The input is on in the cycles 4, 5, 8 and 9. *)
Example hist_input : marked hist_prog /\ seen (LIn 0 K_I 0) = [0; 0; 0; 1; 1; 0; 0; 1; 1; 0; 0; 0].
Proof. split; [apply hist_marked|vm_compute; reflexivity]. Qed.
EX*)
(** ** C09 *)

(** C09: in any run of the task, a TON whose timer nothing else sets is executed once in every cycle, and at the end of every cycle
    its registers are what its inputs up to this cycle and the clock say ([on_delay]). *)
Lemma C09_run_l : forall E W m k s s' n r col i v1 f,
  quiet_clock E -> basetime (v_type v1) = Some f -> 0 <= v_raw v1 * f < 2 ^ 32 ->
  cycle_ready E W (s_ctx s) m -> in_time (s_ctx s) m -> goes E W k s s' ->
  timer_block (s_ctx s) I_TON n r col i v1 -> sole_user W (s_ctx s) n r col (timer_regs i) -> timer_idle (s_ctx s) i ->
  exists lg, length lg = k /\ log E W (timer_cycle E W n r col i) s lg s' /\ on_delay E n r col i v1 f lg s.
Proof.
  intros E W m k s s' n r col i v1 f QC BT FI CY IT G TB SU ID.
  destruct (ton_run E W m k s s' (fun _ _ => True) n r col i v1 f) as (lg & LL & LG & OD); auto.
  exists lg. split; auto. split; auto. eapply log_mono; [|exact LG]. cbv beta. tauto.
Qed.
(** C09: with a switch in front of the TON, its input in every cycle is the value of the switch's input in that cycle. So the timer
    registers of the run are given by the values of the input and of the clock alone. *)
Lemma C09_switch_l : forall E W m k s s' n r i v1 f v l,
  quiet_clock E -> basetime (v_type v1) = Some f -> 0 <= v_raw v1 * f < 2 ^ 32 ->
  cycle_ready E W (s_ctx s) m -> in_time (s_ctx s) m -> goes E W k s s' -> marked (s_ctx s) -> switch W (s_ctx s) n r v l ->
  timer_block (s_ctx s) I_TON n r 1 i v1 -> sole_user W (s_ctx s) n r 1 (timer_regs i) -> timer_idle (s_ctx s) i ->
  exists lg, length lg = k /\ log E W (fun s1 s2 x => timer_cycle E W n r 1 i s1 s2 x /\ input_is v s2 (at_on x)) s lg s'
    /\ on_delay E n r 1 i v1 f lg s.
Proof.
  intros E W m k s s' n r i v1 f v l QC BT FI CY IT G MK SW TB SU ID.
  apply (ton_run E W m k s s' (input_is v) n r 1 i v1 f); auto.
  intros s1 a b s2 t0 t t' on C1 SP P T LP. exact (switch_on E W m s s1 a b s2 t0 n r v l _ t t' on MK SW SU C1 SP P T LP).
Qed.
(*EX
(* In the second cycle of the input the time is over. *)
Example C09_run_case : timer_block hist_prog I_TON 0 0 1 0 (V R_NONE 40) /\ sole_user task_w hist_prog 0 0 1 (timer_regs 0)
  /\ timer_idle hist_prog 0 /\ basetime (v_type (V R_NONE 40)) = Some 1 /\ switch task_w hist_prog 0 0 (V R_I 0) (LIn 0 K_I 0)
  /\ seen (LReg B_Td 0) = [0; 0; 0; 0; 1; 0; 0; 0; 1; 0; 0; 0] /\ seen (LAcc 0) = [0; 0; 0; 1; 40; 0; 0; 1; 40; 0; 0; 0].
Proof. unfold timer_block, timer_idle, pulse_cell, holds. decide_block (1%nat). Qed.
EX*)

(** ** C10 *)

(** C10: the same for TOF. *)
Lemma C10_run_l : forall E W m k s s' n r col i v1 f,
  quiet_clock E -> basetime (v_type v1) = Some f -> 0 <= v_raw v1 * f < 2 ^ 32 ->
  cycle_ready E W (s_ctx s) m -> in_time (s_ctx s) m -> goes E W k s s' ->
  timer_block (s_ctx s) I_TOF n r col i v1 -> sole_user W (s_ctx s) n r col (timer_regs i) -> timer_idle (s_ctx s) i ->
  exists lg, length lg = k /\ log E W (timer_cycle E W n r col i) s lg s' /\ off_delay E n r col i v1 f lg s.
Proof.
  intros E W m k s s' n r col i v1 f QC BT FI CY IT G TB SU ID.
  destruct (tof_run E W m k s s' (fun _ _ => True) n r col i v1 f) as (lg & LL & LG & OD); auto.
  exists lg. split; auto. split; auto. eapply log_mono; [|exact LG]. cbv beta. tauto.
Qed.
(** C10: with a switch in front of the TOF. *)
Lemma C10_switch_l : forall E W m k s s' n r i v1 f v l,
  quiet_clock E -> basetime (v_type v1) = Some f -> 0 <= v_raw v1 * f < 2 ^ 32 ->
  cycle_ready E W (s_ctx s) m -> in_time (s_ctx s) m -> goes E W k s s' -> marked (s_ctx s) -> switch W (s_ctx s) n r v l ->
  timer_block (s_ctx s) I_TOF n r 1 i v1 -> sole_user W (s_ctx s) n r 1 (timer_regs i) -> timer_idle (s_ctx s) i ->
  exists lg, length lg = k /\ log E W (fun s1 s2 x => timer_cycle E W n r 1 i s1 s2 x /\ input_is v s2 (at_on x)) s lg s'
    /\ off_delay E n r 1 i v1 f lg s.
Proof.
  intros E W m k s s' n r i v1 f v l QC BT FI CY IT G MK SW TB SU ID.
  apply (tof_run E W m k s s' (input_is v) n r 1 i v1 f); auto.
  intros s1 a b s2 t0 t t' on C1 SP P T LP. exact (switch_on E W m s s1 a b s2 t0 n r v l _ t t' on MK SW SU C1 SP P T LP).
Qed.
(*EX
(* The output is off once the input was off for 50 ms. *)
Example C10_run_case : timer_block hist_prog I_TOF 0 2 1 1 (V R_NONE 50) /\ sole_user task_w hist_prog 0 2 1 (timer_regs 1)
  /\ timer_idle hist_prog 1 /\ basetime (v_type (V R_NONE 50)) = Some 1 /\ switch task_w hist_prog 0 2 (V R_I 0) (LIn 0 K_I 0)
  /\ seen (LReg B_Td 1) = [0; 0; 1; 0; 0; 0; 0; 0; 0; 0; 0; 1].
Proof. unfold timer_block, timer_idle, pulse_cell, holds. decide_block (6%nat). Qed.
EX*)

(** ** C11 *)

(** C11, for runs of the task: a TP makes one pulse of the preset length. Missing, because it is false: that later rising edges of
    the input start further pulses. As [one_pulse] says, the output stays off for the rest of the run. *)
Lemma C11_run_partial_l : forall E W m k s s' n r col i v1 f,
  quiet_clock E -> basetime (v_type v1) = Some f -> 0 <= v_raw v1 * f < 2 ^ 32 ->
  cycle_ready E W (s_ctx s) m -> in_time (s_ctx s) m -> goes E W k s s' ->
  timer_block (s_ctx s) I_TP n r col i v1 -> pulse_cell (s_ctx s) n r col i -> sole_user W (s_ctx s) n r col (timer_regs i) ->
  timer_idle (s_ctx s) i -> holds (s_ctx s) (LAcc i) 0 ->
  exists lg, length lg = k /\ log E W (timer_cycle E W n r col i) s lg s' /\ one_pulse E n r col i v1 f lg s.
Proof.
  intros E W m k s s' n r col i v1 f QC BT FI CY IT G TB (v0 & PC1 & PC2 & PC3) SU ID AC. destruct (executing_scanned _ _ _ _ _ _ SU) as (rows & cols & SC).
  destruct (HistFacts.timer_run (fun _ _ => True) I_TP E W m k s s' n r col i v1) as (lg & LL & LG & HI & S0 & SE & SPR); auto.
  exists lg. split; auto. split; [eapply log_mono; [|exact LG]; cbv beta; tauto|].
  intros q x X0 pre on. assert (LQ : (q < k)%nat) by (rewrite <- LL; apply nth_error_Some; congruence).
  pose proof (idle_same _ _ _ (S0 ltac:(lia)) ID) as ID0. pose proof (SE q x X0) as SX.
  assert (AC0 : holds (s_ctx (pre_at lg s 0)) (LAcc i) 0).
  { unfold holds in *. rewrite <- AC. apply (S0 ltac:(lia)). simpl; auto 6. }
  assert (PC : forall j, (j <= q)%nat -> pulse_cell (s_ctx (pre_at lg s j)) n r col i).
  { intros j LJ. destruct (nth_is lg j ltac:(lia)) as (y & Y & _). unfold pre_at. rewrite (nth_map_err _ _ _ _ _ Y).
    exists v0. split; auto. eapply same_operand; [exact (SPR j y Y)|eauto|auto]. }
  destruct (C11_pulse_partial_l E n r col i v1 f _ _ _ q QC BT FI ID0 AC0 (HI q LQ) PC q (le_n q)) as (A & B).
  unfold post_at in A, B. rewrite (nth_map_err _ _ _ _ _ X0) in A, B. split.
  - intros K. destruct (A K) as [A1 A2]. split; auto. eapply is_same; eauto.
  - intros j LJ K1 K2. destruct (B j LJ K1 K2) as [B1 B2]. split; intros K; [destruct (B1 K)|destruct (B2 K)]; (split; auto; eapply is_same; eauto).
Qed.
(*EX
(* The second time the input comes on there is no pulse. *)
Example C11_run_case : timer_block hist_prog I_TP 0 4 1 2 (V R_NONE 50) /\ sole_user task_w hist_prog 0 4 1 (timer_regs 2)
  /\ timer_idle hist_prog 2 /\ basetime (v_type (V R_NONE 50)) = Some 1 /\ switch task_w hist_prog 0 4 (V R_I 0) (LIn 0 K_I 0) /\ pulse_cell hist_prog 0 4 1 2 /\ holds hist_prog (LAcc 2) 0
  /\ seen (LReg B_Tr 2) = [0; 0; 0; 1; 1; 0; 0; 0; 0; 0; 0; 0].
Proof. unfold timer_block, timer_idle, pulse_cell, holds. decide_block (11%nat). Qed.
EX*)

(** ** C13 *)

(** C13: in any run of the task, a CTU whose counter nothing else sets is executed once in every cycle, and at the end of every cycle
    its count is the number of rising edges of its input since the last cycle with a powered reset input, capped at the preset, and
    the done flag says whether the preset is reached. *)
Lemma C13_run_l : forall E W m k s s' n r col i p,
  1 <= p < 2 ^ 31 -> cycle_ready E W (s_ctx s) m -> in_time (s_ctx s) m -> goes E W k s s' ->
  counter_block (s_ctx s) I_CTU n r col i p -> sole_user W (s_ctx s) n r (S col) (counter_regs i) -> counter_fresh (s_ctx s) i 0 ->
  exists lg, length lg = k /\ log E W (counter_cycle E W n r col i) s lg s' /\ counts_up n r col i p lg.
Proof.
  intros E W m k s s' n r col i p FI CY IT G TB SU ID.
  destruct (ctu_run E W m k s s' (fun _ _ _ => True) n r col i p) as (lg & LL & LG & CU); auto.
  exists lg. split; auto. split; auto. eapply log_mono; [|exact LG]. cbv beta. tauto.
Qed.
(** C13: with a switch in front of the CTU and the reset row not joined to it, the count at the end of every cycle is the number of
    rising edges of the switch's input from the first cycle on (an input that is on in the first cycle counts as one), capped at the
    preset. *)
Lemma C13_switch_l : forall E W m k s s' n r i p v l,
  1 <= p < 2 ^ 31 -> cycle_ready E W (s_ctx s) m -> in_time (s_ctx s) m -> goes E W k s s' -> marked (s_ctx s) -> switch W (s_ctx s) n r v l ->
  counter_block (s_ctx s) I_CTU n r 0 i p -> sole_user W (s_ctx s) n r 1 (counter_regs i) -> counter_fresh (s_ctx s) i 0 ->
  unjoined W (s_ctx s) n r 0 ->
  exists lg, length lg = k /\ log E W (fun s1 s2 x => counter_cycle E W n r 0 i s1 s2 x /\ input_is v s2 (at_on x)) s lg s'
    /\ forall q x, nth_error lg q = Some x -> let e := edges (on_at lg) 0 q in
         counter_is (s_ctx (at_end x)) i (Z.min p e) (p <=? e) /\ (p <= e -> powered (s_ctx (at_post x)) n r 1 true).
Proof.
  intros E W m k s s' n r i p v l FI CY IT G MK SW TB SU ID [U1 U2 U3 U4].
  destruct (ctu_run E W m k s s' (fun s2 on sec => input_is v s2 on /\ sec = false) n r 0 i p) as (lg & LL & LG & CU); auto.
  { intros s1 a b s2 t0 t t' on sec C1 SP P T P1 P2. split.
    - exact (switch_on E W m s s1 a b s2 t0 n r v l _ t t' on MK SW SU C1 SP P T P1).
    - exact (reset_off E W m s s1 a b s2 t0 n r 0 t t' sec MK U1 U2 U3 U4 SP P T P2). }
  exists lg. split; auto. split; [eapply log_mono; [|exact LG]; cbv beta; tauto|]. intros q x X.
  assert (SEC : forall j, second_at lg j = false) by (eapply (log_second E W _ at_second); [|exact LG]; cbv beta; tauto).
  destruct (CU q x X) as [_ K]. specialize (K 0%nat (first_reset _ q SEC)). rewrite Nat.sub_0_r in K. exact K.
Qed.
(*EX
Example C13_run_case : counter_block hist_prog I_CTU 0 6 0 0 2 /\ sole_user task_w hist_prog 0 6 1 (counter_regs 0)
  /\ counter_fresh hist_prog 0 0 /\ unjoined task_w hist_prog 0 6 0 /\ switch task_w hist_prog 0 6 (V R_I 0) (LIn 0 K_I 0)
  /\ seen (LReg B_C 0) = [0; 0; 0; 1; 1; 1; 1; 2; 2; 2; 2; 2] /\ seen (LReg B_Cd 0) = [0; 0; 0; 0; 0; 0; 0; 1; 1; 1; 1; 1].
Proof. unfold counter_block, counter_fresh, holds. decide_block (16%nat). Qed.
EX*)

(** ** C14 *)

(** C14: the same for CTD: in any run of the task from a counter loaded with its preset, the count at the end of every cycle is the
    preset minus the number of rising edges since the last powered reset input, not below 0. *)
Lemma C14_run_l : forall E W m k s s' n r col i p,
  1 <= p < 2 ^ 31 -> cycle_ready E W (s_ctx s) m -> in_time (s_ctx s) m -> goes E W k s s' ->
  counter_block (s_ctx s) I_CTD n r col i p -> sole_user W (s_ctx s) n r (S col) (counter_regs i) -> counter_fresh (s_ctx s) i p ->
  exists lg, length lg = k /\ log E W (counter_cycle E W n r col i) s lg s' /\ counts_down n r col i p lg.
Proof.
  intros E W m k s s' n r col i p FI CY IT G TB SU ID.
  destruct (ctd_run E W m k s s' (fun _ _ _ => True) n r col i p) as (lg & LL & LG & CU); auto.
  exists lg. split; auto. split; auto. eapply log_mono; [|exact LG]. cbv beta. tauto.
Qed.
(** C14: and with a switch in front of it. *)
Lemma C14_switch_l : forall E W m k s s' n r i p v l,
  1 <= p < 2 ^ 31 -> cycle_ready E W (s_ctx s) m -> in_time (s_ctx s) m -> goes E W k s s' -> marked (s_ctx s) -> switch W (s_ctx s) n r v l ->
  counter_block (s_ctx s) I_CTD n r 0 i p -> sole_user W (s_ctx s) n r 1 (counter_regs i) -> counter_fresh (s_ctx s) i p ->
  unjoined W (s_ctx s) n r 0 ->
  exists lg, length lg = k /\ log E W (fun s1 s2 x => counter_cycle E W n r 0 i s1 s2 x /\ input_is v s2 (at_on x)) s lg s'
    /\ forall q x, nth_error lg q = Some x -> let e := edges (on_at lg) 0 q in
         counter_is (s_ctx (at_end x)) i (Z.max 0 (p - e)) (Z.max 0 (p - e) =? 0) /\ (p <= e -> powered (s_ctx (at_post x)) n r 1 true).
Proof.
  intros E W m k s s' n r i p v l FI CY IT G MK SW TB SU ID [U1 U2 U3 U4].
  destruct (ctd_run E W m k s s' (fun s2 on sec => input_is v s2 on /\ sec = false) n r 0 i p) as (lg & LL & LG & CU); auto.
  { intros s1 a b s2 t0 t t' on sec C1 SP P T P1 P2. split.
    - exact (switch_on E W m s s1 a b s2 t0 n r v l _ t t' on MK SW SU C1 SP P T P1).
    - exact (reset_off E W m s s1 a b s2 t0 n r 0 t t' sec MK U1 U2 U3 U4 SP P T P2). }
  exists lg. split; auto. split; [eapply log_mono; [|exact LG]; cbv beta; tauto|]. intros q x X.
  assert (SEC : forall j, second_at lg j = false) by (eapply (log_second E W _ at_second); [|exact LG]; cbv beta; tauto).
  destruct (CU q x X) as [_ K]. specialize (K 0%nat (first_reset _ q SEC)). rewrite Nat.sub_0_r in K. exact K.
Qed.
(*EX
Example C14_run_case : counter_block hist_prog I_CTD 0 8 0 1 7 /\ sole_user task_w hist_prog 0 8 1 (counter_regs 1)
  /\ counter_fresh hist_prog 1 7 /\ unjoined task_w hist_prog 0 8 0 /\ switch task_w hist_prog 0 8 (V R_I 0) (LIn 0 K_I 0)
  /\ seen (LReg B_C 1) = [7; 7; 7; 6; 6; 6; 6; 5; 5; 5; 5; 5] /\ seen (LReg B_Cd 1) = [0; 0; 0; 0; 0; 0; 0; 0; 0; 0; 0; 0].
Proof. unfold counter_block, counter_fresh, holds. decide_block (21%nat). Qed.
EX*)

(** ** C15 *)

(** C15, what happens instead, for runs of the task: a counter whose reset row is not joined to its count row is never reset, whatever
    the program puts in front of the reset input. Its count is the number of all edges since the run began. *)
Lemma C15_run_never_reset_actual_l : forall E W m k s s' n r col i p,
  1 <= p < 2 ^ 31 -> cycle_ready E W (s_ctx s) m -> in_time (s_ctx s) m -> goes E W k s s' -> marked (s_ctx s) ->
  counter_block (s_ctx s) I_CTU n r col i p -> sole_user W (s_ctx s) n r (S col) (counter_regs i) -> counter_fresh (s_ctx s) i 0 ->
  unjoined W (s_ctx s) n r col ->
  exists lg, length lg = k /\ log E W (counter_cycle E W n r col i) s lg s'
    /\ forall q x, nth_error lg q = Some x -> at_second x = false
         /\ let e := edges (on_at lg) 0 q in counter_is (s_ctx (at_end x)) i (Z.min p e) (p <=? e).
Proof.
  intros E W m k s s' n r col i p FI CY IT G MK TB SU ID [U1 U2 U3 U4].
  destruct (ctu_run E W m k s s' (fun s2 on sec => sec = false) n r col i p) as (lg & LL & LG & CU); auto.
  { intros s1 a b s2 t0 t t' on sec C1 SP P T P1 P2. exact (reset_off E W m s s1 a b s2 t0 n r col t t' sec MK U1 U2 U3 U4 SP P T P2). }
  exists lg. split; auto. split; [eapply log_mono; [|exact LG]; cbv beta; tauto|]. intros q x X.
  assert (SEC : forall j, second_at lg j = false) by (eapply (log_second E W _ at_second); [|exact LG]; cbv beta; tauto).
  split; [pose proof (SEC q) as K; unfold second_at in K; rewrite (nth_map_err _ _ _ _ _ X) in K; exact K|].
  destruct (CU q x X) as [_ K]. specialize (K 0%nat (first_reset _ q SEC)). rewrite Nat.sub_0_r in K. apply K.
Qed.
(*EX
(* A program that closes the contact in front of the reset input and never resets its counter. *)
Definition never_prog : ctx := synced (demo_task
  [[cellv I_NO [V R_I 0]; cellv I_CTU [V R_C 0; V R_NONE 2]]; [cellv I_NO [V R_M 0]; cellv I_MULTI []]]).
Example C15_run_case : cycle_ready hist_env task_w never_prog 1000 /\ in_time never_prog 1000 /\ goes hist_env task_w 30 (start never_prog) (ran hist_env 30 never_prog)
  /\ counter_block never_prog I_CTU 0 0 0 0 2 /\ sole_user task_w never_prog 0 0 1 (counter_regs 0) /\ counter_fresh never_prog 0 0
  /\ code_at never_prog 0 1 0 = I_NO /\ peek (s_ctx (ran hist_env 30 never_prog)) (LReg B_M 0) = Some (VZ 1)
  /\ peek (s_ctx (ran hist_env 30 never_prog)) (LReg B_C 0) = Some (VZ 2).
Proof.
  split; [unfold hist_env, never_prog; decide_cycle|]. split; [apply in_timeb_ok; vm_compute; reflexivity|]. split; [apply cycles_goes; vm_compute; reflexivity|].
  unfold counter_block, counter_fresh, holds. decide_block (1%nat).
Qed.
EX*)
