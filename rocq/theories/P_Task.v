(** the task as a whole (C30, C31). *)
From Verif Require Import DemoTask.
From Verif Require Export P_Cycle.
(*IMPORT DemoTask *)

(** ** No endless loop inside the library *)

Definition nf {A} (m : M A) (s : st) : Prop := m s <> NoFuel.
Definition nfr {A} (r : res A) : Prop := r <> NoFuel.
Lemma nf_bind {A B} (m : M A) (k : A -> M B) s : nf m s -> (forall a s1, m s = Ok (a, s1) -> nf (k a) s1) -> nf (bind m k) s.
Proof. unfold nf, bind. intros H1 H2. destruct (m s) as [[a s1]| |]; auto; discriminate. Qed.
Lemma nf_ret {A} (a : A) s : nf (ret a) s. Proof. discriminate. Qed.
Lemma nf_getc s : nf getc s. Proof. discriminate. Qed.
Lemma nf_modc f s : nf (modc f) s. Proof. discriminate. Qed.
Lemma nf_emit E ev s : nf (emit E ev) s. Proof. discriminate. Qed.
Lemma nf_lift {A} (r : res A) s : nfr r -> nf (lift r) s. Proof. unfold nf, lift, nfr. destruct r; congruence. Qed.
Lemma nf_updc f s : nfr (f (s_ctx s)) -> nf (updc f) s. Proof. unfold nf, updc, nfr. destruct (f (s_ctx s)); congruence. Qed.
Lemma nfr_bind {A B} (m : res A) (k : A -> res B) : nfr m -> (forall a, nfr (k a)) -> nfr (rbind m k).
Proof. unfold nfr. destruct m; simpl; auto; congruence. Qed.
Lemma nfr_ok {A} (a : A) : nfr (Ok a). Proof. discriminate. Qed.
Lemma nfr_bad {A} u : nfr (@Bad A u). Proof. discriminate. Qed.
Lemma nfr_memcpy d s n : nfr (pmemcpy d s n).
Proof. unfold nfr, pmemcpy. destruct n; [discriminate|]. destruct d, s; try discriminate. destruct (_ && _); discriminate. Qed.
Lemma nfr_memset p n : nfr (pmemset0 p n).
Proof. unfold nfr, pmemset0. destruct n; [discriminate|]. destruct p; try discriminate. destruct (_ <=? _)%nat; discriminate. Qed.
Lemma nfr_pmap {A} n (f : A -> res A) p : (forall x, nfr (f x)) -> nfr (pmap_first n f p).
Proof. intros H. unfold pmap_first, nfr. destruct n; [discriminate|]. destruct p as [l|]; [|discriminate]. apply nfr_bind; [|intros; apply nfr_ok]. now apply map_first_nf. Qed.
Ltac nf_goal :=
  repeat lazymatch goal with
  | |- nf (bind _ _) _ => apply nf_bind; [|intros]
  | |- nf (ret _) _ => apply nf_ret
  | |- nf getc _ => apply nf_getc
  | |- nf (modc _) _ => apply nf_modc
  | |- nf (emit _ _) _ => apply nf_emit
  | |- nf (lift _) _ => apply nf_lift
  | |- nf (updc _) _ => apply nf_updc
  | |- nf (if ?b then _ else _) _ => destruct b eqn:?
  | |- nf (set_state _) _ => apply nf_modc
  | |- nfr (rbind _ _) => apply nfr_bind; [|intros]
  | |- nfr (Ok _) => apply nfr_ok
  | |- nfr (Bad _) => apply nfr_bad
  | |- nfr (pmemcpy _ _ _) => apply nfr_memcpy
  | |- nfr (pmemset0 _ _) => apply nfr_memset
  | |- nfr (pmap_first _ _ _) => apply nfr_pmap; intros
  | |- nfr (pget _ _) => apply nf_pget
  | |- nfr (if ?b then _ else _) => destruct b eqn:?
  | |- nfr (copy_if _ _ _) => unfold copy_if
  | |- nfr (zero_if _ _) => unfold zero_if
  | |- nfr (let x := _ in _) => cbv zeta
  end.
Lemma nf_panic E s : nf (panic E) s. Proof. unfold panic. nf_goal. Qed.
Lemma nf_hook E p ev s : nf (hook E p ev) s. Proof. unfold hook. nf_goal. Qed.
Lemma nf_millis E s : nf (millis E) s. Proof. discriminate. Qed.
Lemma nfr_stats t si : nfr (scan_stats t si). Proof. unfold scan_stats, nfr. cbv zeta. destruct (u32 _ =? 0); discriminate. Qed.
Lemma nf_time E s : nf (scan_time E) s.
Proof. unfold scan_time. nf_goal; auto using nf_panic, nf_millis, nfr_stats. Qed.
Lemma nfr_in_hist x : nfr (in_hist x). Proof. unfold in_hist. nf_goal. Qed.
Lemma nfr_out_hist x : nfr (out_hist x). Proof. unfold out_hist. nf_goal. Qed.
Lemma nfr_revert x : nfr (out_revert x). Proof. unfold out_revert. nf_goal. Qed.
Lemma nfr_clear x : nfr (out_clear x). Proof. unfold out_clear. nf_goal. Qed.
Lemma nfr_out_save x : nfr (out_save x). Proof. unfold out_save. nf_goal. Qed.
Lemma nfr_upd_in f c : (forall x, nfr (f x)) -> nfr (upd_in f c). Proof. intros H. unfold upd_in. nf_goal. apply H. Qed.
Lemma nfr_upd_out f c : (forall x, nfr (f x)) -> nfr (upd_out f c). Proof. intros H. unfold upd_out. nf_goal. apply H. Qed.
Lemma nfr_save c : nfr (save_previous c). Proof. unfold save_previous. nf_goal. apply nfr_out_save. Qed.
Lemma nfr_memory c : nfr (revert_memory c). Proof. unfold revert_memory. nf_goal. Qed.
Lemma nfr_registers c : nfr (reset_registers c). Proof. unfold reset_registers. nf_goal. Qed.

Section Nf.
Variables (E : env) (W : event -> loc -> Prop).
Hypothesis CB : callbacks E W.
Lemma act_keeps k ev c : x_io (act E k ev c) = x_io c /\ peek (act E k ev c) LNets = peek c LNets.
Proof.
  pose proof (cb_act _ _ CB k ev c) as H. split; [|apply H; intros K; apply (cb_layout _ _ CB) in K; exact (K I)].
  assert (K : peek (act E k ev c) LIo = peek c LIo) by (apply H; intros K; apply (cb_layout _ _ CB) in K; exact (K I)). simpl in K. congruence.
Qed.
Lemma nf_read f n s : (io_rq (x_io (s_ctx s)) <= n + f)%nat -> nf (read_loop E f n) s.
Proof.
  revert n s. induction f as [|f IH]; intros n s L; cbn [read_loop]; apply nf_bind; auto using nf_getc; intros c s1 H; unfold getc in H; injection H as <- <-.
  - destruct (Nat.ltb_spec n (io_rq (x_io (s_ctx s)))); [lia|]. apply nf_ret.
  - destruct (n <? _)%nat; nf_goal; auto using nf_pget, nf_panic. apply IH. unfold emit in H0. injection H0 as <- <-. cbn [s_ctx].
    unfold lift in H. destruct (pget _ _); try discriminate. injection H as _ <-. rewrite (proj1 (act_keeps _ _ _)). lia.
Qed.
Lemma nf_write f n s : (io_wq (x_io (s_ctx s)) <= n + f)%nat -> nf (write_loop E f n) s.
Proof.
  revert n s. induction f as [|f IH]; intros n s L; cbn [write_loop]; apply nf_bind; auto using nf_getc; intros c s1 H; unfold getc in H; injection H as <- <-.
  - destruct (Nat.ltb_spec n (io_wq (x_io (s_ctx s)))); [lia|]. apply nf_ret.
  - destruct (n <? _)%nat; nf_goal; auto using nf_pget, nf_panic. apply IH. unfold emit in H0. injection H0 as <- <-. cbn [s_ctx].
    unfold lift in H. destruct (pget _ _); try discriminate. injection H as _ <-. rewrite (proj1 (act_keeps _ _ _)). lia.
Qed.
Lemma nf_reads s : nf (read_inputs E) s.
Proof. unfold read_inputs. apply nf_bind; auto using nf_getc. intros c s1 H. unfold getc in H. injection H as <- <-. nf_goal. apply nf_read. lia. Qed.
Lemma nf_writes s : nf (write_outputs E) s.
Proof. unfold write_outputs. apply nf_bind; auto using nf_getc. intros c s1 H. unfold getc in H. injection H as <- <-. nf_goal. apply nf_write. lia. Qed.
Lemma nf_normal s : nf (normal_path E) s.
Proof. unfold normal_path, padding. nf_goal; auto using nf_writes, nf_time, nf_hook, nfr_save. Qed.
Lemma nf_fault s : nf (fault_path E) s.
Proof.
  unfold fault_path. nf_goal; auto using nf_writes, nf_time, nf_hook, nfr_save, nfr_memory, nfr_registers.
  - apply nfr_upd_out, nfr_revert.
  - apply nfr_upd_out, nfr_clear.
Qed.

(** The number of networks allocated stays the same. *)
Definition kp {A} (m : M A) : Prop := forall s a s', m s = Ok (a, s') -> peek (s_ctx s') LNets = peek (s_ctx s) LNets.
Lemma kp_bind {A B} (m : M A) (k : A -> M B) : kp m -> (forall a, kp (k a)) -> kp (bind m k).
Proof. intros H1 H2 s b s' H. apply bind_inv in H as (a & s1 & K1 & K2). rewrite (H2 a _ _ _ K2). eauto. Qed.
Lemma kp_ret {A} (a : A) : kp (ret a). Proof. intros s b s' H. unfold ret in H. injection H as _ <-. auto. Qed.
Lemma kp_getc : kp getc. Proof. intros s b s' H. unfold getc in H. injection H as _ <-. auto. Qed.
Lemma kp_lift {A} (r : res A) : kp (lift r). Proof. intros s b s' H. unfold lift in H. destruct r; try discriminate. injection H as _ <-. auto. Qed.
Lemma kp_modc f : (forall c, peek (f c) LNets = peek c LNets) -> kp (modc f). Proof. intros F s b s' H. unfold modc in H. injection H as _ <-. apply F. Qed.
Lemma kp_updc f : (forall c c', f c = Ok c' -> peek c' LNets = peek c LNets) -> kp (updc f).
Proof. intros F s b s' H. unfold updc in H. destruct (f (s_ctx s)) eqn:K; try discriminate. injection H as _ <-. now apply F. Qed.
Lemma kp_emit ev : kp (emit E ev). Proof. intros s b s' H. unfold emit in H. injection H as _ <-. apply act_keeps. Qed.
Lemma kp_read f n : kp (read_loop E f n).
Proof.
  revert n. induction f as [|f IH]; intros n; cbn [read_loop]; (apply kp_bind; [apply kp_getc|intros c]); destruct (_ <? _)%nat; try apply kp_ret.
  - intros s b s' H. discriminate.
  - apply kp_bind; [apply kp_lift|intros []]; apply kp_bind; intros; auto using kp_emit. { apply kp_modc. auto. }
    unfold panic. apply kp_bind; [apply kp_getc|intros]. destruct (h_panic _); auto using kp_emit, kp_ret.
Qed.
Lemma upd_in_nets f c c' : upd_in f c = Ok c' -> peek c' LNets = peek c LNets.
Proof. unfold upd_in. destruct (is_null _); intros H; [congruence|]. destruct (pmap_first _ _ _); try discriminate. simpl in H. injection H as <-. reflexivity. Qed.
Lemma upd_out_nets f c c' : upd_out f c = Ok c' -> peek c' LNets = peek c LNets.
Proof. unfold upd_out. destruct (is_null _); intros H; [congruence|]. destruct (pmap_first _ _ _); try discriminate. simpl in H. injection H as <-. reflexivity. Qed.
Lemma kp_panic : kp (panic E).
Proof. unfold panic. apply kp_bind; [apply kp_getc|intros]. destruct (h_panic _); auto using kp_emit, kp_ret. Qed.
Lemma kp_guard n b : kp (null_guard E n b).
Proof. unfold null_guard. destruct (_ && _); auto using kp_ret. apply kp_bind; [apply kp_modc; reflexivity|intros]. apply kp_bind; [apply kp_panic|intros; apply kp_ret]. Qed.
Lemma nf_guard n b s : nf (null_guard E n b) s. Proof. unfold null_guard. nf_goal. apply nf_panic. Qed.

Lemma nf_cycle s : (forall k, peek (s_ctx s) LNets = Some (VN k) -> Z.of_nat k <= 2 ^ 32) -> nf (cycle E) s.
Proof.
  intros B. unfold cycle. apply nf_bind; auto using nf_getc. intros c s0 H. unfold getc in H. injection H as <- <-.
  apply nf_bind. { nf_goal; auto using nf_millis, nf_panic. }
  intros [] s1 H1. assert (B1 : peek (s_ctx s1) LNets = peek (s_ctx s) LNets).
  { refine ((fun K : kp _ => K _ _ _ H1) _). destruct (h_millis _).
    - apply kp_bind; [|intros; apply kp_modc; reflexivity]. unfold millis. intros z a z' H. unfold bind, emit, ret in H. injection H as _ <-. apply act_keeps.
    - apply kp_bind; [apply kp_modc; reflexivity|intros]. apply kp_bind; [apply kp_modc; reflexivity|intros; apply kp_panic]. }
  apply nf_bind; [apply nf_hook|]. intros [] s2 H2. assert (B2 : peek (s_ctx s2) LNets = peek (s_ctx s) LNets).
  { rewrite <- B1. refine ((fun K : kp _ => K _ _ _ H2) _). unfold hook. apply kp_bind; [apply kp_getc|intros ?]. destruct (h_before _); auto using kp_emit, kp_ret. }
  apply nf_bind; [apply nf_getc|]. intros c1 s3 H3. unfold getc in H3. injection H3 as <- <-.
  apply nf_bind; [apply nf_guard|]. intros g s4 H4. assert (B4 : peek (s_ctx s4) LNets = peek (s_ctx s) LNets) by (rewrite <- B2; revert H4; apply kp_guard).
  destruct g; [apply nf_ret|]. apply nf_bind; [apply nf_updc, nfr_upd_in, nfr_in_hist|]. intros [] s5 H5.
  assert (B5 : peek (s_ctx s5) LNets = peek (s_ctx s) LNets) by (rewrite <- B4; revert H5; apply kp_updc, upd_in_nets).
  apply nf_bind; [apply nf_reads|]. intros [] s6 H6.
  assert (B6 : peek (s_ctx s6) LNets = peek (s_ctx s) LNets).
  { rewrite <- B5. refine ((fun K : kp _ => K _ _ _ H6) _). unfold read_inputs. apply kp_bind; [apply kp_getc|intros cx]. destruct (is_null (io_rd (x_io cx))); [apply kp_ret|apply kp_read]. }
  apply nf_bind; [apply nf_getc|]. intros c2 s7 H7. unfold getc in H7. injection H7 as <- <-.
  apply nf_bind; [apply nf_guard|]. intros g2 s8 H8. assert (B8 : peek (s_ctx s8) LNets = peek (s_ctx s) LNets) by (rewrite <- B6; revert H8; apply kp_guard).
  destruct g2; [apply nf_ret|]. apply nf_bind; [apply nf_updc, nfr_upd_out, nfr_out_hist|]. intros [] s9 H9.
  assert (B9 : peek (s_ctx s9) LNets = peek (s_ctx s) LNets) by (rewrite <- B8; revert H9; apply kp_updc, upd_out_nets).
  apply nf_bind.
  { unfold nf. apply (wp_fuel _ _ _ _ (scan_frame E (during_scan W) s9 (cb_env E W CB) (cb_during E W CB) ltac:(rewrite B9; exact B))). }
  intros [] s10 _. apply nf_bind; [apply nf_getc|]. intros c3 s11 H11. unfold getc in H11. injection H11 as <- <-.
  destruct (lstate_eqb _ _); nf_goal; auto using nf_fault, nf_normal.
Qed.
Lemma nf_wait n s : nf (wait E n) s.
Proof. revert s. induction n as [|n IH]; intros s; cbn [wait]; (apply nf_bind; [apply nf_getc|intros c s1 _]); [apply nf_ret|]. unfold wait_delay. nf_goal; auto using nf_panic. Qed.
Hypothesis TA : tame W.
Lemma nf_loop k s m : task_ready (s_ctx s) -> scan_ready E (during_scan W) (s_ctx s) m -> nf (task_loop E k) s.
Proof.
  revert s. induction k as [|k IH]; intros s TR SR; cbn [task_loop]; (apply nf_bind; [apply nf_getc|intros c s1 H; unfold getc in H; injection H as <- <-]);
    destruct (lstate_eqb (x_state (s_ctx s)) S_EXIT_TSK) eqn:X; try apply nf_ret.
  apply nf_bind; [apply nf_wait|]. intros w s1 H1. destruct (wait_split E W CB max_wait_cycles s w s1 (ready_delay _ TR) H1) as (j & J1 & J2 & J3).
  destruct (waits_ready E W CB TA _ _ _ _ TR SR J2) as (T1 & S1 & _).
  destruct w as [[]|]; [| |apply nf_ret].
  - unfold wait_timeout. apply nf_bind. { nf_goal. apply nf_panic. } intros [] s2 H2. apply nf_bind; [apply nf_getc|]. intros c s3 H3. unfold getc in H3. injection H3 as <- <-.
    apply bind_inv in H2 as ([] & s5 & _ & H2). apply bind_inv in H2 as ([] & s6 & _ & H2). apply set_state_split in H2 as (_ & _ & H2).
    pose proof H2 as H2'. simpl in H2'. injection H2' as H2'. rewrite H2'. simpl. unfold nf. rewrite loop_exit by auto. discriminate.
  - apply nf_bind; [apply nf_ret|]. intros [] s2 H2. unfold wait_timeout, ret in H2. injection H2 as <-. apply nf_bind; [apply nf_getc|]. intros c s3 H3. unfold getc in H3. injection H3 as <- <-.
    destruct J3 as [_ J4]. pose proof J4 as J4'. simpl in J4'. injection J4' as J4'. rewrite J4'. change (lstate_eqb S_RUNNING S_RUNNING) with true. cbv iota.
    apply nf_bind; [apply nf_cycle, (tr_nets _ T1)|]. intros n s4 H4. destruct n; [|apply nf_ret]. destruct (cycle_keeps E W CB TA _ _ _ T1 S1 H4) as (T2 & S2 & _). eauto.
Qed.
End Nf.

(** ** Calls of the main loop *)

Section Em.
Variables (P : event -> Prop) (E : env).
Hypothesis HP : forall ev, ev <> EvEnd -> P ev.
Let PH ev : ev <> EvEnd -> emits P (emit E ev). Proof. intros H. apply em_emit. auto. Qed.
Lemma em_hook p ev : ev <> EvEnd -> emits P (hook E p ev). Proof. intros H. unfold hook. em. Qed.
Let PP : emits P (panic E). Proof. unfold panic. em. apply HP. discriminate. Qed.
Lemma em_read f n : emits P (read_loop E f n).
Proof. revert n. induction f as [|f IH]; intros n; simpl; unfold set_state; repeat first [progress em | apply PP | apply IH]. apply HP. discriminate. Qed.
Lemma em_write f n : emits P (write_loop E f n).
Proof. revert n. induction f as [|f IH]; intros n; simpl; unfold set_state; repeat first [progress em | apply PP | apply IH]. apply HP. discriminate. Qed.
Lemma em_time_stats : emits P (scan_time E).
Proof. unfold scan_time, set_state. repeat first [progress em | apply PP]. apply HP. discriminate. Qed.
Lemma em_cycle : emits P (cycle E).
Proof.
  assert (S : emits P (ladder_scan E)) by (apply em_scan; intros ev K; apply HP; destruct ev; simpl in K; congruence).
  unfold cycle, null_guard, read_inputs, fault_path, normal_path, write_outputs, padding, set_state.
  repeat first [progress em | apply PP | apply S | apply em_read | apply em_write | apply em_time_stats | apply em_hook; discriminate]; apply HP; discriminate.
Qed.
Lemma em_wait n : emits P (wait E n).
Proof. induction n as [|n IH]; cbn [wait]; unfold wait_delay, set_state; repeat first [progress em | apply PP | apply IH]. apply HP. discriminate. Qed.
Lemma em_loop k : emits P (task_loop E k).
Proof.
  induction k as [|k IH]; cbn [task_loop]; unfold wait_timeout, set_state; repeat first [progress em | apply PP | apply IH | apply em_wait | apply em_cycle].
Qed.
End Em.

(** ** C30 *)

(** C30: every run of the main loop is a number of cycles without fault, each begun in state RUNNING after fewer than 1000 delays,
    followed by an end: a stop request, a faulting cycle, a stop request seen while waiting, or a timeout. Between cycles
    nothing is called but delays and, on timeout, panic. *)
Lemma C30_runs_l : forall E W m k s r s', cycle_ready E W (s_ctx s) m -> task_loop E k s = Ok (r, s') ->
  exists j s1, (j <= k)%nat /\ goes E W j s s1 /\ ((r = Running /\ j = k /\ s1 = s') \/ ends E W s1 r s').
Proof. intros E W m k s r s' [CB TA TR SR] H. now apply (loop_shape E W CB TA k s m r s'). Qed.
(** C30: waiting changes nothing but what the delay function itself changes; registers, outputs and histories in particular stay. *)
Lemma C30_waiting_l : forall E W m k s s', cycle_ready E W (s_ctx s) m -> waits W k s s' ->
  calls s s' (repeat (EvDelay (q_delay (x_q (s_ctx s)))) k) /\ changes_only (s_ctx s) (s_ctx s') (W (EvDelay (q_delay (x_q (s_ctx s)))))
  /\ same_program (s_ctx s) (s_ctx s') /\ forall l, past l <> None \/ is_past l \/ l = LStats -> peek (s_ctx s') l = peek (s_ctx s) l.
Proof. intros E W m k s s' [CB TA TR SR] H. destruct (waits_keep E W CB TA k s s' H) as (A & B & C & D). auto. Qed.
Lemma delayed_conf E W k s : callbacks E W -> x_q (s_ctx (delayed E k s)) = x_q (s_ctx s) /\ x_h (s_ctx (delayed E k s)) = x_h (s_ctx s).
Proof.
  intros CB. induction k as [|k (IH1 & IH2)]; [auto|]. cbn [delayed]. cbv zeta. cbn [s_ctx].
  set (ev := EvDelay _). pose proof (cb_act _ _ CB (length (s_tr (delayed E k s))) ev (s_ctx (delayed E k s))) as H.
  assert (N : forall l, is_layout l -> ~ W ev l) by (intros l L K; exact (cb_layout _ _ CB _ _ K L)).
  pose proof (H LQty (N LQty I)) as A. pose proof (H LHooks (N LHooks I)) as B. simpl in A, B. injection A as ->. injection B as ->. auto.
Qed.
Lemma rev_repeat' {A} (x : A) k : rev (repeat x k) = repeat x k.
Proof. induction k as [|k IH]; auto. cbn [repeat rev]. rewrite IH. symmetry. apply repeat_cons. Qed.
Lemma delayed_tr E W k s : callbacks E W -> calls s (delayed E k s) (repeat (EvDelay (q_delay (x_q (s_ctx s)))) k).
Proof.
  intros CB. induction k as [|k IH]; [reflexivity|]. unfold calls in *. cbn [delayed]. cbv zeta. cbn [s_tr]. rewrite (proj1 (delayed_conf E W k s CB)), IH.
  rewrite !rev_repeat'. reflexivity.
Qed.
Lemma wait_delayed E W n k s : callbacks E W -> h_delay (x_h (s_ctx s)) = true -> (k <= n)%nat -> (forall j, (j < k)%nat -> idle (s_ctx (delayed E j s))) ->
  wait E n s = wait E (n - k) (delayed E k s).
Proof.
  intros CB HD L ID. induction k as [|k IH]; [now rewrite Nat.sub_0_r|]. rewrite IH by (try lia; intros; apply ID; lia).
  replace (n - k)%nat with (S (n - S k)) by lia. specialize (ID k ltac:(lia)). apply in_states in ID as [A B].
  cbn [wait]. unfold bind at 1, getc at 1. rewrite A, B. unfold bind at 1, wait_delay at 1. unfold bind at 1, getc at 1. rewrite (proj2 (delayed_conf E W k s CB)), HD. reflexivity.
Qed.
Lemma loop_wakes E W k i s : callbacks E W -> h_delay (x_h (s_ctx s)) = true -> (0 < i < 1000)%nat -> (forall j, (j < i)%nat -> idle (s_ctx (delayed E j s))) ->
  forall u, peek (s_ctx (delayed E i s)) LState = Some (VState u) ->
  (u = S_RUNNING -> task_loop E (S k) s = task_loop E (S k) (delayed E i s)) /\ (u = S_EXIT_TSK -> task_loop E (S k) s = Ok (Returned, delayed E i s)).
Proof.
  intros CB HD L ID u ST. pose proof (ID 0%nat ltac:(lia)) as I0. apply in_states in I0 as [A B]. cbn [delayed] in A, B.
  assert (WT := wait_delayed E W max_wait_cycles i s CB HD ltac:(unfold max_wait_cycles; lia) ID).
  assert (exists n, (max_wait_cycles - i)%nat = S n) as (n & N) by (exists (max_wait_cycles - S i)%nat; unfold max_wait_cycles; lia). rewrite N in WT.
  pose proof ST as ST'. simpl in ST'. injection ST' as ST'. cbn [wait] in WT. unfold bind at 1, getc at 1 in WT. rewrite ST' in WT. split; intros ->.
  - rewrite (loop_running E k (delayed E i s) ST). cbn [task_loop]. unfold bind at 1, getc at 1. rewrite B. unfold bind at 1. rewrite WT. cbn [lstate_eqb]. unfold ret at 1.
    unfold wait_timeout. unfold bind at 1, ret at 1. unfold bind at 1, getc at 1. rewrite ST'. reflexivity.
  - cbn [task_loop]. unfold bind at 1, getc at 1. rewrite B. unfold bind at 1. rewrite WT. reflexivity.
Qed.
(** C30: a task that waits goes on as soon as the state is RUNNING, with a cycle; *)
Lemma C30_wakes_l : forall E W m k i s, cycle_ready E W (s_ctx s) m -> (0 < i < 1000)%nat -> (forall j, (j < i)%nat -> idle (s_ctx (delayed E j s))) ->
  peek (s_ctx (delayed E i s)) LState = Some (VState S_RUNNING) -> task_loop E (S k) s = task_loop E (S k) (delayed E i s).
Proof. intros E W m k i s [CB TA TR SR] L ID ST. destruct (loop_wakes E W k i s CB (ready_delay _ TR) L ID _ ST) as [A _]. auto. Qed.
Lemma loop_timeout E W k s N : callbacks E W -> h_delay (x_h (s_ctx s)) = true -> max_wait_cycles = N -> (0 < N)%nat -> (forall j, (j < N)%nat -> idle (s_ctx (delayed E j s))) ->
  exists s', task_loop E (S k) s = Ok (Ended, s') /\ peek (s_ctx s') LState = Some (VState S_EXIT_TSK)
    /\ calls s s' (repeat (EvDelay (q_delay (x_q (s_ctx s)))) N ++ optional (h_panic (x_h (s_ctx s))) EvPanic).
Proof.
  intros CB HD MW N0 ID. pose proof (ID 0%nat N0) as I0. apply in_states in I0 as [A B]. cbn [delayed] in A, B.
  assert (WT := wait_delayed E W N N s CB HD (le_n _) ID). rewrite Nat.sub_diag in WT. cbn [wait] in WT. unfold bind at 1, getc at 1 in WT.
  set (s1 := delayed E N s) in *.
  assert (exists s2, panic E (mk_st (set_x_state S_ERROR (s_ctx s1)) (s_tr s1)) = Ok (tt, s2)) as (s2 & P).
  { unfold panic, bind, getc. cbn [s_ctx]. destruct (h_panic _); eexists; reflexivity. }
  destruct (panic_split E W CB _ _ P) as [P1 P2]. cbn [s_ctx] in P1. change (x_h (set_x_state S_ERROR (s_ctx s1))) with (x_h (s_ctx s1)) in P1.
  replace (x_h (s_ctx s1)) with (x_h (s_ctx s)) in P1 by (symmetry; apply (delayed_conf E W N s CB)).
  exists (mk_st (set_x_state S_EXIT_TSK (s_ctx s2)) (s_tr s2)). split; [|split; [reflexivity|]].
  - cbn [task_loop]. unfold bind at 1, getc at 1. rewrite B. unfold bind at 1. rewrite MW, WT. unfold ret at 1. unfold wait_timeout.
    unfold bind at 1. unfold bind at 1. unfold set_state at 1, modc at 1. unfold bind at 1. rewrite P. unfold set_state at 1, modc at 1.
    unfold bind at 1, getc at 1. cbn [s_ctx]. change (x_state (set_x_state S_EXIT_TSK (s_ctx s2))) with S_EXIT_TSK. change (lstate_eqb S_EXIT_TSK S_RUNNING) with false. cbv iota. apply loop_exit. reflexivity.
  - eapply calls_trans; [apply (delayed_tr E W N s CB)|]. exact P1.
Qed.
(** C30: and if it does not come within 1000 delays the task reports panic and ends. *)
Lemma C30_timeout_l : forall E W m k s, cycle_ready E W (s_ctx s) m -> (forall j, (j < 1000)%nat -> idle (s_ctx (delayed E j s))) ->
  exists s', task_loop E (S k) s = Ok (Ended, s') /\ peek (s_ctx s') LState = Some (VState S_EXIT_TSK)
    /\ calls s s' (repeat (EvDelay (q_delay (x_q (s_ctx s)))) 1000 ++ optional (h_panic (x_h (s_ctx s))) EvPanic).
Proof.
  intros E W m k s [CB TA TR SR] ID. apply (loop_timeout E W k s 1000); auto using ready_delay. lia.
Qed.
(** C30: a stop request that is there at the end of a cycle ends the task at once. *)
Lemma C30_stop_l : forall E k s s1, peek (s_ctx s) LState = Some (VState S_RUNNING) -> cycle E s = Ok (T_continue, s1) -> peek (s_ctx s1) LState = Some (VState S_EXIT_TSK) ->
  task_loop E (S k) s = Ok (Ended, s1).
Proof. intros E k s s1 RU CY X. rewrite loop_running by auto. unfold bind. rewrite CY. now apply loop_exit. Qed.
(** C30: a stop request made before the scan of a cycle ends the task after that cycle, if neither watchdog fires and no
    other code withdraws it. *)
Lemma C30_request_l : forall E W m k s s', cycle_ready E W (s_ctx s) m -> peek (s_ctx s) LState = Some (VState S_RUNNING) -> cycle E s = Ok (T_continue, s') ->
  exists a b t0 t1 late pad, begins W s a t0 /\ scans E a b /\ closes W b s' t1 late pad /\
    (peek (s_ctx a) LState = Some (VState S_EXIT_TSK) -> (forall n, (n < q_nets (x_q (s_ctx s)))%nat -> cost (s_ctx s) n <= m) -> late = false ->
     (forall ev, match ev with EvBefore | EvRead _ => True | _ => ~ W ev LState end) -> task_loop E (S k) s = Ok (Ended, s')).
Proof.
  intros E W m k s s' [CB TA TR SR] RU H. destruct (cycle_ok E W CB TA s m TR SR s' H) as (a & b & t0 & t1 & si & si1 & si2 & P).
  eexists a, b, t0, t1, _, _. split; [apply P|]. split; [apply P|]. split; [apply P|]. intros XA CO LT NW. apply C30_stop_l; auto.
  destruct (cp_same _ _ _ _ _ _ _ _ _ _ _ _ P) as (SA & _). destruct (same_q _ _ SA) as (QQ & _).
  assert (SB : peek (s_ctx b) LState = Some (VState S_EXIT_TSK)).
  { destruct (scan_ends E _ a b m (cp_ready _ _ _ _ _ _ _ _ _ _ _ _ P) (cp_scans _ _ _ _ _ _ _ _ _ _ _ _ P)) as (s0 & _ & [[[_ K] _]|[(n & r & col & e & b4 & af & u1 & u2 & _ & _ & _ & _ & _ & _ & _ & K & _)|(n & K1 & K2 & _)]]).
    - congruence.
    - now apply (cp_not_inv _ _ _ _ _ _ _ _ _ _ _ _ P) in K.
    - rewrite QQ in K1. rewrite (same_cost _ _ n SA) in K2. specialize (CO n K1). lia. }
  rewrite <- SB. destruct (cp_closes _ _ _ _ _ _ _ _ _ _ _ _ P) as (ws & _ & _ & CH). apply CH.
  intros [K|[K|[[_ K]|[K|[K|[K|[(d & K)|(x & q & qw & _ & K)]]]]]]]; [discriminate| |congruence|exact (NW (EvMillis t1) K)|exact (NW EvPanic K)|exact (NW EvAfter K)|exact (NW (EvDelay d) K)|exact (NW (EvWrite x q qw) K)].
  destruct K as (l & K). destruct l; simpl in K; repeat match type of K with match ?x with _ => _ end = _ => destruct x end; discriminate.
Qed.
(** C30: no call of the library during a run lasts for ever, whatever the program does: the model's fuel is never used up, only
    the number of iterations [k] asked for. *)
Lemma C30_no_hang_l : forall E W m k s, cycle_ready E W (s_ctx s) m -> task_loop E k s <> NoFuel.
Proof. intros E W m k s [CB TA TR SR]. exact (nf_loop E W CB TA k s m TR SR). Qed.
(** C30 is violated when the scan-time watchdog fires in the cycle in which the request is made: the state ERROR replaces the
    request and the task does not end. Here the hook before the cycle requests the stop, and nobody else sets the state. *)
Lemma C30_request_refuted_l : exists E W m s s', cycle_ready E W (s_ctx s) m /\ peek (s_ctx s) LState = Some (VState S_RUNNING)
  /\ h_before (x_h (s_ctx s)) = true /\ (forall k c, peek (act E k EvBefore c) LState = Some (VState S_EXIT_TSK)) /\ (forall ev, ev <> EvBefore -> ~ W ev LState)
  /\ task_loop E 1 s = Ok (Running, s') /\ peek (s_ctx s') LState = Some (VState S_ERROR).
Proof.
  set (c := let c := demo_task [[cellv I_COIL [V R_M 1]]] in set_x_q (set_q_wdg 1 (x_q c)) c).
  exists (stop_env (fun k => 5 * Z.of_nat k)), stop_w, 1000, (start c). eexists. split; [apply stop_ready; vm_compute; reflexivity|].
  split; [reflexivity|]. split; [reflexivity|]. split; [reflexivity|]. split; [intros ev N K; destruct ev; simpl in K; congruence|]. split; vm_compute; reflexivity.
Qed.
(*EX
(* Stopped: after three delays the state is set to RUNNING; the task has then done nothing but wait. *)
Example C30_wakes_case :
  let E := task_env (fun k => 5 * Z.of_nat k) (fun _ _ => 0) (fun k => if (k =? 2)%nat then Some S_RUNNING else None) in
  let c := set_x_state S_STOPPED (demo_task [[cellv I_COIL [V R_M 1]]]) in
  cycle_ready E task_w c 1000 /\ (forall j, (j < 3)%nat -> idle (s_ctx (delayed E j (start c))))
  /\ peek (s_ctx (delayed E 3 (start c))) LState = Some (VState S_RUNNING)
  /\ exists s', task_loop E 1 (start c) = Ok (Running, s') /\ rev (s_tr s') = repeat (EvDelay (q_delay (x_q c))) 3 ++
       [EvMillis 15; EvBefore; EvRead 0; EvInstr; EvScanEnd; EvWrite 0 (Some [0; 1]) (Some [0; 0]); EvMillis 45; EvAfter].
Proof.
  cbv zeta. split; [decide_cycle|]. split.
  { intros j L. apply in_states. do 3 (destruct j as [|j]; [split; vm_compute; reflexivity|]). lia. }
  split; [vm_compute; reflexivity|]. eexists. split; vm_compute; reflexivity.
Qed.
(* Nobody sets the state: 1000 delays, panic, end. *)
Example C30_timeout_case :
  let E := task_env (fun k => 5 * Z.of_nat k) (fun _ _ => 0) (fun _ => None) in
  let c := set_x_state S_STOPPED (demo_task [[cellv I_COIL [V R_M 1]]]) in
  cycle_ready E task_w c 1000 /\ (forall j, idle (s_ctx (delayed E j (start c)))).
Proof.
  intros E c. split; [unfold E, c; decide_cycle|]. intros j. assert (K : s_ctx (delayed E j (start c)) = c).
  { induction j as [|j IH]; [reflexivity|]. cbn [delayed]. cbv zeta. cbn [s_ctx]. exact IH. }
  rewrite K. apply in_states. split; vm_compute; reflexivity.
Qed.
(* A stop request in the hook before the cycle: the cycle is finished, then the task ends. *)
Example C30_request_case :
  let E := stop_env (fun k => 5 * Z.of_nat k) in let c := demo_task [[cellv I_COIL [V R_M 1]]] in
  cycle_ready E stop_w c 1000 /\ exists s', task_loop E 5 (start c) = Ok (Ended, s') /\ cycle E (start c) = Ok (T_continue, s').
Proof. cbv zeta. split; [apply stop_ready; vm_compute; reflexivity|]. eexists. split; vm_compute; reflexivity. Qed.
EX*)

(** ** C31 *)

Lemma ends_same E W m s r s' : callbacks E W -> tame W -> task_ready (s_ctx s) -> scan_ready E (during_scan W) (s_ctx s) m -> ends E W s r s' -> same_program (s_ctx s) (s_ctx s').
Proof.
  intros CB TA TR SR H. destruct H as [_|j s1 s' WT J RU CY|j s' WT _ _|s1 s' WT _ CH _].
  - apply same_refl.
  - destruct (waits_ready E W CB TA _ _ _ _ TR SR WT) as (T1 & S1 & P1 & _). eapply same_trans; [exact P1|].
    destruct (cycle_fault E W CB TA s1 m T1 S1 s' CY) as (a & b & sf & t0 & t1 & late & ws & P). apply (fp_same _ _ _ _ _ _ _ _ _ _ _ _ P).
  - apply (waits_keep E W CB TA _ _ _ WT).
  - eapply same_trans; [apply (waits_keep E W CB TA _ _ _ WT)|]. eapply same_changes; [exact CH|]. intros l [->|K]; [simpl; auto|]. now apply (cb_layout _ _ CB) in K.
Qed.
(** C31: when the task function ends at its end (label exit), it called end_task (if there is one) once, as the last call. *)
Lemma C31_ended_l : forall E W m k s s', cycle_ready E W (s_ctx s) m -> ladder_task E k s = Ok (Ended, s') ->
  exists l, calls s s' (l ++ optional (h_end (x_h (s_ctx s))) EvEnd) /\ ~ In EvEnd l.
Proof.
  intros E W m k s s' [CB TA TR SR] H. unfold ladder_task in H. apply bind_inv in H as (c & s0 & H0 & H). unfold getc in H0. injection H0 as <- <-.
  apply bind_inv in H as (g & s0 & H0 & H). unfold lift in H0. destruct (task_guard (s_ctx s)) as [g0| |]; try discriminate. injection H0 as -> <-.
  destruct g; [discriminate|]. apply bind_inv in H as (r & s1 & H1 & H).
  destruct (em_loop (fun ev => ev <> EvEnd) E (fun ev K => K) k s r s1 H1) as (l & T & F).
  destruct r; try discriminate. apply bind_inv in H as ([] & s2 & H2 & H). unfold ret in H. injection H as <-.
  assert (SP : same_program (s_ctx s) (s_ctx s1)).
  { destruct (loop_shape E W CB TA k s m Ended s1 TR SR H1) as (j & s3 & _ & G & [(K & _)|EN]); [discriminate|].
    destruct (goes_keeps E W CB TA _ _ _ _ TR SR G) as (T3 & S3 & P3 & _). eapply same_trans; [exact P3|]. eapply ends_same; eauto. }
  destruct (same_q _ _ SP) as (_ & _ & QH & _). apply (hook_split E W CB) in H2 as [H2 _]. rewrite QH in H2.
  exists (rev l). split.
  - eapply calls_trans; [|exact H2]. unfold calls. now rewrite rev_involutive.
  - intros K. apply in_rev in K. rewrite Forall_forall in F. now apply F in K.
Qed.
Lemma io_null_ok {A} n fns (mods : option (list A)) : filled n fns -> ((0 < n)%nat -> size mods <> None) -> io_null n fns mods = Ok false.
Proof.
  intros F M. destruct n as [|n]; [reflexivity|]. simpl. pose proof (F 0%nat ltac:(lia)) as K. destruct fns as [[|b l]|]; try discriminate. simpl in K. injection K as ->.
  destruct mods; [reflexivity|]. exfalso. apply M; [lia|reflexivity].
Qed.
Lemma banks_false n l : banks_null n l = false <-> (n = 0%nat \/ forall b, In b l -> b = false).
Proof.
  unfold banks_null. destruct n; simpl; [tauto|]. rewrite <- not_true_iff_false, existsb_exists. split.
  - intros H. right. intros [|] K; [|reflexivity]. contradict H. eauto.
  - intros [?|H] ([|] & K & ?); try discriminate. now apply H in K.
Qed.
Lemma guard_is c : registered c -> h_millis (x_h c) = true -> h_delay (x_h c) = true -> task_guard c = Ok
  (let q := x_q c in let m := x_mem c in let p := x_prev c in let r := x_regs c in
   banks_null (q_m q) [is_null (m_M m); is_null (p_M p)]
      || banks_null (q_c q) [is_null (m_Cd m); is_null (m_Cr m); is_null (p_Cd p); is_null (p_Cr p); is_null (r_C r)]
      || banks_null (q_t q) [is_null (m_Td m); is_null (m_Tr m); is_null (p_Td p); is_null (p_Tr p); is_null (x_tm c)]
      || banks_null (q_d q) [is_null (r_D r)] || banks_null (q_r q) [is_null (r_R r)]
      || banks_null (q_nets q) [is_null (x_net c)]).
Proof.
  intros (io & A & B & D & F & G) H K. simpl in A. injection A as <-. unfold task_guard. rewrite H, K. cbn [negb orb].
  rewrite (io_null_ok _ _ _ B) by (intros L; specialize (F L); simpl in F; exact F). simpl rbind.
  rewrite (io_null_ok _ _ _ D) by (intros L; specialize (G L); simpl in G; exact G). reflexivity.
Qed.
Lemma null_size {A} (p : option (list A)) : is_null p = true <-> size p = None.
Proof. destruct p; simpl; split; intros; congruence. Qed.
Lemma nonnull_size {A} (p : option (list A)) k : size p = Some k -> is_null p = false.
Proof. destruct p; simpl; congruence. Qed.
Lemma guard_ready c : task_ready c -> wf_program c -> task_guard c = Ok false.
Proof.
  intros [(h & A & B & D) (SB & kt & ST & _) _ _ RG _] [N _]. simpl in A. injection A as <-. rewrite guard_is; auto. cbv zeta.
  assert (NB : forall b, is_null (bank_arr b c) = false) by (intros b; destruct (SB b) as (k & K & _); now apply nonnull_size in K).
  pose proof (NB B_M) as M1. pose proof (NB B_Mh) as M2. pose proof (NB B_Cd) as C1. pose proof (NB B_Cr) as C2. pose proof (NB B_Cdh) as C3. pose proof (NB B_Crh) as C4. pose proof (NB B_C) as C5.
  pose proof (NB B_Td) as T1. pose proof (NB B_Tr) as T2. pose proof (NB B_Tdh) as T3. pose proof (NB B_Trh) as T4. pose proof (NB B_D) as D1. pose proof (NB B_R) as R1.
  pose proof (nonnull_size (x_tm c) _ ST) as T5. assert (X : is_null (x_net c) = false) by (destruct (is_null (x_net c)) eqn:K; auto; apply null_size in K; now contradict N).
  simpl in M1, M2, C1, C2, C3, C4, C5, T1, T2, T3, T4, D1, R1. rewrite M1, M2, C1, C2, C3, C4, C5, T1, T2, T3, T4, T5, D1, R1, X. unfold banks_null. cbn [existsb orb]. now rewrite !andb_false_r.
Qed.
Lemma guard_incomplete c : registered c -> incomplete c -> task_guard c = Ok true.
Proof.
  intros RG K. destruct (h_millis (x_h c)) eqn:H1; [|unfold task_guard; now rewrite H1]. destruct (h_delay (x_h c)) eqn:H2; [|unfold task_guard; now rewrite H1, H2].
  rewrite guard_is by auto. f_equal. cbv zeta. destruct K as [K|[K|K]]; try congruence.
  match goal with |- ?x = true => destruct x eqn:G; [reflexivity|] end. exfalso.
  apply orb_false_iff in G as [G G6]. apply orb_false_iff in G as [G G5]. apply orb_false_iff in G as [G G4]. apply orb_false_iff in G as [G G3]. apply orb_false_iff in G as [G1 G2].
  apply banks_false in G1, G2, G3, G4, G5, G6.
  assert (NN : forall A n l (p : option (list A)), (n = 0%nat \/ forall b, In b l -> b = false) -> (0 < n)%nat -> In (is_null p) l -> size p = None -> False).
  { intros A n l p [->|F] Ln I S; [lia|]. apply null_size in S. apply F in I. congruence. }
  destruct K as [(b & L & P)|[[L P]|[L P]]]; simpl in P.
  - destruct b; simpl in L, P; first [eapply (NN _ _ _ _ G1 L); [|exact P]; simpl; tauto|eapply (NN _ _ _ _ G2 L); [|exact P]; simpl; tauto|eapply (NN _ _ _ _ G3 L); [|exact P]; simpl; tauto|eapply (NN _ _ _ _ G4 L); [|exact P]; simpl; tauto|eapply (NN _ _ _ _ G5 L); [|exact P]; simpl; tauto].
  - eapply (NN _ _ _ _ G3 L); [|exact P]; simpl; tauto.
  - eapply (NN _ _ _ _ G6 L); [|exact P]; simpl; tauto.
Qed.
(** C31, the other way: when the function returns early it does not call end_task. With everything it needs in place, it
    returns early only when a stop request is seen while waiting. *)
Lemma C31_returned_actual_l : forall E W m k s s', cycle_ready E W (s_ctx s) m -> ladder_task E k s = Ok (Returned, s') ->
  exists l, calls s s' l /\ ~ In EvEnd l /\ peek (s_ctx s') LState = Some (VState S_EXIT_TSK)
    /\ exists j i s1, goes E W j s s1 /\ waits W i s1 s' /\ (0 < i < 1000)%nat.
Proof.
  intros E W m k s s' [CB TA TR SR] H. unfold ladder_task in H. apply bind_inv in H as (c & s0 & H0 & H). unfold getc in H0. injection H0 as <- <-.
  apply bind_inv in H as (g & s0 & H0 & H). unfold lift in H0. rewrite (guard_ready _ TR) in H0 by apply SR. injection H0 as <- <-.
  apply bind_inv in H as (r & s1 & H1 & H). destruct (em_loop (fun ev => ev <> EvEnd) E (fun ev K => K) k s r s1 H1) as (l & T & F).
  destruct r; try discriminate. 2:{ apply bind_inv in H as ([] & s2 & H2 & H). discriminate. } unfold ret in H. injection H as <-. exists (rev l). split; [unfold calls; now rewrite rev_involutive|].
  split. { intros K. apply in_rev in K. rewrite Forall_forall in F. now apply F in K. }
  destruct (loop_shape E W CB TA k s m Returned s1 TR SR H1) as (j & s3 & _ & GO & [(K & _)|EN]); [discriminate|]. inversion EN; subst. eauto 10.
Qed.
(** C31: when something the task needs is missing, it reports NULLFN and returns at once: nothing is called. *)
Lemma C31_missing_l : forall E k s, registered (s_ctx s) -> incomplete (s_ctx s) ->
  exists s', ladder_task E k s = Ok (Returned, s') /\ calls s s' [] /\ peek (s_ctx s') LState = Some (VState S_NULLFN) /\ changes_only (s_ctx s) (s_ctx s') (eq LState).
Proof.
  intros E k s RG K. unfold ladder_task. unfold bind, getc, lift. rewrite guard_incomplete by auto. cbn [s_ctx].
  destruct (set_state S_NULLFN s) as [[[] s']| |] eqn:S; try discriminate. apply (set_state_split) in S as (T & C & P). exists s'. unfold ret. unfold calls. auto.
Qed.
(** C31: while the task runs end_task is not called. *)
Lemma C31_running_l : forall E k s s', ladder_task E k s = Ok (Running, s') -> exists l, calls s s' l /\ ~ In EvEnd l.
Proof.
  intros E k s s' H. unfold ladder_task in H. apply bind_inv in H as (c & s0 & H0 & H). unfold getc in H0. injection H0 as <- <-.
  apply bind_inv in H as (g & s0 & H0 & H). unfold lift in H0. destruct (task_guard (s_ctx s)) as [g0| |] eqn:G; try discriminate. injection H0 as -> <-.
  destruct g; [discriminate|]. apply bind_inv in H as (r & s1 & H1 & H). destruct (em_loop (fun ev => ev <> EvEnd) E (fun ev K => K) k s r s1 H1) as (l & T & F).
  destruct r; try discriminate. 2:{ apply bind_inv in H as ([] & s2 & H2 & H). discriminate. } unfold ret in H. injection H as <-. exists (rev l). split; [unfold calls; now rewrite rev_involutive|].
  intros K. apply in_rev in K. rewrite Forall_forall in F. now apply F in K.
Qed.
(** C31 is violated: a stop request made while the task waits ends the task without end_task. *)
Lemma C31_refuted_l : exists E W m s s', cycle_ready E W (s_ctx s) m /\ h_end (x_h (s_ctx s)) = true
  /\ ladder_task E 1 s = Ok (Returned, s') /\ ~ In EvEnd (s_tr s').
Proof.
  exists (task_env (fun k => 5 * Z.of_nat k) (fun _ _ => 0) (fun k => if (k =? 2)%nat then Some S_EXIT_TSK else None)), task_w, 1000, (start (set_x_state S_STOPPED (demo_task [[cellv I_COIL [V R_M 1]]]))).
  eexists. split; [decide_cycle|]. split; [reflexivity|]. split; [vm_compute; reflexivity|]. simpl. intuition discriminate.
Qed.
(*EX
(* A stop request in the hook before the cycle: end_task is the last call, once. *)
Example C31_case :
  let E := stop_env (fun k => 5 * Z.of_nat k) in let c := demo_task [[cellv I_COIL [V R_M 1]]] in
  cycle_ready E stop_w c 1000 /\ exists s', ladder_task E 5 (start c) = Ok (Ended, s')
  /\ rev (s_tr s') = [EvMillis 0; EvBefore; EvRead 0; EvInstr; EvScanEnd; EvWrite 0 (Some [0; 1]) (Some [0; 0]); EvMillis 30; EvAfter; EvEnd].
Proof. cbv zeta. split; [apply stop_ready; vm_compute; reflexivity|]. eexists. split; vm_compute; reflexivity. Qed.
(* No delay function. *)
Example C31_missing_case : let c := demo_task [[cellv I_COIL [V R_M 1]]] in let c := set_x_h (set_h_delay false (x_h c)) c in
  registered c /\ incomplete c.
Proof. split; [|right; left; reflexivity]. eexists. split; [reflexivity|]. split; [intros [|i] L; [reflexivity|simpl in L; lia]|]. split; [intros [|i] L; [reflexivity|simpl in L; lia]|]. split; discriminate. Qed.
EX*)
