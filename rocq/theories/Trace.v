(** Which calls out of the library each part of the model can make. *)
From Verif Require Export SpecTask.

Definition emits (P : event -> Prop) {A} (m : M A) : Prop :=
  forall s a s', m s = Ok (a, s') -> exists l, s_tr s' = l ++ s_tr s /\ Forall P l.

Section Emits.
Variable P : event -> Prop.
Lemma em_ret {A} (a : A) : emits P (ret a).
Proof. intros s b s' H. injection H as <- <-. exists []. auto. Qed.
Lemma em_bad {A} u : emits P (@bad A u). Proof. intros s b s' H. discriminate. Qed.
Lemma em_nofuel {A} : emits P (@nofuel A). Proof. intros s b s' H. discriminate. Qed.
Lemma em_getc : emits P getc.
Proof. intros s b s' H. injection H as <- <-. exists []. auto. Qed.
Lemma em_lift {A} (r : res A) : emits P (lift r).
Proof. intros s b s' H. unfold lift in H. destruct r; try discriminate. injection H as <- <-. exists []. auto. Qed.
Lemma em_modc f : emits P (modc f).
Proof. intros s b s' H. injection H as <- <-. exists []. auto. Qed.
Lemma em_updc f : emits P (updc f).
Proof. intros s b s' H. unfold updc in H. destruct (f (s_ctx s)); try discriminate. injection H as <- <-. exists []. auto. Qed.
Lemma em_bind {A B} (m : M A) (k : A -> M B) : emits P m -> (forall a, emits P (k a)) -> emits P (bind m k).
Proof.
  intros H1 H2 s b s' H. unfold bind in H. destruct (m s) as [[a s1]| |] eqn:E; try discriminate.
  destruct (H1 _ _ _ E) as (l1 & T1 & F1). destruct (H2 _ _ _ _ H) as (l2 & T2 & F2). exists (l2 ++ l1).
  split; [rewrite T2, T1, app_assoc; auto|apply Forall_app; auto].
Qed.
Lemma em_emit E ev : P ev -> emits P (emit E ev).
Proof. intros H s b s' K. injection K as <- <-. exists [ev]. auto. Qed.
Lemma em_millis E : (forall t, P (EvMillis t)) -> emits P (millis E).
Proof. intros H s b s' K. unfold millis, bind, emit, ret in K. injection K as <- <-. exists [EvMillis (u64 (clk E (length (s_tr s))))]. auto. Qed.
Lemma em_foreign E id col row : P (EvForeign id col row) -> emits P (call_foreign E id col row).
Proof. intros H s b s' K. unfold call_foreign in K. destruct (fexec _ _ _ _ _ _). injection K as <- <-. exists [EvForeign id col row]. auto. Qed.
Lemma em_time E : P EvTime -> emits P (localtime E).
Proof. intros H s b s' K. injection K as <- <-. exists [EvTime]. auto. Qed.
Lemma em_mono (Q : event -> Prop) {A} (m : M A) : (forall ev, P ev -> Q ev) -> emits P m -> emits Q m.
Proof. intros H1 H2 s a s' K. destruct (H2 _ _ _ K) as (l & T & F). exists l. split; auto. eapply Forall_impl; eauto. Qed.
End Emits.

Ltac em :=
  repeat lazymatch goal with
  | |- emits _ (bind _ _) => apply em_bind; [|intros]
  | |- emits _ (ret _) => apply em_ret
  | |- emits _ (bad _) => apply em_bad
  | |- emits _ nofuel => apply em_nofuel
  | |- emits _ getc => apply em_getc
  | |- emits _ (lift _) => apply em_lift
  | |- emits _ (modc _) => apply em_modc
  | |- emits _ (updc _) => apply em_updc
  | |- emits _ (emit _ _) => apply em_emit; auto
  | |- emits _ (millis _) => apply em_millis; intros; auto
  | |- emits _ (call_foreign _ _ _ _) => apply em_foreign; auto
  | |- emits _ (localtime _) => apply em_time; auto
  | |- emits _ (if ?b then _ else _) => destruct b eqn:?
  | |- emits _ (match ?b with _ => _ end) => destruct b eqn:?
  | |- emits _ (let x := _ in _) => cbv zeta
  end.

Section Scan.
Variables (P : event -> Prop) (E : env).
Hypothesis HP : forall ev, scan_call ev -> P ev.
Let PM t : P (EvMillis t). Proof. apply HP. exact I. Qed.
Let PP : P EvPanic. Proof. apply HP. exact I. Qed.
Let PI : P EvInstr. Proof. apply HP. exact I. Qed.
Let PS : P EvScanEnd. Proof. apply HP. exact I. Qed.
Let PF a b c : P (EvForeign a b c). Proof. apply HP. exact I. Qed.
Let PT : P EvTime. Proof. apply HP. exact I. Qed.

Lemma em_panic : emits P (panic E). Proof. unfold panic. em. Qed.
Lemma em_get r col i : emits P (get_data_value E r col i).
Proof. unfold get_data_value, set_err, set_state. repeat first [progress em | apply em_panic]. Qed.
Lemma em_set r col i w : emits P (set_data r col i w).
Proof. intros s a s' H. unfold set_data in H. destruct (set_data_value r col i w (s_ctx s)) as [[e c]| |]; try discriminate. injection H as <- <-. exists []. auto. Qed.
Lemma em_instr code f col row : ladder_function E code = Some f -> emits P (f col row).
Proof.
  intros H. destruct code; try discriminate; injection H as <-.
  all: unfold fn_NOP, fn_CONN, fn_NEG, fn_NO, fn_NC, fn_RE, fn_FE, fn_COIL, fn_COILL, fn_COILU,
    fn_ADD, fn_MUL, fn_MOD, fn_DIV, fn_SUB, fn_AND, fn_OR, fn_XOR, fn_NOT, binop, chk,
    fn_EQ, fn_GT, fn_GE, fn_LT, fn_LE, fn_NE, cmpop, fn_TON, fn_TOF, fn_TP, timer_reset, timer_start, timer_run, timer_elapsed,
    fn_CTU, fn_CTD, counter_reset_cond, counter_reset, counter_count, fn_MOVE, move_src, fn_SHL, fn_SHR, fn_ROL, fn_ROR, shiftop, fn_FOREIGN, fn_TMOVE,
    mleft, mstate, mput, midx, mpreset, mfactor, mflag, mflag_set, mcount, mcount_set, mts, mts_set, macc_set, mprev, set_err.
  all: repeat first [progress em | apply em_get | apply em_set].
  all: unfold midx; em.
Qed.
Lemma em_check cc : emits P (check_cycles E cc).
Proof. unfold check_cycles, set_state, set_err. repeat first [progress em | apply em_panic]. Qed.
Lemma em_skip rows col cc : emits P (skip_loop E rows col cc).
Proof. revert cc. induction rows as [|r t IH]; intros cc; simpl; unfold mcell; repeat first [progress em | apply em_check | apply IH]. Qed.
Lemma em_cell n col row : emits P (exec_cell E n col row).
Proof. unfold exec_cell, mcell, set_state, set_err. em. eapply em_instr; eauto. Qed.
Lemma em_rows n col rows : emits P (exec_rows E n col rows).
Proof. induction rows as [|r t IH]; simpl; repeat first [progress em | apply em_cell | apply IH]. Qed.
Lemma em_or col rows a : emits P (or_states col rows a).
Proof. revert a. induction rows as [|r t IH]; intros a; simpl; unfold mstate; repeat first [progress em | apply IH]. Qed.
Lemma em_put col rows b : emits P (put_states col rows b).
Proof. induction rows as [|r t IH]; simpl; unfold mput; repeat first [progress em | apply IH]. Qed.
Lemma em_column n g p col cc : emits P (scan_column E n g p col cc).
Proof. unfold scan_column, set_state. repeat first [progress em | apply em_skip | apply em_rows | apply em_or | apply em_put]. Qed.
Lemma em_columns f n g p col cc : emits P (scan_columns E f n g p col cc).
Proof. revert col cc. induction f as [|f IH]; intros col cc; simpl; unfold mcols; repeat first [progress em | apply em_column | apply IH]. Qed.
Lemma em_rung n row cc : emits P (scan_rung E n row cc).
Proof. unfold scan_rung, mcell. repeat first [progress em | apply em_check | apply em_columns]. Qed.
Lemma em_scan_rows f n row cc : emits P (scan_rows E f n row cc).
Proof. revert row cc. induction f as [|f IH]; intros row cc; simpl; unfold mrows; repeat first [progress em | apply em_rung | apply IH]. Qed.
Lemma em_network n : emits P (scan_network E n).
Proof. unfold scan_network, set_state. repeat first [progress em | apply em_panic | apply em_scan_rows]. Qed.
Lemma em_networks f n : emits P (scan_networks E f n).
Proof. revert n. induction f as [|f IH]; intros n; simpl; repeat first [progress em | apply em_network | apply IH]. Qed.
Lemma em_scan : emits P (ladder_scan E).
Proof. unfold ladder_scan, scan_cron, cron_eval, set_state. repeat first [progress em | apply em_panic | apply em_networks]. Qed.
End Scan.
