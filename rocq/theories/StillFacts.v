(** A scan of a program without timers does not depend on the clock. The proofs follow CallFacts.v. *)
From Verif Require Export SpecStill CallFacts SpecSafe.

Section Still.
Variables (c0 : ctx) (E E' : env).
Hypothesis AL : alike_but_time c0 E E'.
Hypothesis KS : keeps_shape c0 E.
Hypothesis NOT : no_timers c0.
Variable tr0 : list event.
Definition wJc (c : ctx) : Prop := shape c = shape c0.
Definition wJ (s : st) : Prop := wJc (s_ctx s) /\ exists l, s_tr s = l ++ tr0 /\ Forall (timeless c0) l.
Lemma wj_ctx s c : wJ s -> wJc c -> wJ (mk_st c (s_tr s)).
Proof. intros [_ H] K. split; auto. Qed.
Lemma wj_call s ev c : wJ s -> due (s_ctx s) ev -> is_millis ev = false -> wJc c -> wJ (mk_st c (ev :: s_tr s)).
Proof. intros [H (l & L1 & L2)] D N K. split; auto. exists (ev :: l). cbn [s_tr app]. rewrite L1. split; auto. constructor; auto. split; auto. exists (s_ctx s). auto. Qed.
Definition wagat {A} (s : st) (m m' : M A) : Prop := m s = m' s /\ forall a s', m s = Ok (a, s') -> wJ s'.
Definition wag {A} (m m' : M A) : Prop := forall s, wJ s -> wagat s m m'.

Lemma wa_ret {A} (a : A) s : wJ s -> wagat s (ret a) (ret a).
Proof. intros H. split; auto. intros b s' K. injection K as <- <-. auto. Qed.
Lemma wa_bad {A} u s : wagat s (@bad A u) (bad u).
Proof. split; auto. intros a s' K. discriminate. Qed.
Lemma wa_nofuel {A} s : wagat s (@nofuel A) nofuel.
Proof. split; auto. intros a s' K. discriminate. Qed.
Lemma wa_bind {A B} (m m' : M A) (k k' : A -> M B) s : wagat s m m' -> (forall a s', wJ s' -> wagat s' (k a) (k' a)) -> wagat s (bind m k) (bind m' k').
Proof.
  intros [H1 H2] K. unfold wagat, bind. rewrite <- H1. destruct (m s) as [[a s1]|u|] eqn:M1.
  - apply (K a s1). eapply H2. reflexivity.
  - split; auto. intros b s' Q. discriminate.
  - split; auto. intros b s' Q. discriminate.
Qed.
Lemma wa_getc {B} (k k' : ctx -> M B) s : wagat s (k (s_ctx s)) (k' (s_ctx s)) -> wagat s (bind getc k) (bind getc k').
Proof. intros H. exact H. Qed.
Lemma wa_lift {A B} (r : res A) (k k' : A -> M B) s : (forall a, r = Ok a -> wagat s (k a) (k' a)) -> wagat s (bind (lift r) k) (bind (lift r) k').
Proof. intros H. unfold wagat, bind, lift. destruct r as [a|u|]; [now apply (H a)| |]; split; auto; intros a s' K; discriminate. Qed.
Lemma wa_lift1 {A} (r : res A) s : wJ s -> wagat s (lift r) (lift r).
Proof. intros H. split; auto. intros a s' K. unfold lift in K. destruct r; try discriminate. injection K as <- <-. auto. Qed.
Lemma wa_getc1 s : wJ s -> wagat s getc getc.
Proof. intros H. split; auto. intros a s' K. injection K as <- <-. auto. Qed.
Lemma wa_modc f s : wJ s -> (wJc (s_ctx s) -> wJc (f (s_ctx s))) -> wagat s (modc f) (modc f).
Proof. intros H K. split; auto. intros a s' Q. injection Q as <- <-. apply wj_ctx; auto. apply K, H. Qed.
Lemma wa_updc f s : keeping f -> wJ s -> wagat s (updc f) (updc f).
Proof. intros F H. split; auto. intros a s' Q. unfold updc in Q. destruct (f (s_ctx s)) as [c| |] eqn:FC; try discriminate. injection Q as <- <-. apply wj_ctx; auto. apply F in FC. destruct H. unfold wJc in *. congruence. Qed.
Lemma wa_emit ev s : wJ s -> due (s_ctx s) ev -> is_millis ev = false -> wagat s (emit E ev) (emit E' ev).
Proof.
  intros H D N. pose proof (proj1 H) as HC. unfold wagat, emit. rewrite <- (ab_act _ _ _ AL _ _ _ HC D N). split; auto. intros a s' Q. injection Q as <- <-. apply wj_call; auto.
  now apply (ks_act _ _ KS).
Qed.
Lemma wa_localtime s : (forall k, wall E k = wall E' k) -> wJ s -> wagat s (localtime E) (localtime E').
Proof. intros W H. unfold wagat, localtime. rewrite <- W. split; auto. intros a s' Q. injection Q as <- <-. apply wj_call; auto; [exact I|apply H]. Qed.
Lemma wa_panic s : wJ s -> wagat s (panic E) (panic E').
Proof. intros H. apply wa_getc. destruct (h_panic (x_h (s_ctx s))) eqn:P; [now apply wa_emit|now apply wa_ret]. Qed.
Lemma wa_foreign id col row s : wJ s -> due (s_ctx s) (EvForeign id col row) -> wagat s (call_foreign E id col row) (call_foreign E' id col row).
Proof.
  intros H D. pose proof (proj1 H) as HC. unfold wagat, call_foreign. pose proof (ks_foreign _ _ KS (length (s_tr s)) _ _ _ _ HC D) as K. rewrite <- (ab_foreign _ _ _ AL _ _ _ _ _ HC D).
  destruct (fexec E (length (s_tr s)) id col row (s_ctx s)) as [e c]. split; auto. intros a s' Q. injection Q as <- <-. apply wj_call; auto.
Qed.
Lemma wa_set_data r col i w s : wJ s -> wagat s (set_data r col i w) (set_data r col i w).
Proof.
  intros H. split; auto. intros a s' Q. unfold set_data in Q. destruct (set_data_value r col i w (s_ctx s)) as [[e c]| |] eqn:K; try discriminate. injection Q as <- <-.
  apply k_set_data_value in K. apply wj_ctx; auto. destruct H. unfold wJc in *. congruence.
Qed.
Lemma wa_state x s : wJ s -> wagat s (set_state x) (set_state x).
Proof. intros H. now apply wa_modc. Qed.
Lemma wa_err e s : wJ s -> wagat s (set_err e) (set_err e).
Proof. intros H. now apply wa_modc. Qed.

Hint Resolve k_bank k_in k_out k_tm k_put k_clear k_cron_clear k_cron_eval k_save k_revert k_reset : kee.
Ltac wag1 := first
  [ apply wa_ret; assumption | apply wa_bad | apply wa_nofuel | apply wa_panic; assumption
  | apply wa_set_data; assumption | apply wa_state; assumption | apply wa_err; assumption | apply wa_lift1; assumption | apply wa_getc1; assumption
  | apply wa_updc; [solve [eauto with kee]|assumption] | apply wa_modc; [assumption|solve [intros; assumption]]
  | apply wa_getc | apply wa_lift; intros ? ? | apply wa_bind; [|intros ? ? ?] ].
Ltac wags := repeat (cbv beta; cbv zeta; first
  [ wag1
  | match goal with
    | H : forall _, _ |- wagat _ _ _ => solve [apply H; assumption]
    | |- wagat _ (if ?b then _ else _) _ => destruct b eqn:?
    | |- wagat _ (match ?b with _ => _ end) _ => destruct b eqn:?
    | |- wagat _ (let (_, _) := ?b in _) _ => destruct b eqn:? end ]).

Ltac wagw L := intros; repeat (cbv beta; cbv zeta; first [ solve [L] | wag1
  | match goal with
    | H : forall _, _ |- wagat _ _ _ => solve [apply H; assumption]
    | |- wagat _ (if ?b then _ else _) _ => destruct b eqn:?
    | |- wagat _ (match ?b with _ => _ end) _ => destruct b eqn:?
    | |- wagat _ (let (_, _) := ?b in _) _ => destruct b eqn:? end ]).
Lemma wg_gdv r col i s : wJ s -> wagat s (get_data_value E r col i) (get_data_value E' r col i).
Proof. intros H. unfold get_data_value. wags. Qed.
Ltac wagi := wagw ltac:(apply wg_gdv; assumption).
Lemma wg_left col row s : wJ s -> wagat s (mleft col row) (mleft col row).
Proof. unfold mleft. wagi. Qed.
Lemma wg_state col row s : wJ s -> wagat s (mstate col row) (mstate col row).
Proof. unfold mstate. wagi. Qed.
Lemma wg_put col row b s : wJ s -> wagat s (mput col row b) (mput col row b).
Proof. unfold mput. wagi. Qed.
Lemma wg_prev col row i s : wJ s -> wagat s (mprev col row i) (mprev col row i).
Proof. unfold mprev. wagi. Qed.
Lemma wg_idx col row s : wJ s -> wagat s (midx col row) (midx col row).
Proof. unfold midx. wagi. Qed.
Lemma wg_preset col row s : wJ s -> wagat s (mpreset col row) (mpreset col row).
Proof. unfold mpreset. wagi. Qed.
Lemma wg_factor col row s : wJ s -> wagat s (mfactor col row) (mfactor col row).
Proof. unfold mfactor. wagi. Qed.
Ltac wagjs := first [apply wg_gdv; assumption | apply wg_left; assumption | apply wg_state; assumption | apply wg_put; assumption | apply wg_prev; assumption
  | apply wg_idx; assumption | apply wg_preset; assumption | apply wg_factor; assumption ].
Ltac wagj := wagw ltac:(wagjs).
Lemma wg_flag b col row s : wJ s -> wagat s (mflag b col row) (mflag b col row).
Proof. unfold mflag. wagj. Qed.
Lemma wg_flag_set b col row v s : wJ s -> wagat s (mflag_set b col row v) (mflag_set b col row v).
Proof. unfold mflag_set. wagj. Qed.
Lemma wg_count col row s : wJ s -> wagat s (mcount col row) (mcount col row).
Proof. unfold mcount. wagj. Qed.
Lemma wg_count_set col row v s : wJ s -> wagat s (mcount_set col row v) (mcount_set col row v).
Proof. unfold mcount_set. wagj. Qed.
Lemma wg_ts col row s : wJ s -> wagat s (mts col row) (mts col row).
Proof. unfold mts. wagj. Qed.
Lemma wg_ts_set col row v s : wJ s -> wagat s (mts_set col row v) (mts_set col row v).
Proof. unfold mts_set. wagj. Qed.
Lemma wg_acc_set col row v s : wJ s -> wagat s (macc_set col row v) (macc_set col row v).
Proof. unfold macc_set. wagj. Qed.
Ltac wagks := first [apply wg_gdv; assumption | apply wg_left; assumption | apply wg_state; assumption | apply wg_put; assumption | apply wg_prev; assumption
  | apply wg_idx; assumption | apply wg_preset; assumption | apply wg_factor; assumption | apply wg_flag; assumption | apply wg_flag_set; assumption | apply wg_count; assumption
  | apply wg_count_set; assumption | apply wg_ts; assumption | apply wg_ts_set; assumption | apply wg_acc_set; assumption ].
Ltac wagk := wagw ltac:(wagks).
Lemma wg_reset col row s : wJ s -> wagat s (timer_reset col row) (timer_reset col row).
Proof. unfold timer_reset. wagk. Qed.
Lemma wg_chk z s : wJ s -> wagat s (chk z) (chk z).
Proof. unfold chk. wagk. Qed.
Lemma wg_binop op col row : (forall a b s, wJ s -> wagat s (op a b) (op a b)) -> forall s, wJ s -> wagat s (binop E op col row) (binop E' op col row).
Proof. intros F. unfold binop. wagk. Qed.
Lemma wg_shiftop op col row s : wJ s -> wagat s (shiftop E op col row) (shiftop E' op col row).
Proof. unfold shiftop. wagk. Qed.
Lemma wg_cmpop op col row s : wJ s -> wagat s (cmpop E op col row) (cmpop E' op col row).
Proof. unfold cmpop. wagk. Qed.
Lemma wg_cond col row s : wJ s -> wagat s (counter_reset_cond col row) (counter_reset_cond col row).
Proof. unfold counter_reset_cond. wagk. Qed.
Lemma wg_creset col row z s : wJ s -> wagat s (counter_reset col row z) (counter_reset col row z).
Proof. unfold counter_reset. wagk. Qed.
Lemma wg_ccount col row z s : wJ s -> wagat s (counter_count col row z) (counter_count col row z).
Proof. unfold counter_count. wagk. Qed.
Ltac wagc := wagw ltac:(first [wagks | apply wg_cond; assumption | apply wg_creset; assumption | apply wg_ccount; assumption]).
Lemma wg_move col row s : wJ s -> wagat s (fn_MOVE E col row) (fn_MOVE E' col row).
Proof. unfold fn_MOVE, move_src. wagk. Qed.
Lemma wcell_there n nt r col (x : cell) c : net_at n c = Ok nt -> cell_in nt r col = Ok x -> cell_of c n r col = Some x.
Proof.
  unfold net_at, cell_in, cell_of, row_of, net_of, nth_res, elem. destruct (x_net c) as [l|]; [|discriminate]. cbn [obind]. destruct (nth_error l n) as [nt'|]; [|discriminate]. intros K. injection K as ->. cbn [obind].
  destruct (n_cells nt) as [rows|]; [|discriminate]. cbn [obind]. destruct (nth_error rows r) as [rw|]; [|discriminate]. cbn [rbind obind]. destruct (nth_error rw col); [|discriminate]. congruence.
Qed.
Definition wat_cell (row col : nat) (n : nat) (c : ctx) : Prop := peek c LExec = Some (VExec (Some n)) /\ peek c (LCell n row col) <> None.
Lemma wat_cell_keeps row col n c c' : shape c' = shape c -> peek c' LExec = peek c LExec -> wat_cell row col n c -> wat_cell row col n c'.
Proof. intros H X [H1 H2]. split; [now rewrite X|]. now rewrite (shape_cell _ _ n row col H). Qed.
Definition wkx {A} (m : M A) : Prop := forall s a s', wJ s -> m s = Ok (a, s') -> wJ s' /\ peek (s_ctx s') LExec = peek (s_ctx s) LExec.
Lemma wkx_ret {A} (a : A) : wkx (ret a).
Proof. intros s b s' H K. injection K as <- <-. auto. Qed.
Lemma wkx_lift {A} (r : res A) : wkx (lift r).
Proof. intros s b s' H K. unfold lift in K. destruct r; try discriminate. injection K as <- <-. auto. Qed.
Lemma wkx_getc : wkx getc.
Proof. intros s b s' H K. injection K as <- <-. auto. Qed.
Lemma wkx_err e : wkx (set_err e).
Proof. intros s b s' H K. injection K as <- <-. split; [apply wj_ctx; [auto|apply H]|auto]. Qed.
Lemma wkx_state u : wkx (set_state u).
Proof. intros s b s' H K. injection K as <- <-. split; [apply wj_ctx; [auto|apply H]|auto]. Qed.
Lemma wkx_panic : wkx (panic E).
Proof.
  intros s b s' H K. pose proof (wa_panic s H) as [_ G]. split; [eapply G; exact K|]. unfold panic, bind, getc in K. destruct (h_panic (x_h (s_ctx s))) eqn:HP; [|injection K as <- <-; auto].
  unfold emit in K. injection K as <- <-. apply (ks_exec _ _ KS); [apply H|exact HP].
Qed.
Lemma wkx_bind {A B} (m : M A) (k : A -> M B) : wkx m -> (forall a, wkx (k a)) -> wkx (bind m k).
Proof.
  intros M1 K1 s b s' H K. unfold bind in K. destruct (m s) as [[a s1]| |] eqn:MS; try discriminate. destruct (M1 _ _ _ H MS) as [H1 X1]. destruct (K1 a _ _ _ H1 K) as [H2 X2]. split; auto. congruence.
Qed.
Lemma wkx_gdv r col i : wkx (get_data_value E r col i).
Proof.
  unfold get_data_value. repeat (cbv zeta; first [apply wkx_ret|apply wkx_lift|apply wkx_getc|apply wkx_err|apply wkx_state|apply wkx_panic|apply wkx_bind; [|intros ?]
    | match goal with |- wkx (if ?b then _ else _) => destruct b | |- wkx (match ?b with _ => _ end) => destruct b end]).
Qed.
Lemma wgdv_at row col n i s z s' : wJ s -> wat_cell row col n (s_ctx s) -> get_data_value E row col i s = Ok (z, s') -> wat_cell row col n (s_ctx s').
Proof.
  intros H A K. pose proof (wg_gdv row col i s H) as [_ G]. apply G in K as H'. apply (wat_cell_keeps row col n (s_ctx s)); auto; [destruct H, H'; unfold wJc in *; congruence|].
  apply (wkx_gdv row col i) in K; auto. apply K.
Qed.
Lemma wa_bindk {A B} (m m' : M A) (k k' : A -> M B) s : wagat s m m' -> (forall a s', m s = Ok (a, s') -> wJ s' -> wagat s' (k a) (k' a)) -> wagat s (bind m k) (bind m' k').
Proof.
  intros [H1 H2] K. unfold wagat, bind. rewrite <- H1. destruct (m s) as [[a s1]|u|] eqn:M1.
  - apply (K a s1); auto. eapply H2. reflexivity.
  - split; auto. intros b s' Q. discriminate.
  - split; auto. intros b s' Q. discriminate.
Qed.
Lemma wg_foreign col row n s : wat_cell row col n (s_ctx s) -> wJ s -> wagat s (fn_FOREIGN E col row) (fn_FOREIGN E' col row).
Proof.
  intros A H. unfold fn_FOREIGN. apply wa_bindk; [now apply wg_gdv|]. intros v s1 G1 H1. apply wa_getc. cbv beta. destruct (_ <=? _); [now apply wa_ret|]. apply wa_bindk; [now apply wg_gdv|].
  intros v2 s2 G2 H2. apply wa_getc. apply wa_lift. intros u P. apply wa_foreign; auto. cbn [due]. apply pget_at in P. split; [congruence|]. exists n.
  eapply wgdv_at; [exact H1| |exact G2]. eapply wgdv_at; [exact H| |exact G1]. exact A.
Qed.
Lemma wg_tmove col row s : wJ s -> wagat s (fn_TMOVE E col row) (fn_TMOVE E' col row).
Proof.
  intros H. unfold fn_TMOVE. cbv zeta. do 5 (apply wa_bind; [now apply wg_gdv|]; intros; cbv beta). match goal with |- wagat _ (if ?b then _ else _) _ => destruct b end; [wagk|].
  apply wa_getc. match goal with HS : wJ ?s |- wagat ?s _ _ => assert (JS : wJc (s_ctx s)) by apply HS; remember (s_ctx s) as c eqn:EC in JS |- *; clear EC end. wagk.
  match goal with W : write_table _ _ _ _ = Ok (_, _), J1 : wJc c |- _ => apply k_write_table in W; assert (JN : wJc c1) by (unfold wJc in *; congruence) end. apply wa_modc; auto.
Qed.
Lemma wg_function i f f' col row n s : ladder_function E i = Some f -> ladder_function E' i = Some f' -> timer_ins i = false -> wat_cell row col n (s_ctx s) -> wJ s -> wagat s (f col row) (f' col row).
Proof.
  intros F F' NI AC H. destruct i; try discriminate F; try discriminate NI; cbn [ladder_function] in F, F'; injection F as <-; injection F' as <-;
    first [ now apply wg_move | now apply (wg_foreign col row n) | now apply wg_tmove | now apply wg_shiftop | now apply wg_cmpop
          | apply wg_binop; [intros; first [now apply wg_chk | wagk]|assumption]
          | unfold fn_NOP, fn_CONN, fn_NEG, fn_NO, fn_NC, fn_RE, fn_FE, fn_COIL, fn_COILL, fn_COILU, fn_SUB, fn_DIV, fn_NOT; wagw ltac:(first [wagks | apply wg_chk; assumption]); fail
          | unfold fn_CTU, fn_CTD; wagc; fail | idtac ].
Qed.

Lemma wg_cell row col s : wJ s -> wagat s (mcell row col) (mcell row col).
Proof. unfold mcell. wagk. Qed.
Lemma wg_rows s : wJ s -> wagat s mrows mrows.
Proof. unfold mrows. wagk. Qed.
Lemma wg_cols s : wJ s -> wagat s mcols mcols.
Proof. unfold mcols. wagk. Qed.
Lemma wg_cycles cc s : wJ s -> wagat s (check_cycles E cc) (check_cycles E' cc).
Proof. unfold check_cycles. wagk. Qed.
Lemma wg_skip rows col : forall cc s, wJ s -> wagat s (skip_loop E rows col cc) (skip_loop E' rows col cc).
Proof. induction rows as [|gr t IH]; cbn [skip_loop]; [wagk|]. intros cc s H. wagw ltac:(first [apply wg_cycles; assumption|apply wg_cell; assumption]). Qed.
Lemma wfunctions_alike i : match ladder_function E i, ladder_function E' i with Some _, Some _ => True | None, None => True | _, _ => False end.
Proof. destruct i; exact I. Qed.
Lemma wg_exec net col row s : wJ s -> wagat s (exec_cell E net col row) (exec_cell E' net col row).
Proof.
  intros H. unfold exec_cell. apply wa_bindk; [now apply wg_cell|]. intros x s1 G1 H1. apply wa_bindk; [apply wa_modc; auto|]. intros [] s2 G2 H2. destruct (is_multi (c_code x)); [now apply wa_ret|].
  assert (NI : timer_ins (c_code x) = false).
  { unfold mcell, bind, getc, lift in G1. destruct (ex_cell row col (s_ctx s)) as [y| |] eqn:X; try discriminate. injection G1 as -> <-.
    unfold ex_cell in X. destruct (x_exec (s_ctx s)) as [n|] eqn:EX; [|discriminate]. destruct (net_at n (s_ctx s)) as [nt| |] eqn:NA; cbn [rbind] in X; try discriminate.
    pose proof (wcell_there _ _ _ _ _ _ NA X) as C. apply (NOT n row col (c_bar x) (c_code x) (c_dq x)). rewrite <- (shape_cell _ _ n row col (proj1 H)). cbn [peek]. now rewrite C. }
  assert (AC : exists n, wat_cell row col n (s_ctx s2)).
  { unfold modc in G2. injection G2 as <-. unfold mcell, bind, getc, lift in G1. destruct (ex_cell row col (s_ctx s)) as [y| |] eqn:X; try discriminate. injection G1 as -> <-.
    unfold ex_cell in X. destruct (x_exec (s_ctx s)) as [n|] eqn:EX; [|discriminate]. destruct (net_at n (s_ctx s)) as [nt| |] eqn:NT; cbn [rbind] in X; try discriminate. exists n.
    split; cbn [peek s_ctx set_x_last x_exec]; [now rewrite EX|]. change (cell_of (set_x_last (mk_lastinfo (u8 (ins_code (c_code x))) net col row E_OK) (s_ctx s)) n row col) with (cell_of (s_ctx s) n row col).
    rewrite (wcell_there _ _ _ _ _ _ NT X). discriminate. }
  destruct AC as [n AC].
  pose proof (wfunctions_alike (c_code x)) as FA. destruct (ladder_function E (c_code x)) as [f|] eqn:F; destruct (ladder_function E' (c_code x)) as [f'|] eqn:F'; try contradiction; [|wagk].
  apply wa_bind; [eapply wg_function; eauto|]. intros e s3 H3. apply wa_bind; [now apply wa_err|]. intros [] s4 H4. destruct (is_ok e); [|now apply wa_ret]. apply wa_getc. apply wa_bind; [|intros; now apply wa_ret].
  destruct (h_instr (x_h (s_ctx s4))) eqn:P; [now apply wa_emit|now apply wa_ret].
Qed.
Lemma wg_exec_rows net col rows : forall s, wJ s -> wagat s (exec_rows E net col rows) (exec_rows E' net col rows).
Proof. induction rows as [|gr t IH]; cbn [exec_rows]; [wagk|]. intros s H. wagw ltac:(apply wg_exec; assumption). Qed.
Lemma wg_or col rows : forall acc s, wJ s -> wagat s (or_states col rows acc) (or_states col rows acc).
Proof. induction rows as [|gr t IH]; cbn [or_states]; [wagk|]. intros acc s H. wagw ltac:(apply wg_state; assumption). Qed.
Lemma wg_puts col rows b : forall s, wJ s -> wagat s (put_states col rows b) (put_states col rows b).
Proof. induction rows as [|gr t IH]; cbn [put_states]; [wagk|]. intros s H. wagw ltac:(apply wg_put; assumption). Qed.
Lemma wg_column net g power col cc s : wJ s -> wagat s (scan_column E net g power col cc) (scan_column E' net g power col cc).
Proof. unfold scan_column. intros H. wagw ltac:(first [apply wg_skip; assumption|apply wg_exec_rows; assumption|apply wg_or; assumption|apply wg_puts; assumption]). Qed.
Lemma wg_columns net g power f : forall col cc s, wJ s -> wagat s (scan_columns E f net g power col cc) (scan_columns E' f net g power col cc).
Proof. induction f as [|f IH]; cbn [scan_columns]; intros col cc s H; wagw ltac:(first [apply wg_cols; assumption|apply wg_column; assumption]). Qed.
Lemma wg_rung net row cc s : wJ s -> wagat s (scan_rung E net row cc) (scan_rung E' net row cc).
Proof.
  unfold scan_rung. intros H. apply wa_bind; [now apply wg_cycles|]. intros go s1 H1. destruct go; [|now apply wa_ret]. apply wa_bind; [now apply wg_cell|]. intros x s2 H2. destruct (is_multi (c_code x)); [now apply wa_ret|].
  apply wa_getc. apply wa_lift. intros nt N. apply wa_lift. intros ge G. apply wa_lift. intros lo L. apply wa_bind; [now apply wg_columns|]. intros [cc'|] s3 H3; [|now apply wa_ret].
  apply wa_getc. apply wa_bind; [|intros; now apply wa_ret]. destruct (h_scan_end (x_h (s_ctx s3))) eqn:P; [now apply wa_emit|now apply wa_ret].
Qed.
Lemma wg_scan_rows net f : forall row cc s, wJ s -> wagat s (scan_rows E f net row cc) (scan_rows E' f net row cc).
Proof. induction f as [|f IH]; cbn [scan_rows]; intros row cc s H; wagw ltac:(first [apply wg_rows; assumption|apply wg_rung; assumption]). Qed.
Lemma wg_network net s : wJ s -> wagat s (scan_network E net) (scan_network E' net).
Proof. unfold scan_network. intros H. wagw ltac:(apply wg_scan_rows; assumption). Qed.
Lemma wg_networks f : forall net s, wJ s -> wagat s (scan_networks E f net) (scan_networks E' f net).
Proof. induction f as [|f IH]; cbn [scan_networks]; intros net s H; wagw ltac:(apply wg_network; assumption). Qed.
Lemma wg_cron s : wJ s -> (forall k, wall E k = wall E' k) \/ peek (s_ctx s) LCron = Some (VCron None) -> wagat s (scan_cron E) (scan_cron E').
Proof.
  intros H [W|W].
  - unfold scan_cron, cron_eval. wagw ltac:(first [wagks | apply wa_localtime; assumption]).
  - unfold scan_cron. apply wa_getc. cbn [peek] in W. injection W as ->. now apply wa_ret.
Qed.
Lemma wg_scan s : wJ s -> (forall k, wall E k = wall E' k) \/ peek (s_ctx s) LCron = Some (VCron None) -> wagat s (ladder_scan E) (ladder_scan E').
Proof.
  unfold ladder_scan. intros H W. apply wa_bindk; [apply wa_modc; [assumption|intros; assumption]|]. intros [] s1 Q1 H1.
  assert (W1 : (forall k, wall E k = wall E' k) \/ peek (s_ctx s1) LCron = Some (VCron None)).
  { destruct W as [W|W]; [now left|right]. unfold modc in Q1. injection Q1 as <-. exact W. }
  apply wa_bind; [now apply wg_cron|]. intros go s2 H2. wagw ltac:(apply wg_networks; assumption).
Qed.
Lemma wg_scans n : (forall k, wall E k = wall E' k) -> forall s, wJ s -> wagat s (many_scans E n) (many_scans E' n).
Proof. intros W. induction n as [|n IH]; cbn [many_scans]; intros s H; [now apply wa_ret|]. apply wa_bind; [apply wg_scan; auto|]. intros _ s1 H1. now apply IH. Qed.
End Still.
