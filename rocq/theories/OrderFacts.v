(** Scans of programs made of any instructions follow the runs of SpecOrder. *)
From Verif Require Export SpecOrder ScanOutcome.

Section P.
Variables (E : env) (WE : loc -> Prop) (c0 : ctx).
Hypothesis HE : env_writes E WE.
Hypothesis HL : forall l, WE l -> ~ is_layout l.
Hypothesis HW : forall l, In l [LState; LErr; LLast; LStats] -> ~ WE l.
Hypothesis HS : forall k, peek c0 LNets = Some (VN k) -> Z.of_nat k <= 2 ^ 32.
(** What is known about every turn. *)
Definition fair_turn (t : turn) : Prop :=
  exists rows cols, scanned c0 (at_net t) rows cols /\ (at_row t < rows)%nat /\ (at_col t < cols)%nat
    /\ multi (code_at c0 (at_net t) (at_row t) (at_col t)) = false
    /\ J WE c0 (pre_of t) /\ executed E (at_net t) (at_row t) (at_col t) (pre_of t) (returned t) (post_of t)
    /\ changes_only (s_ctx (pre_of t)) (s_ctx (post_of t))
         (wset WE (s_ctx (pre_of t)) (code_at c0 (at_net t) (at_row t) (at_col t)) (at_net t) (at_row t) (at_col t)).
Section N.
Variables (n rows cols : nat).
Hypothesis HN : scanned c0 n rows cols.
Hypothesis HC : wf_cells c0 n rows cols.
Notation JX := (JX WE c0 n).
Notation code := (code_at c0 n).
Notation bar := (bar_at c0 n).
Notation group_run := (group_run E WE c0).
Notation steps_run := (steps_run E WE c0).
Lemma JX_of {A} (mm : M A) (P : A -> st -> Prop) s :
  (forall Q : A -> st -> Prop, (forall a s', JX s' -> Q a s') -> wp any mm Q s) ->
  wp any mm P s -> wp any mm (fun a s' => JX s' /\ P a s') s.
Proof.
  intros K1 K2. specialize (K1 (fun _ s' => JX s') (fun _ s' h => h)). unfold wp in *.
  destruct (mm s) as [[a s']| |]; auto. split; auto.
Qed.
Lemma check_run cc s : JX s ->
  wp any (check_cycles E cc) (fun b s' => JX s' /\
    if b : bool then changes_only (s_ctx s) (s_ctx s') WE
    else changes_only (s_ctx s) (s_ctx s') (fun l => l = LErr \/ l = LState \/ WE l)
         /\ peek (s_ctx s') LErr = Some (VErr E_OVERFLOW) /\ peek (s_ctx s') LState = Some (VState S_ERROR)) s.
Proof.
  intros H. apply JX_of; [intros Q K; eapply JX_check; eauto|].
  unfold check_cycles. apply wp_bind, wp_getc, wp_bind.
  assert (B : forall s1, changes_only (s_ctx s) (s_ctx s1) WE ->
    wp any (c2 <- getc;; (if si_maxcyc (x_si c2) <? cc then set_state S_ERROR;;; set_err E_OVERFLOW;;; panic E;;; ret false else ret true))%m
     (fun b s' => if b : bool then changes_only (s_ctx s) (s_ctx s') WE
       else changes_only (s_ctx s) (s_ctx s') (fun l => l = LErr \/ l = LState \/ WE l)
         /\ peek (s_ctx s') LErr = Some (VErr E_OVERFLOW) /\ peek (s_ctx s') LState = Some (VState S_ERROR)) s1).
  { intros s1 C1. apply wp_bind, wp_getc. destruct (_ <? cc).
    - apply wp_bind, wp_modc, wp_bind, wp_modc, wp_bind.
      eapply wp_mono; [|apply (panic_g E WE HE)]. intros [] s2 C2. apply wp_ret.
      split; [|split; (rewrite C2; [reflexivity|apply HW; simpl; auto])]. intros l L. rewrite C2 by tauto.
      transitivity (peek (s_ctx s1) l); [|apply C1; tauto]. destruct l; try reflexivity; exfalso; apply L; auto.
    - apply wp_ret. auto. }
  destruct (_ <? _); [eapply wp_mono; [|apply (panic_g E WE HE)]|apply wp_ret, B, changes_refl]. intros [] s1. apply B.
Qed.
Lemma exec_cell_run col r s : (r < rows)%nat -> (col < cols)%nat -> JX s ->
  wp any (exec_cell E n col r) (fun b s' => JX s' /\
    exists lg, Forall fair_turn lg /\
    if b : bool then forall rs lg2 b2 s2, group_run n col rs lg2 s' b2 s2 -> group_run n col (r :: rs) (lg ++ lg2) s b2 s2
    else forall rs, group_run n col (r :: rs) lg s false s') s.
Proof.
  intros R C H. apply JX_of; [intros Q K; eapply JX_exec_cell; eauto|].
  destruct (mcell_eq WE c0 n rows cols HL HN HC s r col H R C) as (x & Mx & Cx & Kx & X).
  unfold exec_cell. apply wp_bind. unfold wp at 1. rewrite Mx. cbn [wpr fst snd]. apply wp_bind, wp_modc.
  match goal with |- wp _ _ _ ?st1 => set (s1 := st1) end.
  assert (C1 : changes_only (s_ctx s) (s_ctx s1) (noted WE)).
  { intros l L. destruct l; try reflexivity; exfalso; apply L; unfold noted; auto. }
  assert (H1 : JX s1).
  { apply (JX_changes WE c0 n s _ (fun l => l = LErr \/ l = LLast)); auto.
    - intros l L. destruct l; simpl; auto; exfalso; apply L; auto.
    - intros l [-> | ->]; left; left; simpl; auto.
    - intros [L|L]; discriminate. }
  rewrite is_multi_eq, Cx. destruct (multi (code r col)) eqn:MU.
  { apply wp_ret. exists []. split; [constructor|]. intros rs lg2 b2 s2 G. eapply gr_mark; eauto. }
  destruct Kx as [Kx|Kx]; [|rewrite Cx in Kx; rewrite Kx in MU; discriminate]. rewrite Cx in Kx.
  destruct (ladder_function E (code r col)) as [f|] eqn:Hf.
  2:{ exfalso. destruct (code r col); simpl in Kx; try contradiction; discriminate. }
  apply wp_bind.
  pose proof (J_meta WE c0 HL s1 (LNet n) (proj1 H1) I) as N1. pose proof HN as [Hq N0]. rewrite N0 in N1.
  assert (FR : wp any (f col r) (fun e s2 => changes_only (s_ctx s1) (s_ctx s2) (wset WE (s_ctx s1) (code r col) n r col)) s1).
  { apply (instr_frame E); auto.
    - destruct H1 as [_ X1]. simpl. simpl in X1. congruence.
    - intros a b Z. congruence.
    - intros k K. apply HS. rewrite <- K. symmetry. apply (J_meta WE c0 HL); auto. apply H1. }
  unfold wp in FR. unfold wp at 1. destruct (f col r s1) as [[e s2]| |] eqn:RUN; auto. cbn [wpr fst snd] in FR |- *.
  assert (EX : executed E n r col s1 e s2).
  { split; [exact (f_equal (fun o => Some (VExec o)) (proj2 H1))|]. exists (c_bar x), (code r col), (c_dq x). split.
    - change (option_map (fun y => VCell (c_bar y) (c_code y) (c_dq y)) (cell_of (s_ctx s) n r col) = Some (VCell (c_bar x) (code r col) (c_dq x))).
      rewrite X. simpl. now rewrite Cx.
    - unfold outcome. rewrite Hf. simpl. now rewrite RUN. }
  assert (FA : fair_turn (mk_turn n r col s1 e s2)).
  { exists rows, cols. split; [exact HN|]. split; [auto|]. split; [auto|]. split; [exact MU|]. split; [apply H1|]. split; [exact EX|exact FR]. }
  apply wp_bind, wp_modc. match goal with |- wp _ _ _ ?st3 => set (s3 := st3) end.
  assert (C3 : changes_only (s_ctx s2) (s_ctx s3) (eq LErr)).
  { intros l L. destruct l; try reflexivity; congruence. }
  destruct (is_ok e) eqn:OKE.
  - apply is_ok_spec in OKE as ->. apply wp_bind, wp_getc, wp_bind.
    assert (F : forall s4, changes_only (s_ctx s3) (s_ctx s4) WE -> exists lg, Forall fair_turn lg /\
      forall rs lg2 b2 s5, group_run n col rs lg2 s4 b2 s5 -> group_run n col (r :: rs) (lg ++ lg2) s b2 s5).
    { intros s4 C4. exists [mk_turn n r col s1 E_OK s2]. split; [constructor; [exact FA|constructor]|].
      intros rs lg2 b2 s5 G. simpl app. eapply gr_exec; [exact MU|exact C1|exact EX| |exact G].
      eapply changes_trans; eapply changes_mono; [|exact C3| |exact C4]; intros l L; unfold noted; auto. }
    destruct (h_instr _); [|apply wp_ret, wp_ret, F, changes_refl].
    eapply wp_mono; [|apply (emit_g E WE HE); exact I]. intros [] s4 C4. apply wp_ret, F, C4.
  - apply wp_ret. exists [mk_turn n r col s1 e s2]. split; [constructor; [exact FA|constructor]|].
    intros rs. eapply gr_fail; [exact MU|exact C1|exact EX|intros ->; discriminate|exact C3|reflexivity].
Qed.
Lemma exec_rows_run col rs s : (forall r, In r rs -> (r < rows)%nat) -> (col < cols)%nat -> JX s ->
  wp any (exec_rows E n col rs) (fun b s' => JX s' /\ exists lg, Forall fair_turn lg /\ group_run n col rs lg s b s') s.
Proof.
  intros HR C. revert s. induction rs as [|r t IH]; intros s H; simpl.
  - apply wp_ret. split; [exact H|]. exists []. split; constructor.
  - apply wp_bind. eapply wp_mono; [|apply exec_cell_run; auto; apply HR; simpl; auto].
    intros b s1 [H1 (lg & FA & K)]. destruct b.
    + eapply wp_mono; [|apply IH; auto; intros; apply HR; simpl; auto].
      intros b s2 [H2 (lg2 & FA2 & L)]. split; auto. exists (lg ++ lg2). split; [apply Forall_app; auto|]. auto.
    + apply wp_ret. split; auto. exists lg. split; auto.
Qed.
(** Joining a group. *)
Lemma mput_one col k b s : x_exec (s_ctx s) = Some n ->
  wp any (mput col k b) (fun _ s' => x_exec (s_ctx s') = Some n /\ powered (s_ctx s') n k col b
    /\ changes_only (s_ctx s) (s_ctx s') (eq (LPow n k col))) s.
Proof.
  intros X. unfold mput. apply wp_updc. unfold put_state. rewrite X.
  destruct (cell_of (s_ctx s) n k col) as [x|] eqn:C.
  - rewrite (upd_cell_ok _ _ _ _ _ _ C). pose proof (put_pow_exec n k col b (s_ctx s)) as Y.
    pose proof (put_pow_frame n k col b (s_ctx s)) as Z. pose proof (powered_pow_here n k col b (s_ctx s) (ex_intro _ x C)) as PW.
    unfold put_pow in Y, Z, PW. rewrite C in Y, Z, PW. simpl.
    split; [now rewrite <- X|]. split; [exact PW|]. intros l L. apply Z. congruence.
  - unfold upd_cell. apply wpr_bind, any_net. intros nt N. apply wpr_bind, any_cell_in. intros x Z.
    rewrite (cell_of_net _ _ _ _ _ N) in C. congruence.
Qed.
Lemma put_run col rs b s : x_exec (s_ctx s) = Some n ->
  wp any (put_states col rs b) (fun _ s' => (forall r, In r rs -> powered (s_ctx s') n r col b)
    /\ changes_only (s_ctx s) (s_ctx s') (fun l => exists r, In r rs /\ l = LPow n r col)) s.
Proof.
  revert s. induction rs as [|r t IH]; intros s X; simpl; [apply wp_ret; split; [intros ? []|apply changes_refl]|]. apply wp_bind.
  eapply wp_mono; [|apply mput_one; auto]. intros [] s1 (X1 & P1 & C1). eapply wp_mono; [|apply IH; auto]. intros [] s2 (P2 & C2).
  split.
  - intros k [<-|K]; [|auto]. destruct (in_dec Nat.eq_dec r t) as [I0|NI]; [auto|].
    unfold powered. rewrite C2; [exact P1|]. intros (k & K & Q). injection Q as <-. contradiction.
  - intros l L. rewrite C2; [apply C1|]; [intros <-; apply L; exists r; auto|]. intros (k & K & ->). apply L. exists k; auto.
Qed.
Lemma or_run col rs a s : x_exec (s_ctx s) = Some n ->
  wp any (or_states col rs a) (fun b s' => s' = s /\ (b = true <-> a = true \/ exists r, In r rs /\ powered (s_ctx s) n r col true)) s.
Proof.
  intros X. revert a. induction rs as [|r t IH]; intros a; simpl.
  - apply wp_ret. split; auto. split; [auto|]. intros [K|(r & [] & _)]; auto.
  - apply wp_bind. unfold mstate. apply wp_bind, wp_getc, wp_lift. unfold cstate, ex_cell. rewrite X.
    apply wpr_bind, wpr_bind, any_net. intros nt NA. apply any_cell_in. intros x CI. cbn [wpr].
    assert (PW : powered (s_ctx s) n r col (c_state x)).
    { unfold powered. simpl. rewrite (cell_of_net _ _ _ _ _ NA), CI. reflexivity. }
    eapply wp_mono; [|apply IH]. intros b s' [-> K]. split; auto. rewrite K. rewrite orb_true_iff. split.
    + intros [[A|A]|(k & I0 & A)]; [auto|right; exists r; split; [auto|now rewrite A in PW]|right; exists k; auto].
    + intros [A|(k & [<-|I0] & A)]; [auto| |right; exists k; auto]. left; right. unfold powered in *. congruence.
Qed.
Lemma run_steps_run l cc s : (forall x, In x l -> step_ok rows cols x) -> JX s ->
  wp any (run_steps E n l cc) (fun b s' => JX s' /\ exists lg, Forall fair_turn lg /\ steps_run n l lg s b s') s.
Proof.
  revert cc s. induction l as [|x l IH]; intros cc s HX H.
  - simpl. apply wp_ret. split; [exact H|]. exists []. split; constructor.
  - assert (HX' : forall x, In x l -> step_ok rows cols x) by (intros; apply HX; simpl; auto).
    pose proof (HX x (or_introl eq_refl)) as Hx. destruct x as [|col rs|]; cbn [run_steps].
    + apply wp_bind. eapply wp_mono; [|apply check_run; auto]. intros b s1 [H1 K]. destruct b.
      * eapply wp_mono; [|apply IH; auto]. intros b s2 [H2 (lg & FA & R)]. split; auto. exists lg. split; auto. eapply sr_tick; eauto.
      * apply wp_ret. split; auto. destruct K as (K1 & K2 & K3). exists []. split; [constructor|]. now apply sr_over.
    + destruct Hx as [Hc Hr]. apply wp_bind. eapply wp_mono; [|apply exec_rows_run; auto]. intros b s1 [H1 (lg & FA & K)]. destruct b.
      * apply wp_bind. eapply wp_mono; [|apply or_run; apply H1]. intros b s1' [-> KO]. apply wp_bind.
        eapply wp_mono; [|apply (JX_of _ _ _ (fun Q KQ => JX_put WE c0 n rows cols HN col rs b Q s1 H1 (KQ tt)) (put_run col rs b s1 (proj2 H1)))].
        intros [] s2 [H2 (P2 & C2)]. eapply wp_mono; [|apply IH; auto]. intros b2 s3 [H3 (lg2 & FA2 & R)]. split; auto.
        exists (lg ++ lg2). split; [apply Forall_app; auto|]. eapply sr_run; [exact K| |exact R]. exists b. split; [|auto].
        rewrite KO. split; [intros [A|A]; [discriminate|auto]|auto].
      * apply wp_bind, wp_modc, wp_ret. split.
        -- apply (JX_changes WE c0 n s1 _ (eq LState)); auto; try discriminate.
           ++ intros y Y. destruct y; simpl; auto. congruence.
           ++ intros y <-. left; left; simpl; auto.
        -- exists lg. split; auto. eapply sr_fault; [exact K| |reflexivity]. intros y Y. destruct y; simpl; auto. congruence.
    + apply wp_bind, wp_getc, wp_bind.
      eapply wp_mono; [|apply (JX_of _ (fun _ s' => changes_only (s_ctx s) (s_ctx s') WE))].
      * intros [] s1 [H1 C1]. eapply wp_mono; [|apply IH; auto]. intros b s2 [H2 (lg & FA & R)]. split; auto.
        exists lg. split; auto. eapply sr_close; eauto.
      * intros Q KQ. destruct (h_scan_end _); [eapply JX_emit; simpl; eauto|apply wp_ret, KQ, H].
      * destruct (h_scan_end _); [apply (emit_g E WE HE); exact I|apply wp_ret, changes_refl].
Qed.
End N.
Lemma network_run n s : wf_program c0 -> (n < q_nets (x_q c0))%nat -> J WE c0 s ->
  wp any (scan_network E n) (fun b s' => J WE c0 s' /\ exists lg, Forall fair_turn lg /\
    if b : bool then forall l lg2 b2 s2, nets_run E WE c0 l lg2 s' b2 s2 -> nets_run E WE c0 (n :: l) (lg ++ lg2) s b2 s2
    else forall l, nets_run E WE c0 (n :: l) lg s false s') s.
Proof.
  intros [_ WF] Hn H. destruct (WF n Hn) as (LR & en & rows & cols & LN & WC).
  unfold scan_network. apply wp_bind, wp_getc, wp_bind, wp_lift, any_net. intros nt N.
  pose proof (J_meta WE c0 HL s (LNet n) H I) as MN. rewrite LN in MN. simpl in MN. rewrite N in MN. simpl in MN. injection MN as M1 M2 M3.
  replace (is_null (n_cells nt)) with false.
  2:{ assert (K : peek (s_ctx s) (LRows n) = peek c0 (LRows n)).
      { apply (J_layout WE c0 HL); auto; try exact I; try discriminate. }
      simpl in K. rewrite N in K. simpl in K. destruct (n_cells nt) eqn:NC; [reflexivity|]. exfalso. apply LR. exact (eq_sym K). }
  rewrite M1. destruct en.
  - destruct (WC eq_refl) as [C0 WCC]. assert (SC : scanned c0 n rows cols) by (split; auto).
    apply wp_bind, wp_modc. match goal with |- wp _ _ _ ?st1 => set (s1 := st1) end.
    assert (C1 : changes_only (s_ctx s) (s_ctx s1) (eq LExec)) by (intros l L; destruct l; simpl; auto; congruence).
    assert (H1 : JX WE c0 n s1).
    { split; [|reflexivity]. apply (J_changes WE c0 s _ (eq LExec)); auto. intros l <-. left; left; simpl; auto. }
    apply wp_bind, wp_updc, any_clear. intros c2 [C2 OFF]. set (s2 := inc s1 c2).
    assert (H2 : JX WE c0 n s2).
    { apply (JX_changes WE c0 n s1 _ (fun l => exists r col, l = LPow n r col)); auto.
      - intros l (r & col & ->). eapply WS_pow; eauto.
      - intros (r & col & ?). discriminate. }
    assert (W1 : wf_cells (s_ctx s1) n rows cols).
    { intros r col R C. destruct (WCC r col R C) as (b & i & d & P & K). exists b, i, d. split; auto.
      rewrite (C1 (LCell n r col)) by discriminate. rewrite (J_meta WE c0 HL s (LCell n r col) H I). auto. }
    assert (N1 : peek (s_ctx s1) (LNet n) = Some (VNet true rows cols)).
    { rewrite (C1 (LNet n)) by discriminate. rewrite (J_meta WE c0 HL s (LNet n) H I). auto. }
    assert (BG : starts_net n rows cols s s2).
    { split; [exact (f_equal (fun o => Some (VExec o)) (proj2 H2))|]. split.
      - intros r col R C. destruct (W1 r col R C) as (b & i & d & P & _).
        assert (PP : exists q, powered (s_ctx s1) n r col q).
        { unfold powered. simpl in *. destruct (cell_of _ n r col) as [x|]; [|discriminate]. simpl. eauto. }
        destruct PP as (q & PP). exact (OFF r col rows cols true N1 R C q PP).
      - intros l L. transitivity (peek (s_ctx s1) l).
        + apply C2. intros (r & col & ->). apply L. right; eauto.
        + apply C1. intros <-. apply L. auto. }
    rewrite M2. unfold wp. rewrite (rows_eq E WE c0 n rows cols HE HL HS SC WCC rows 0 0 s2) by (auto; lia).
    pose proof (run_steps_run n rows cols SC WCC (net_steps rows cols (code_at c0 n) (bar_at c0 n) rows 0) 0 s2 (fun x => plan_ok c0 n rows cols rows 0 x) H2) as K.
    assert (PL : plan c0 n = net_steps rows cols (code_at c0 n) (bar_at c0 n) rows 0) by (unfold plan; now rewrite LN).
    rewrite <- PL in *. unfold wp in K. destruct (run_steps E n _ 0 s2) as [[b s']| |]; auto. destruct K as [K1 (lg & FA & K2)].
    split; [apply K1|]. exists lg. split; auto. destruct b.
    + intros l lg2 b2 s3 NR. eapply nr_done; eauto.
    + intros l. eapply nr_stop; eauto.
  - apply wp_ret. split; auto. exists []. split; [constructor|]. intros l lg2 b2 s2 NR. eapply nr_skip; eauto.
Qed.
Lemma networks_run f n s : wf_program c0 -> (n + f = q_nets (x_q c0))%nat -> J WE c0 s ->
  wp any (scan_networks E f n) (fun _ s' => exists lg b, Forall fair_turn lg /\ nets_run E WE c0 (seq n f) lg s b s') s.
Proof.
  intros WF. revert n s. induction f as [|f IH]; intros n s Hf H; simpl; apply wp_bind, wp_getc;
    rewrite (peek_qty c0 (s_ctx s)) by (apply (J_meta WE c0 HL); auto; exact I).
  - replace (n <? q_nets (x_q c0))%nat with false by (symmetry; apply Nat.ltb_ge; lia). apply wp_ret. exists [], true. split; constructor.
  - replace (n <? q_nets (x_q c0))%nat with true by (symmetry; apply Nat.ltb_lt; lia).
    apply wp_bind. eapply wp_mono; [|apply network_run; auto; lia]. intros b s1 (H1 & lg & FA & K). destruct b.
    + eapply wp_mono; [|apply IH; auto; lia]. intros [] s2 (lg2 & b & FA2 & NR). exists (lg ++ lg2), b. split; [apply Forall_app; auto|auto].
    + apply wp_ret. exists lg, false. auto.
Qed.
Lemma scan_runs_l s : s_ctx s = c0 -> wf_program c0 -> cron_ready c0 ->
  wp any (ladder_scan E) (fun _ s' => exists lg b, Forall fair_turn lg /\ scan_run E WE lg s b s') s.
Proof.
  intros Hs WF CR. unfold ladder_scan. apply wp_bind, wp_modc.
  match goal with |- wp _ _ _ ?st1 => set (s1 := st1) end.
  assert (C1 : changes_only c0 (s_ctx s1) (eq LExec)).
  { intros l L. unfold s1. simpl. rewrite Hs. destruct l; simpl; auto. congruence. }
  assert (H1 : J WE c0 s1).
  { eapply changes_mono; [|exact C1]. intros l <-. left; left; simpl; auto. }
  apply wp_bind. eapply wp_mono; [|apply (cron_out E WE c0); auto]. intros b s2 (-> & H2 & C2 & D2).
  assert (C3 : changes_only (s_ctx s) (s_ctx s2) (fun l => l = LExec \/ cron_flag c0 l)).
  { rewrite Hs. eapply changes_trans; [eapply changes_mono; [|exact C1]; intros l <-; auto|eapply changes_mono; [|exact C2]; intros l K; right; exact K]. }
  apply wp_bind, wp_getc. replace (is_null (x_net (s_ctx s2))) with false.
  2:{ pose proof (J_meta WE c0 HL s2 LNets H2 I) as K. simpl in K. destruct WF as [WF _]. destruct (x_net (s_ctx s2)); [reflexivity|].
      exfalso. apply WF. exact (eq_sym K). }
  rewrite (peek_qty c0 (s_ctx s2)) by (apply (J_meta WE c0 HL); auto; exact I).
  eapply wp_mono; [|apply networks_run; auto].
  intros [] s3 (lg & b & FA & K). exists lg, b. split; auto. exists s2. split; [|now rewrite Hs]. split; [|exact D2]. rewrite Hs in C3 |- *. exact C3.
Qed.
End P.
Lemma scan_runs E W s s' m : scan_ready E W (s_ctx s) m -> scans E s s' ->
  exists lg b, Forall (fair_turn E W (s_ctx s)) lg /\ scan_run E W lg s b s'.
Proof.
  intros [HE HL HW HS HB HM M0 WF CR] R.
  pose proof (scan_runs_l E W (s_ctx s) HE HL HW HS s eq_refl WF CR) as K. exact (wp_ok _ _ _ _ _ _ K R).
Qed.
