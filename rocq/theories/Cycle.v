(** A cycle of the task, split into its phases. *)
From Verif Require Export Hist.

Lemma conf_layout l : is_config l -> is_layout l. Proof. destruct l; simpl; auto. Qed.
Lemma keep_conf c c' (P : loc -> Prop) : changes_only c c' P -> (forall l, P l -> ~ is_config l) -> forall l, is_config l -> peek c' l = peek c l.
Proof. intros H N l L. apply H. intros K. now apply N in K. Qed.
Lemma sized_conf c c' : sized c -> (forall l, is_config l -> peek c' l = peek c l) -> sized c'.
Proof.
  intros [H1 H2] L. assert (Q : x_q c' = x_q c) by (pose proof (L LQty I) as K; simpl in K; congruence). split.
  - intros b. destruct (H1 b) as (k & A & B). exists k. rewrite (L (LRegLen b) I), Q. auto.
  - destruct H2 as (k & A & B). exists k. rewrite (L LTmLen I), Q. auto.
Qed.
Lemma outs_conf c c' : outs_sized c -> (forall l, is_config l -> peek c' l = peek c l) -> outs_sized c'.
Proof.
  intros H L. assert (Q : x_io c' = x_io c) by (pose proof (L LIo I) as K; simpl in K; congruence). destruct H as [H|H].
  - left. rewrite (L LOutCount I). auto.
  - right. intros m M. rewrite Q in M. destruct (H m M) as (id & qd & qa & H1 & H2). exists id, qd, qa. rewrite (L (LOutMeta m) I). split; auto.
    intros k. rewrite (L (LOutLen m k) I). auto.
Qed.
Lemma ins_conf c c' : ins_sized c -> (forall l, is_config l -> peek c' l = peek c l) -> ins_sized c'.
Proof.
  intros H L. assert (Q : x_io c' = x_io c) by (pose proof (L LIo I) as K; simpl in K; congruence). destruct H as [H|H].
  - left. rewrite (L LInCount I). auto.
  - right. intros m M. rewrite Q in M. destruct (H m M) as (id & qd & qa & H1 & H2). exists id, qd, qa. rewrite (L (LInMeta m) I). split; auto.
    intros k. rewrite (L (LInLen m k) I). auto.
Qed.
Lemma conf_q c c' : (forall l, is_config l -> peek c' l = peek c l) -> x_q c' = x_q c /\ x_io c' = x_io c /\ x_h c' = x_h c.
Proof. intros L. pose proof (L LQty I) as K. pose proof (L LIo I) as K1. pose proof (L LHooks I) as K2. simpl in *. split; [congruence|split; congruence]. Qed.
Lemma ready_conf c c' : task_ready c -> (forall l, is_config l -> peek c' l = peek c l) -> task_ready c'.
Proof.
  intros [A B C D F G] L. constructor; [|eapply sized_conf|eapply outs_conf|eapply ins_conf| |]; eauto.
  - now rewrite (L LHooks I).
  - rewrite (L LIo I), (L LInCount I), (L LOutCount I). auto.
  - now rewrite (L LNets I).
Qed.
Lemma flag_conf c c' l : (forall l, is_config l -> peek c' l = peek c l) -> flag_place c' l <-> flag_place c l.
Proof. intros L. destruct (conf_q _ _ L) as (Q & _). unfold flag_place. now rewrite Q. Qed.
Lemma output_conf c c' l : (forall l, is_config l -> peek c' l = peek c l) -> output_place c' l <-> output_place c l.
Proof.
  intros L. destruct (conf_q _ _ L) as (_ & Q & _). unfold output_place. rewrite Q.
  split; intros (m & id & qd & qa & i & M & ME & K); exists m, id, qd, qa, i; split; auto; pose proof (L (LOutMeta m) I) as X1;
    pose proof (L (LOutLen m K_Q) I) as X2; pose proof (L (LOutLen m K_Qh) I) as X3; pose proof (L (LOutLen m K_QW) I) as X4; pose proof (L (LOutLen m K_QWh) I) as X5.
  - rewrite X1, X2, X3, X4, X5 in *. auto.
  - rewrite X1, X2, X3, X4, X5. auto.
Qed.
Lemma input_conf c c' l : (forall l, is_config l -> peek c' l = peek c l) -> input_place c' l <-> input_place c l.
Proof.
  intros L. destruct (conf_q _ _ L) as (_ & Q & _). unfold input_place. rewrite Q.
  split; intros (m & id & qd & qa & i & M & ME & K); exists m, id, qd, qa, i; split; auto; pose proof (L (LInMeta m) I) as X1;
    pose proof (L (LInLen m K_I) I) as X2; pose proof (L (LInLen m K_Ih) I) as X3; pose proof (L (LInLen m K_IW) I) as X4; pose proof (L (LInLen m K_IWh) I) as X5.
  - rewrite X1, X2, X3, X4, X5 in *. auto.
  - rewrite X1, X2, X3, X4, X5. auto.
Qed.
Lemma digital_conf c c' l : (forall l, is_config l -> peek c' l = peek c l) -> with_digital c' l <-> with_digital c l.
Proof.
  intros L. unfold with_digital. destruct l; try tauto; split; intros (id & qd & qa & ME & K); exists id, qd, qa;
    [pose proof (L (LInMeta m) I) as X1; pose proof (L (LInLen m K_I) I) as X2; pose proof (L (LInLen m K_Ih) I) as X3..|
     pose proof (L (LOutMeta m) I) as X1; pose proof (L (LOutLen m K_Q) I) as X2; pose proof (L (LOutLen m K_Qh) I) as X3|
     pose proof (L (LOutMeta m) I) as X1; pose proof (L (LOutLen m K_Q) I) as X2; pose proof (L (LOutLen m K_Qh) I) as X3];
    rewrite X1, X2, X3 in * || rewrite X1, X2, X3; auto.
Qed.
Lemma past_conf h : is_past h -> ~ is_config h.
Proof. intros (l & P). destruct l; try discriminate; [destruct b|destruct k|destruct k]; try discriminate; injection P as <-; auto. Qed.
Lemma past_not_stats h : is_past h -> h <> LStats /\ h <> LState /\ h <> LWof.
Proof. intros (l & P). destruct l; try discriminate; [destruct b|destruct k|destruct k]; try discriminate; injection P as <-; auto; repeat split; discriminate. Qed.
Lemma remembered_past K c c' : remembered K c c' -> changes_only c c' is_past.
Proof. intros [_ H]. eapply changes_mono; [|exact H]. intros l (x & _ & P). exists x. auto. Qed.
Lemma names_conf c i n r col l : names c i n r col l -> ~ is_config l.
Proof.
  intros H L. destruct (names_place _ _ _ _ _ _ H (conf_layout _ L)) as (a & b & d & e & f & _ & ->). auto.
Qed.
Lemma scan_conf c l : scan_writes c l -> ~ is_config l.
Proof.
  intros [H|[H|[H|H]]] L.
  - simpl in H. destruct H as [<-|[<-|[<-|[<-|[]]]]]; auto.
  - decompose [ex and] H. now subst.
  - decompose [ex and] H. eapply names_conf; eauto.
  - destruct H as (k & js & j & _ & _ & _ & _ & _ & ->). auto.
Qed.

Lemma Forall2_mono {A B} (P Q : A -> B -> Prop) l l' : (forall a b, P a b -> Q a b) -> Forall2 P l l' -> Forall2 Q l l'.
Proof. intros H. induction 1; auto. Qed.

Section Cycle.
Variables (E : env) (W : event -> loc -> Prop).
Hypothesis CB : callbacks E W.
Let CA := cb_act E W CB.
Lemma cb_conf ev l : W ev l -> ~ is_config l.
Proof. intros H L. apply (cb_layout E W CB ev l H). now apply conf_layout. Qed.
Lemma cb_env : env_writes E (during_scan W).
Proof.
  split.
  - intros k ev c H. eapply changes_mono; [|apply CA]. intros l K. exists ev. split; auto. destruct ev; simpl in *; auto.
  - intros k id col row c. eapply changes_mono; [|apply (cb_foreign E W CB)]. intros l K. exists (EvForeign id col row). split; auto. exact I.
Qed.
Lemma cb_during l : during_scan W l -> ~ is_layout l.
Proof. intros (ev & _ & H). eapply cb_layout; eauto. Qed.

Lemma emit_split ev s s' : emit E ev s = Ok (tt, s') -> calls s s' [ev] /\ changes_only (s_ctx s) (s_ctx s') (W ev).
Proof. intros H. injection H as <-. split; [reflexivity|]. apply CA. Qed.
Lemma hook_split p ev s s' : hook E p ev s = Ok (tt, s') ->
  calls s s' (optional (p (x_h (s_ctx s))) ev) /\ changes_only (s_ctx s) (s_ctx s') (W ev).
Proof.
  unfold hook, bind, getc. simpl. unfold optional. destruct (p (x_h (s_ctx s))); intros H; [now apply emit_split|].
  injection H as <-. split; [reflexivity|apply changes_refl].
Qed.
Lemma calls_trans a b d l1 l2 : calls a b l1 -> calls b d l2 -> calls a d (l1 ++ l2).
Proof. unfold calls. intros A B. rewrite B, A, rev_app_distr, app_assoc. auto. Qed.
Lemma calls_nil a b : s_tr b = s_tr a -> calls a b []. Proof. intros H. exact H. Qed.

(** Reading. *)
Lemma read_split f n s s' : filled (io_rq (x_io (s_ctx s))) (io_rd (x_io (s_ctx s))) -> (n + f = io_rq (x_io (s_ctx s)))%nat ->
  read_loop E f n s = Ok (tt, s') ->
  calls s s' (map EvRead (seq n f)) /\ changes_only (s_ctx s) (s_ctx s') (fun l => exists m, (m < io_rq (x_io (s_ctx s)))%nat /\ W (EvRead m) l).
Proof.
  revert n s. induction f as [|f IH]; intros n s FI NF H; simpl in H; unfold bind at 1, getc in H; cbv beta iota in H.
  - destruct (Nat.ltb_spec n (io_rq (x_io (s_ctx s)))) as [L|L]; [lia|]. injection H as <-. split; [reflexivity|apply changes_refl].
  - destruct (Nat.ltb_spec n (io_rq (x_io (s_ctx s)))) as [L|L]; [|lia]. unfold bind at 1, lift in H. rewrite (pget_nat _ _ _ (FI n L)) in H. cbv beta iota in H.
    unfold bind in H. destruct (emit E (EvRead n) s) as [[[] s1]| |] eqn:EM; try discriminate. destruct (emit_split _ _ _ EM) as [C1 C2].
    assert (L1 : forall l, is_config l -> peek (s_ctx s1) l = peek (s_ctx s) l) by (apply (keep_conf _ _ _ C2); intros; eapply cb_conf; eauto).
    destruct (conf_q _ _ L1) as (_ & Q & _). apply IH in H; rewrite ?Q; auto; [|lia]. rewrite Q in H. destruct H as [H1 H2]. split.
    + apply (calls_trans s s1 s' [EvRead n] _ C1 H1).
    + eapply changes_trans; [|exact H2]. eapply changes_mono; [|exact C2]. intros l K. exists n. auto.
Qed.
Lemma reads_split s s' : filled (io_rq (x_io (s_ctx s))) (io_rd (x_io (s_ctx s))) -> read_inputs E s = Ok (tt, s') ->
  calls s s' (map EvRead (seq 0 (io_rq (x_io (s_ctx s))))) /\ changes_only (s_ctx s) (s_ctx s') (fun l => exists m, (m < io_rq (x_io (s_ctx s)))%nat /\ W (EvRead m) l).
Proof.
  intros FI H. unfold read_inputs, bind, getc in H. destruct (is_null (io_rd (x_io (s_ctx s)))) eqn:N.
  - injection H as <-. destruct (io_rq (x_io (s_ctx s))) as [|k] eqn:Q; [split; [reflexivity|apply changes_refl]|].
    specialize (FI 0%nat). destruct (io_rd (x_io (s_ctx s))); [discriminate|]. discriminate FI. lia.
  - apply read_split in H; auto.
Qed.
(** Writing. *)
Definition writers (c : ctx) (l : loc) : Prop := exists m q qw, (m < io_wq (x_io c))%nat /\ W (EvWrite m q qw) l.
Lemma handed_hands n c : hands c n (EvWrite n (fst (handed n c)) (snd (handed n c))).
Proof.
  exists (fst (handed n c)), (snd (handed n c)). split; auto. intros i. unfold handed. simpl.
  destruct (x_out c) as [l|]; [|auto]. simpl. destruct (nth_error l n); auto.
Qed.
Lemma write_split f n s s' : filled (io_wq (x_io (s_ctx s))) (io_wr (x_io (s_ctx s))) -> (n + f = io_wq (x_io (s_ctx s)))%nat ->
  write_loop E f n s = Ok (tt, s') ->
  changes_only (s_ctx s) (s_ctx s') (writers (s_ctx s))
  /\ exists ws, calls s s' ws /\ Forall2 (fun m ev => exists c, changes_only (s_ctx s) c (writers (s_ctx s)) /\ hands c m ev) (seq n f) ws.
Proof.
  revert n s. induction f as [|f IH]; intros n s FI NF H; simpl in H; unfold bind at 1, getc in H; cbv beta iota in H.
  - destruct (Nat.ltb_spec n (io_wq (x_io (s_ctx s)))) as [L|L]; [lia|]. injection H as <-. split; [apply changes_refl|]. exists []. split; [reflexivity|constructor].
  - destruct (Nat.ltb_spec n (io_wq (x_io (s_ctx s)))) as [L|L]; [|lia]. unfold bind at 1, lift in H. rewrite (pget_nat _ _ _ (FI n L)) in H. cbv beta iota in H.
    unfold bind in H. destruct (emit E _ s) as [[[] s1]| |] eqn:EM; try discriminate. destruct (emit_split _ _ _ EM) as [C1 C2].
    assert (L1 : forall l, is_config l -> peek (s_ctx s1) l = peek (s_ctx s) l) by (apply (keep_conf _ _ _ C2); intros; eapply cb_conf; eauto).
    assert (C3 : changes_only (s_ctx s) (s_ctx s1) (writers (s_ctx s))).
    { eapply changes_mono; [|exact C2]. intros l K. eexists n, _, _. split; eauto. }
    destruct (conf_q _ _ L1) as (_ & Q & _). apply IH in H; rewrite ?Q; auto; [|lia]. unfold writers in H. rewrite Q in H. fold (writers (s_ctx s)) in H. destruct H as (H1 & ws & H2 & H3). split.
    + eapply changes_trans; eauto.
    + eexists (_ :: ws). split; [apply (calls_trans s s1 s' [_] _ C1 H2)|]. simpl. constructor.
      * exists (s_ctx s). split; [apply changes_refl|apply handed_hands].
      * eapply Forall2_mono; [|exact H3]. intros m ev (c & K1 & K2). exists c. split; auto. eapply changes_trans; eauto.
Qed.
Lemma writes_split s s' : filled (io_wq (x_io (s_ctx s))) (io_wr (x_io (s_ctx s))) -> write_outputs E s = Ok (tt, s') ->
  changes_only (s_ctx s) (s_ctx s') (writers (s_ctx s))
  /\ exists ws, calls s s' ws /\ Forall2 (fun m ev => exists c, changes_only (s_ctx s) c (writers (s_ctx s)) /\ hands c m ev) (seq 0 (io_wq (x_io (s_ctx s)))) ws.
Proof.
  intros FI H. unfold write_outputs, bind, getc in H. destruct (is_null (io_wr (x_io (s_ctx s)))) eqn:N.
  - injection H as <-. split; [apply changes_refl|]. exists []. split; [reflexivity|]. destruct (io_wq (x_io (s_ctx s))) as [|k] eqn:Q; [constructor|].
    specialize (FI 0%nat). destruct (io_wr (x_io (s_ctx s))); [discriminate|]. discriminate FI. lia.
  - apply write_split in H; auto.
Qed.
(** Measuring. *)
Lemma time_split s s' : h_millis (x_h (s_ctx s)) = true -> scan_time E s = Ok (tt, s') ->
  exists t si1 si2, calls s s' (EvMillis t :: optional (alarm (s_ctx s) (si_actual si2) && h_panic (x_h (s_ctx s))) EvPanic)
    /\ 0 <= t < 2 ^ 64 /\ scan_stats t si1 = Ok si2 /\ (~ W (EvMillis t) LStats -> peek (s_ctx s) LStats = Some (VStats si1))
    /\ (~ W EvPanic LStats -> peek (s_ctx s') LStats = Some (VStats si2))
    /\ changes_only (s_ctx s) (s_ctx s') (fun l => W (EvMillis t) l \/ W EvPanic l \/ l = LStats \/ (l = LState /\ alarm (s_ctx s) (si_actual si2) = true)).
Proof.
  intros HM H. unfold scan_time in H. unfold bind at 1, getc at 1 in H. rewrite HM in H. unfold bind at 1 in H.
  unfold millis at 1, bind at 1, ret in H. set (t := u64 (clk E (length (s_tr s)))) in *.
  destruct (emit E (EvMillis t) s) as [[[] s1]| |] eqn:EM; try discriminate. destruct (emit_split _ _ _ EM) as [C1 C2].
  unfold bind at 1, getc at 1 in H. unfold bind at 1, lift in H. destruct (scan_stats t (x_si (s_ctx s1))) as [si| |] eqn:SS; try discriminate.
  unfold bind at 1, modc at 1 in H. set (s2 := {| s_ctx := set_x_si si (s_ctx s1); s_tr := s_tr s1 |}) in *.
  assert (L1 : forall l, is_config l -> peek (s_ctx s1) l = peek (s_ctx s) l) by (apply (keep_conf _ _ _ C2); intros; eapply cb_conf; eauto).
  destruct (conf_q _ _ L1) as (Q & _ & QH).
  exists t, (x_si (s_ctx s1)), si. unfold alarm. rewrite <- Q.
  assert (T : 0 <= t < 2 ^ 64) by (unfold t, u64; apply Z.mod_pos_bound; lia).
  assert (C4 : changes_only (s_ctx s1) (s_ctx s2) (fun l => l = LStats)) by (intros l K; destruct l; try reflexivity; now contradiction K).
  assert (SP : ~ W (EvMillis t) LStats -> peek (s_ctx s) LStats = Some (VStats (x_si (s_ctx s1)))) by (intros N; rewrite <- (C2 LStats N); reflexivity).
  destruct ((0 <? q_wdg (x_q (s_ctx s1))) && (q_wdg (x_q (s_ctx s1)) <? si_actual si)) eqn:AL.
  - unfold bind, set_state, modc, panic, getc, bind in H. cbn [s_ctx s_tr] in H.
    change (x_h (set_x_state S_ERROR (s_ctx s2))) with (x_h (s_ctx s1)) in H. rewrite QH in H.
    set (s3 := {| s_ctx := set_x_state S_ERROR (s_ctx s2); s_tr := s_tr s2 |}) in *.
    assert (C5 : changes_only (s_ctx s2) (s_ctx s3) (fun l => l = LState)) by (intros l K; destruct l; try reflexivity; now contradiction K).
    assert (CC : changes_only (s_ctx s) (s_ctx s3) (fun l => W (EvMillis t) l \/ W EvPanic l \/ l = LStats \/ l = LState /\ true = true)).
    { intros l K. rewrite C5 by tauto. rewrite C4 by tauto. apply C2. tauto. }
    cbn [andb]. destruct (h_panic (x_h (s_ctx s))).
    + destruct (emit_split _ _ _ H) as [C6 C7]. split; [|split; [auto|split; [auto|split; [auto|split]]]].
      * apply (calls_trans s s1 s' [_] [_] C1). exact C6.
      * intros N. rewrite (C7 LStats N). reflexivity.
      * eapply changes_trans; [exact CC|]. eapply changes_mono; [|exact C7]. auto.
    + injection H as <-. split; [|split; [auto|split; [auto|split; [auto|split]]]].
      * exact C1.
      * intros N. reflexivity.
      * exact CC.
  - injection H as <-. cbn [andb]. split; [|split; [auto|split; [auto|split; [auto|split]]]].
    + exact C1.
    + intros N. reflexivity.
    + intros l K. rewrite C4 by tauto. apply C2. tauto.
Qed.

(** The first part of a cycle, up to the scan. *)
Record opening (s : st) (t0 : Z) (s1 s2 s3 s4 s5 : st) : Prop := {
  op_clock : calls s s1 [EvMillis t0];
  op_clock_range : 0 <= t0 < 2 ^ 64;
  op_clock_changes : changes_only (s_ctx s) (s_ctx s1) (fun l => W (EvMillis t0) l \/ l = LStats);
  op_stats : forall si, ~ W (EvMillis t0) LStats -> peek (s_ctx s) LStats = Some (VStats si) -> peek (s_ctx s1) LStats = Some (VStats (set_si_start t0 si));
  op_before : calls s1 s2 (optional (h_before (x_h (s_ctx s))) EvBefore);
  op_before_changes : changes_only (s_ctx s1) (s_ctx s2) (W EvBefore);
  op_in_hist : s_tr s3 = s_tr s2 /\ remembered (input_kept (s_ctx s)) (s_ctx s2) (s_ctx s3);
  op_reads : calls s3 s4 (map EvRead (seq 0 (io_rq (x_io (s_ctx s)))));
  op_reads_changes : changes_only (s_ctx s3) (s_ctx s4) (fun l => exists m, (m < io_rq (x_io (s_ctx s)))%nat /\ W (EvRead m) l);
  op_out_hist : s_tr s5 = s_tr s4 /\ remembered (output_kept (s_ctx s)) (s_ctx s4) (s_ctx s5);
  op_conf : forall x l, In x [s1; s2; s3; s4; s5] -> is_config l -> peek (s_ctx x) l = peek (s_ctx s) l }.

Lemma remembered_iff (K K' : loc -> Prop) c c' : (forall l, K l <-> K' l) -> remembered K c c' -> remembered K' c c'.
Proof.
  intros H [A B]. split.
  - intros l h KL. apply A. now apply H.
  - eapply changes_mono; [|exact B]. intros l (x & X & P). exists x. split; auto. now apply H.
Qed.
Lemma restored_iff (K K' : loc -> Prop) c c' : (forall l, K l <-> K' l) -> restored K c c' -> restored K' c c'.
Proof.
  intros H [A B]. split.
  - intros l h KL. apply A. now apply H.
  - eapply changes_mono; [|exact B]. intros l X. now apply H.
Qed.
Lemma updc_ok f s (c' : ctx) : f (s_ctx s) = Ok c' -> updc f s = Ok (tt, {| s_ctx := c'; s_tr := s_tr s |}).
Proof. intros H. unfold updc. now rewrite H. Qed.
Lemma bind_inv {A B} (m : M A) (k : A -> M B) s r : bind m k s = Ok r -> exists a s1, m s = Ok (a, s1) /\ k a s1 = Ok r.
Proof. unfold bind. destruct (m s) as [[a s1]| |]; try discriminate. eauto. Qed.
Lemma lstate_eqb_true a b : lstate_eqb a b = true <-> a = b.
Proof. destruct a, b; simpl; split; congruence. Qed.

Lemma cycle_split s r s' : task_ready (s_ctx s) -> cycle E s = Ok (r, s') ->
  exists t0 s1 s2 s3 s4 s5 s6, opening s t0 s1 s2 s3 s4 s5 /\ scans E s5 s6
    /\ (forall l, is_config l -> peek (s_ctx s6) l = peek (s_ctx s) l)
    /\ ((peek (s_ctx s6) LState = Some (VState S_INV) /\ r = T_exit /\ fault_path E s6 = Ok (tt, s'))
        \/ (peek (s_ctx s6) LState <> Some (VState S_INV) /\ r = T_continue /\ normal_path E s6 = Ok (tt, s'))).
Proof.
  intros RD H. destruct (tr_hooks _ RD) as (h & HH & HM & HD). simpl in HH. injection HH as <-.
  destruct (tr_reads _ RD) as (io & HI & FR & FW & NI & NO). simpl in HI. injection HI as <-.
  unfold cycle in H. unfold bind at 1, getc at 1 in H. rewrite HM in H. apply bind_inv in H as ([] & s1 & H1 & H).
  unfold bind at 1, millis, bind, ret, modc in H1. set (t0 := u64 (clk E (length (s_tr s)))) in *.
  destruct (emit E (EvMillis t0) s) as [[[] s0]| |] eqn:EM; try discriminate. destruct (emit_split _ _ _ EM) as [C1 C2]. injection H1 as H1.
  assert (K1 : changes_only (s_ctx s0) (s_ctx s1) (fun l => l = LStats)) by (subst s1; intros l K; destruct l; try reflexivity; now contradiction K).
  assert (K2 : changes_only (s_ctx s) (s_ctx s1) (fun l => W (EvMillis t0) l \/ l = LStats)) by (intros l K; rewrite K1 by tauto; apply C2; tauto).
  assert (L1 : forall l, is_config l -> peek (s_ctx s1) l = peek (s_ctx s) l).
  { apply (keep_conf _ _ _ K2). intros l [K| ->]; [eapply cb_conf; eauto|auto]. }
  apply bind_inv in H as ([] & s2 & H2 & H). apply hook_split in H2 as [C3 C4].
  assert (L2 : forall l, is_config l -> peek (s_ctx s2) l = peek (s_ctx s) l).
  { intros l L. rewrite <- L1 by auto. apply (keep_conf _ _ _ C4); auto. intros; eapply cb_conf; eauto. }
  destruct (conf_q _ _ L2) as (Q2 & I2 & _).
  unfold bind at 1, getc at 1 in H. rewrite I2 in H.
  assert (G1 : ((0 <? io_rq (x_io (s_ctx s)))%nat && is_null (x_in (s_ctx s2))) = false).
  { destruct (Nat.ltb_spec 0 (io_rq (x_io (s_ctx s)))) as [L|L]; [|auto]. specialize (NI L). rewrite <- L2 in NI by exact I. simpl in NI. destruct (x_in (s_ctx s2)); auto. now contradiction NI. }
  unfold null_guard at 1 in H. rewrite G1 in H. unfold bind at 1, ret at 1 in H.
  apply bind_inv in H as ([] & s3 & H3 & H). destruct (hist_in_ok (s_ctx s2) (ins_conf _ _ (tr_ins _ RD) L2)) as (c3 & U3 & R3).
  rewrite (updc_ok _ _ _ U3) in H3. injection H3 as H3.
  assert (R3' : remembered (input_kept (s_ctx s)) (s_ctx s2) (s_ctx s3)).
  { subst s3. eapply remembered_iff; [|exact R3]. intros l. cbv beta. rewrite input_conf, digital_conf by exact L2. reflexivity. }
  assert (L3 : forall l, is_config l -> peek (s_ctx s3) l = peek (s_ctx s) l).
  { intros l L. rewrite <- L2 by auto. apply (keep_conf _ _ _ (remembered_past _ _ _ R3')); auto. apply past_conf. }
  destruct (conf_q _ _ L3) as (Q3 & I3 & _).
  apply bind_inv in H as ([] & s4 & H4 & H). apply reads_split in H4 as [C5 C6]; [|rewrite I3; auto]. rewrite I3 in C5, C6.
  assert (L4 : forall l, is_config l -> peek (s_ctx s4) l = peek (s_ctx s) l).
  { intros l L. rewrite <- L3 by auto. apply (keep_conf _ _ _ C6); auto. intros x (m & _ & K). eapply cb_conf; eauto. }
  destruct (conf_q _ _ L4) as (Q4 & I4 & _). unfold bind at 1, getc at 1 in H. rewrite I4 in H.
  assert (G2 : ((0 <? io_wq (x_io (s_ctx s)))%nat && is_null (x_out (s_ctx s4))) = false).
  { destruct (Nat.ltb_spec 0 (io_wq (x_io (s_ctx s)))) as [L|L]; [|auto]. specialize (NO L). rewrite <- L4 in NO by exact I. simpl in NO. destruct (x_out (s_ctx s4)); auto. now contradiction NO. }
  unfold null_guard at 1 in H. rewrite G2 in H. unfold bind at 1, ret at 1 in H.
  apply bind_inv in H as ([] & s5 & H5 & H). destruct (hist_out_ok (s_ctx s4) (outs_conf _ _ (tr_outs _ RD) L4)) as (c5 & U5 & R5).
  rewrite (updc_ok _ _ _ U5) in H5. injection H5 as H5.
  assert (R5' : remembered (output_kept (s_ctx s)) (s_ctx s4) (s_ctx s5)).
  { subst s5. eapply remembered_iff; [|exact R5]. intros l. cbv beta. rewrite output_conf, digital_conf by exact L4. reflexivity. }
  assert (L5 : forall l, is_config l -> peek (s_ctx s5) l = peek (s_ctx s) l).
  { intros l L. rewrite <- L4 by auto. apply (keep_conf _ _ _ (remembered_past _ _ _ R5')); auto. apply past_conf. }
  apply bind_inv in H as ([] & s6 & H6 & H).
  assert (SF : changes_only (s_ctx s5) (s_ctx s6) (fun l => scan_writes (s_ctx s5) l \/ during_scan W l)).
  { pose proof (scan_frame E (during_scan W) s5 cb_env cb_during) as X. rewrite (L5 LNets I) in X. specialize (X (tr_nets _ RD)). unfold wp in X. now rewrite H6 in X. }
  assert (L6 : forall l, is_config l -> peek (s_ctx s6) l = peek (s_ctx s) l).
  { intros l L. rewrite <- L5 by auto. apply (keep_conf _ _ _ SF); auto. intros x [K|K]; [eapply scan_conf; eauto|]. destruct K as (ev & _ & K). eapply cb_conf; eauto. }
  exists t0, s1, s2, s3, s4, s5, s6. split.
  { constructor; auto.
    - subst s1. exact C1.
    - unfold t0, u64. apply Z.mod_pos_bound. lia.
    - intros si N K. rewrite <- (C2 LStats N) in K. simpl in K. injection K as <-. subst s1. reflexivity.
    - destruct (conf_q _ _ L1) as (_ & _ & QH). now rewrite <- QH.
    - subst s3. auto.
    - subst s5. auto.
    - intros x l [<-|[<-|[<-|[<-|[<-|[]]]]]]; auto. }
  split; [exact H6|]. split; [exact L6|].
  unfold bind at 1, getc at 1 in H. destruct (lstate_eqb (x_state (s_ctx s6)) S_INV) eqn:SI.
  - apply lstate_eqb_true in SI. left. apply bind_inv in H as ([] & s7 & H7 & H). unfold ret in H. injection H as <- <-. simpl. rewrite SI. auto.
  - right. apply bind_inv in H as ([] & s7 & H7 & H). unfold ret in H. injection H as <- <-. simpl. split; auto. intros K. injection K as K. rewrite K in SI. discriminate.
Qed.

(** The second part after a scan without fault. *)
Record closing (s : st) (t1 : Z) (ws : list event) (si1 si2 : scanint) (s7 s8 s9 s10 s' : st) : Prop := {
  cl_saved : s_tr s7 = s_tr s /\ remembered (saved (s_ctx s)) (s_ctx s) (s_ctx s7);
  cl_writes : calls s7 s8 ws;
  cl_hands : Forall2 (fun m ev => exists c, changes_only (s_ctx s7) c (writers (s_ctx s)) /\ hands c m ev) (seq 0 (io_wq (x_io (s_ctx s)))) ws;
  cl_writes_changes : changes_only (s_ctx s7) (s_ctx s8) (writers (s_ctx s));
  cl_clock : calls s8 s9 (EvMillis t1 :: optional (alarm (s_ctx s) (si_actual si2) && h_panic (x_h (s_ctx s))) EvPanic);
  cl_clock_range : 0 <= t1 < 2 ^ 64;
  cl_stats : scan_stats t1 si1 = Ok si2;
  cl_stats_in : ~ W (EvMillis t1) LStats -> peek (s_ctx s8) LStats = Some (VStats si1);
  cl_stats_out : ~ W EvPanic LStats -> peek (s_ctx s9) LStats = Some (VStats si2);
  cl_clock_changes : changes_only (s_ctx s8) (s_ctx s9) (fun l => W (EvMillis t1) l \/ W EvPanic l \/ l = LStats \/ (l = LState /\ alarm (s_ctx s) (si_actual si2) = true));
  cl_pad : ~ W EvPanic LStats -> calls s9 s10 (optional ((0 <? si_target si2) && (si_actual si2 <? si_target si2)) (EvDelay (si_target si2 - si_actual si2)));
  cl_pad_changes : changes_only (s_ctx s9) (s_ctx s10) (fun l => exists d, W (EvDelay d) l);
  cl_after : calls s10 s' (optional (h_after (x_h (s_ctx s))) EvAfter);
  cl_after_changes : changes_only (s_ctx s10) (s_ctx s') (W EvAfter);
  cl_conf : forall x l, In x [s7; s8; s9; s10; s'] -> is_config l -> peek (s_ctx x) l = peek (s_ctx s) l }.
Lemma alarm_conf c c' d : (forall l, is_config l -> peek c' l = peek c l) -> alarm c' d = alarm c d.
Proof. intros L. destruct (conf_q _ _ L) as (Q & _). unfold alarm. now rewrite Q. Qed.
Lemma normal_split s s' : task_ready (s_ctx s) -> normal_path E s = Ok (tt, s') ->
  exists t1 ws si1 si2 s7 s8 s9 s10, closing s t1 ws si1 si2 s7 s8 s9 s10 s'.
Proof.
  intros RD H. destruct (tr_hooks _ RD) as (h & HH & HM & HD). simpl in HH. injection HH as <-.
  destruct (tr_reads _ RD) as (io & HI & FR & FW & _ & _). simpl in HI. injection HI as <-.
  unfold normal_path in H. apply bind_inv in H as ([] & s7 & H7 & H).
  destruct (save_previous_ok (s_ctx s) (tr_sized _ RD) (tr_outs _ RD)) as (c7 & U7 & R7). rewrite (updc_ok _ _ _ U7) in H7. injection H7 as H7.
  assert (R7' : remembered (saved (s_ctx s)) (s_ctx s) (s_ctx s7)) by (subst s7; exact R7).
  assert (L7 : forall l, is_config l -> peek (s_ctx s7) l = peek (s_ctx s) l) by (apply (keep_conf _ _ _ (remembered_past _ _ _ R7')); apply past_conf).
  destruct (conf_q _ _ L7) as (Q7 & I7 & _).
  apply bind_inv in H as ([] & s8 & H8 & H). apply writes_split in H8 as (C1 & ws & C2 & C3); [|rewrite I7; auto].
  unfold writers in C1, C3. rewrite I7 in C1, C3. fold (writers (s_ctx s)) in C1, C3.
  assert (L8 : forall l, is_config l -> peek (s_ctx s8) l = peek (s_ctx s) l).
  { intros l L. rewrite <- L7 by auto. apply (keep_conf _ _ _ C1); auto. intros x (m & q & qw & _ & K). eapply cb_conf; eauto. }
  destruct (conf_q _ _ L8) as (Q8 & I8 & HK8).
  apply bind_inv in H as ([] & s9 & H9 & H). apply time_split in H9 as (t1 & si1 & si2 & T1 & T2 & T3 & T4 & T5 & T6); [|rewrite HK8; auto].
  rewrite (alarm_conf _ _ _ L8), HK8 in *.
  assert (L9 : forall l, is_config l -> peek (s_ctx s9) l = peek (s_ctx s) l).
  { intros l L. rewrite <- L8 by auto. apply (keep_conf _ _ _ T6); auto. intros x [K|[K|[->|[-> _]]]]; auto; eapply cb_conf; eauto. }
  destruct (conf_q _ _ L9) as (Q9 & I9 & HK9).
  apply bind_inv in H as ([] & s10 & H10 & H).
  assert (P1 : ~ W EvPanic LStats -> calls s9 s10 (optional ((0 <? si_target si2) && (si_actual si2 <? si_target si2)) (EvDelay (si_target si2 - si_actual si2)))).
  { intros N. specialize (T5 N). simpl in T5. injection T5 as T5. unfold padding, bind, getc in H10. rewrite HK9, HD, T5, andb_true_r in H10.
    destruct ((0 <? si_target si2) && (si_actual si2 <? si_target si2)); [apply emit_split in H10 as [K _]; exact K|]. injection H10 as <-. reflexivity. }
  assert (P2 : changes_only (s_ctx s9) (s_ctx s10) (fun l => exists d, W (EvDelay d) l)).
  { unfold padding, bind, getc in H10. destruct (_ && _ && _); [|injection H10 as <-; apply changes_refl].
    apply emit_split in H10 as [_ K]. eapply changes_mono; [|exact K]. eauto. }
  assert (L10 : forall l, is_config l -> peek (s_ctx s10) l = peek (s_ctx s) l).
  { intros l L. rewrite <- L9 by auto. apply (keep_conf _ _ _ P2); auto. intros x (d & K). eapply cb_conf; eauto. }
  destruct (conf_q _ _ L10) as (Q10 & I10 & HK10).
  apply hook_split in H as [C4 C5]. rewrite HK10 in C4.
  exists t1, ws, si1, si2, s7, s8, s9, s10. constructor; auto.
  - subst s7. auto.
  - intros x l [<-|[<-|[<-|[<-|[<-|[]]]]]] L; auto. rewrite <- L10 by auto. apply (keep_conf _ _ _ C5); auto. intros; eapply cb_conf; eauto.
Qed.

(** The second part after a fault. [sf] is the state in which the write functions are called. *)
Record undone (c cf : ctx) : Prop := {
  un_state : peek cf LState = Some (VState S_EXIT_TSK);
  un_wof : peek cf LWof = peek c LWof;
  un_flags : forall l h, flag_place c l -> past l = Some h -> peek cf l = peek c h;
  un_regs : forall l, reg_place c l -> peek cf l = Some (VZ 0);
  un_kept : forall l h, peek c LWof = Some (VB true) -> output_kept c l -> past l = Some h -> peek cf l = peek c h;
  un_zero : forall l, peek c LWof = Some (VB false) -> driven c l -> peek cf l = Some (VZ 0);
  un_changes : changes_only c cf (fun l => l = LState \/ flag_place c l \/ reg_place c l \/ is_past l
     \/ exists m k i id qd qa, (m < io_wq (x_io c))%nat /\ peek c (LOutMeta m) = Some (VMeta id qd qa) /\ (0 < qd)%nat /\ (i < ports qd qa k)%nat /\ l = LOut m k i) }.
Lemma reg_conf c c' l : (forall l, is_config l -> peek c' l = peek c l) -> reg_place c' l <-> reg_place c l.
Proof. intros L. destruct (conf_q _ _ L) as (Q & _). unfold reg_place. now rewrite Q. Qed.
Lemma past_inv h : is_past h -> (exists b i, is_bhist b = true /\ h = LReg b i) \/ (exists m k i, is_hist k = true /\ h = LOut m k i) \/ (exists m k i, is_ihist k = true /\ h = LIn m k i).
Proof.
  intros (l & P). destruct l; try discriminate; [destruct b|destruct k|destruct k]; try discriminate; injection P as <-;
    first [left; eexists _, _; split; [|reflexivity]; reflexivity | right; left; eexists _, _, _; split; [|reflexivity]; reflexivity
          | right; right; eexists _, _, _; split; [|reflexivity]; reflexivity].
Qed.
Lemma flag_not_past c l : flag_place c l -> ~ is_past l.
Proof.
  intros (b & i & IB & _ & ->) P. apply past_inv in P as [(b' & i' & H & K)|[(m & k & i' & H & K)|(m & k & i' & H & K)]]; try discriminate.
  injection K as -> ->. simpl in IB. destruct IB as [<-|[<-|[<-|[<-|[<-|[]]]]]]; discriminate.
Qed.
Lemma reg_not_past c l : reg_place c l -> ~ is_past l.
Proof.
  intros [(b & i & IB & _ & ->)|(i & _ & ->)] P; apply past_inv in P as [(b' & i' & H & K)|[(m & k & i' & H & K)|(m & k & i' & H & K)]]; try discriminate.
  injection K as -> ->. simpl in IB. destruct IB as [<-|[<-|[<-|[]]]]; discriminate.
Qed.
Lemma output_not_past c l : output_place c l -> ~ is_past l.
Proof.
  intros (m & id & qd & qa & i & _ & _ & [(-> & _)|(-> & _)]) P; apply past_inv in P as [(b' & i' & H & K)|[(m' & k & i' & H & K)|(m' & k & i' & H & K)]]; try discriminate;
    injection K as _ <- _; discriminate.
Qed.
Lemma undo_ok s s' : task_ready (s_ctx s) -> fault_path E s = Ok (tt, s') ->
  exists sf, s_tr sf = s_tr s /\ undone (s_ctx s) (s_ctx sf) /\ (forall l, is_config l -> peek (s_ctx sf) l = peek (s_ctx s) l)
    /\ (write_outputs E ;;; scan_time E ;;; hook E h_after EvAfter)%m sf = Ok (tt, s').
Proof.
  intros RD H. pose proof (tr_sized _ RD) as SZ. pose proof (tr_outs _ RD) as OS.
  unfold fault_path in H. apply bind_inv in H as ([] & s1 & H1 & H). unfold set_state, modc in H1. injection H1 as H1.
  assert (C1 : changes_only (s_ctx s) (s_ctx s1) (fun l => l = LState)) by (subst s1; intros l K; destruct l; try reflexivity; now contradiction K).
  assert (L1 : forall l, is_config l -> peek (s_ctx s1) l = peek (s_ctx s) l) by (apply (keep_conf _ _ _ C1); intros l ->; auto).
  apply bind_inv in H as ([] & s2 & H2 & H). destruct (revert_out_ok (s_ctx s1) (outs_conf _ _ OS L1)) as (c2 & U2 & R2). rewrite (updc_ok _ _ _ U2) in H2. injection H2 as H2.
  assert (R2' : restored (output_kept (s_ctx s)) (s_ctx s1) (s_ctx s2)).
  { subst s2. eapply restored_iff; [|exact R2]. intros l. cbv beta. rewrite output_conf, digital_conf by exact L1. reflexivity. }
  assert (OC : forall l, output_kept (s_ctx s) l -> ~ is_config l) by (intros l [(m & id & qd & qa & i & _ & _ & [(-> & _)|(-> & _)]) _]; auto).
  destruct R2' as [R2a R2b].
  assert (L2 : forall l, is_config l -> peek (s_ctx s2) l = peek (s_ctx s) l) by (intros l L; rewrite <- L1 by auto; apply (keep_conf _ _ _ R2b); auto).
  apply bind_inv in H as ([] & s3 & H3 & H). destruct (revert_memory_ok (s_ctx s2) (sized_conf _ _ SZ L2)) as (c3 & U3 & R3). rewrite (updc_ok _ _ _ U3) in H3. injection H3 as H3.
  assert (R3' : restored (flag_place (s_ctx s)) (s_ctx s2) (s_ctx s3)).
  { subst s3. eapply restored_iff; [|exact R3]. intros l. rewrite flag_conf by exact L2. reflexivity. }
  destruct R3' as [R3a R3b].
  assert (FC : forall l, flag_place (s_ctx s) l -> ~ is_config l) by (intros l (b & i & _ & _ & ->); auto).
  assert (L3 : forall l, is_config l -> peek (s_ctx s3) l = peek (s_ctx s) l) by (intros l L; rewrite <- L2 by auto; apply (keep_conf _ _ _ R3b); auto).
  apply bind_inv in H as ([] & s4 & H4 & H). destruct (reset_registers_ok (s_ctx s3) (sized_conf _ _ SZ L3)) as (c4 & U4 & R4a & R4b). rewrite (updc_ok _ _ _ U4) in H4. injection H4 as H4.
  assert (R4a' : forall l, reg_place (s_ctx s) l -> peek (s_ctx s4) l = Some (VZ 0)) by (subst s4; intros l K; apply R4a; now apply (reg_conf _ _ _ L3)).
  assert (R4b' : changes_only (s_ctx s3) (s_ctx s4) (reg_place (s_ctx s))) by (subst s4; eapply changes_mono; [|exact R4b]; intros l K; now apply (reg_conf _ _ _ L3)).
  assert (RC : forall l, reg_place (s_ctx s) l -> ~ is_config l) by (intros l [(b & i & _ & _ & ->)|(i & _ & ->)]; auto).
  assert (L4 : forall l, is_config l -> peek (s_ctx s4) l = peek (s_ctx s) l) by (intros l L; rewrite <- L3 by auto; apply (keep_conf _ _ _ R4b'); auto).
  apply bind_inv in H as ([] & s5 & H5 & H). destruct (save_previous_ok (s_ctx s4) (sized_conf _ _ SZ L4) (outs_conf _ _ OS L4)) as (c5 & U5 & R5). rewrite (updc_ok _ _ _ U5) in H5. injection H5 as H5.
  assert (R5' : changes_only (s_ctx s4) (s_ctx s5) is_past) by (subst s5; apply (remembered_past _ _ _ R5)).
  assert (L5 : forall l, is_config l -> peek (s_ctx s5) l = peek (s_ctx s) l) by (intros l L; rewrite <- L4 by auto; apply (keep_conf _ _ _ R5'); auto; apply past_conf).
  unfold bind at 1, getc at 1 in H.
  assert (W5 : peek (s_ctx s5) LWof = peek (s_ctx s) LWof).
  { rewrite R5' by (intros K; apply past_not_stats in K; tauto). rewrite R4b' by (intros [(b & i & _ & _ & K)|(i & _ & K)]; discriminate). rewrite R3b by (intros (b & i & _ & _ & K); discriminate).
    rewrite R2b by (intros [(m & id & qd & qa & i & _ & _ & [(K & _)|(K & _)]) _]; discriminate). apply C1. discriminate. }
  assert (X5 : changes_only (s_ctx s) (s_ctx s5) (fun l => l = LState \/ flag_place (s_ctx s) l \/ reg_place (s_ctx s) l \/ is_past l \/ output_kept (s_ctx s) l)).
  { intros l K. rewrite R5', R4b', R3b, R2b, C1 by tauto. auto. }
  assert (SP : peek (s_ctx s5) LState = Some (VState S_EXIT_TSK)).
  { rewrite R5' by (intros K; apply past_not_stats in K; tauto). rewrite R4b' by (intros [(b & i & _ & _ & K)|(i & _ & K)]; discriminate). rewrite R3b by (intros (b & i & _ & _ & K); discriminate).
    rewrite R2b by (intros [(m & id & qd & qa & i & _ & _ & [(K & _)|(K & _)]) _]; discriminate). subst s1. reflexivity. }
  assert (FL : forall l h, flag_place (s_ctx s) l -> past l = Some h -> peek (s_ctx s5) l = peek (s_ctx s) h).
  { intros l h K P. rewrite R5' by (eapply flag_not_past; eauto).
    assert (NR : ~ reg_place (s_ctx s) l).
    { destruct K as (b & i & IB & _ & ->). intros [(b' & i' & IB' & _ & Q)|(i' & _ & Q)]; [|discriminate]. injection Q as <- <-. simpl in IB, IB'. decompose [or] IB; decompose [or] IB'; congruence || contradiction. }
    rewrite R4b' by auto. rewrite (R3a l h K P).
    assert (HP : is_past h) by (exists l; auto).
    rewrite R2b by (intros [Q _]; now apply (output_not_past _ _ Q)). apply C1. apply past_not_stats in HP. tauto. }
  assert (RG : forall l, reg_place (s_ctx s) l -> peek (s_ctx s5) l = Some (VZ 0)) by (intros l K; rewrite R5' by (eapply reg_not_past; eauto); auto).
  assert (KP : forall l h, output_kept (s_ctx s) l -> past l = Some h -> peek (s_ctx s5) l = peek (s_ctx s) h).
  { intros l h K P. rewrite R5' by (eapply output_not_past; apply K).
    assert (LL : exists m k i, l = LOut m k i) by (destruct K as [(m & id & qd & qa & i & _ & _ & [(-> & _)|(-> & _)]) _]; eauto). destruct LL as (m & k & i & ->).
    rewrite R4b' by (intros [(b & i' & _ & _ & Q)|(i' & _ & Q)]; discriminate). rewrite R3b by (intros (b & i' & _ & _ & Q); discriminate). rewrite (R2a _ h K P).
    apply C1. intros ->. destruct k; discriminate. }
  assert (KD : forall l, output_kept (s_ctx s) l -> exists m k i id qd qa, (m < io_wq (x_io (s_ctx s)))%nat /\ peek (s_ctx s) (LOutMeta m) = Some (VMeta id qd qa) /\ (0 < qd)%nat /\ (i < ports qd qa k)%nat /\ l = LOut m k i).
  { intros l [(m & id & qd & qa & i & M & ME & [(-> & LI & _)|(-> & LI & _)]) (id' & qd' & qa' & ME' & P & _)]; rewrite ME in ME'; injection ME' as <- <- <-;
      [exists m, K_Q, i, id, qd, qa|exists m, K_QW, i, id, qd, qa]; auto. }
  destruct (x_wof (s_ctx s5)) eqn:WF.
  - exists s5. split; [subst s5 s4 s3 s2 s1; reflexivity|]. split; [|split; [exact L5|exact H]]. constructor; auto.
    + intros l K. rewrite <- W5 in K. simpl in K. rewrite WF in K. discriminate.
    + eapply changes_mono; [|exact X5]. intros l [K|[K|[K|[K|K]]]]; auto 10.
  - apply bind_inv in H as ([] & s6 & H6 & H). destruct (clear_out_ok (s_ctx s5) (outs_conf _ _ OS L5)) as (c6 & U6 & R6a & R6b). rewrite (updc_ok _ _ _ U6) in H6. injection H6 as H6.
    destruct (conf_q _ _ L5) as (Q5 & I5 & _). rewrite I5 in R6a, R6b.
    assert (R6b' : changes_only (s_ctx s5) (s_ctx s6) (fun l => exists m k i id qd qa, (m < io_wq (x_io (s_ctx s)))%nat /\ peek (s_ctx s) (LOutMeta m) = Some (VMeta id qd qa) /\ (0 < qd)%nat /\ (i < ports qd qa k)%nat /\ l = LOut m k i)).
    { subst s6. eapply changes_mono; [|exact R6b]. intros l (m & k & i & M & -> & _ & id & qd & qa & ME & L & P). rewrite L5 in ME by exact I. exists m, k, i, id, qd, qa. auto. }
    assert (L6 : forall l, is_config l -> peek (s_ctx s6) l = peek (s_ctx s) l).
    { intros l L. rewrite <- L5 by auto. apply (keep_conf _ _ _ R6b'); auto. intros x (m & k & i & id & qd & qa & _ & _ & _ & _ & ->). auto. }
    assert (N6 : forall l, (forall m k i, l <> LOut m k i) -> peek (s_ctx s6) l = peek (s_ctx s5) l).
    { intros l N. apply R6b'. intros (m & k & i & id & qd & qa & _ & _ & _ & _ & K). now apply (N m k i). }
    exists s6. split; [subst s6 s5 s4 s3 s2 s1; reflexivity|]. split; [|split; [exact L6|exact H]]. constructor.
    + rewrite N6 by discriminate. auto.
    + rewrite N6 by discriminate. auto.
    + intros l h K P. rewrite N6 by (destruct K as (b & i & _ & _ & ->); discriminate). auto.
    + intros l K. rewrite N6 by (destruct K as [(b & i & _ & _ & ->)|(i & _ & ->)]; discriminate). auto.
    + intros l h K. rewrite <- W5 in K. simpl in K. rewrite WF in K. discriminate.
    + intros l _ (m & k & i & id & qd & qa & M & ME & HK & L & LK & P & LQ & ->). subst s6. apply (R6a m k i id qd qa); rewrite ?L5 by exact I; auto.
    + intros l K. rewrite R6b' by tauto. apply X5. intros [Q|[Q|[Q|[Q|Q]]]]; apply K; auto 10.
Qed.
Record fault_closing (s : st) (t1 : Z) (ws : list event) (si1 si2 : scanint) (sf s8 s9 s' : st) : Prop := {
  fc_undone : s_tr sf = s_tr s /\ undone (s_ctx s) (s_ctx sf);
  fc_writes : calls sf s8 ws;
  fc_hands : Forall2 (fun m ev => exists c, changes_only (s_ctx sf) c (writers (s_ctx s)) /\ hands c m ev) (seq 0 (io_wq (x_io (s_ctx s)))) ws;
  fc_writes_changes : changes_only (s_ctx sf) (s_ctx s8) (writers (s_ctx s));
  fc_clock : calls s8 s9 (EvMillis t1 :: optional (alarm (s_ctx s) (si_actual si2) && h_panic (x_h (s_ctx s))) EvPanic);
  fc_clock_range : 0 <= t1 < 2 ^ 64;
  fc_stats : scan_stats t1 si1 = Ok si2;
  fc_stats_in : ~ W (EvMillis t1) LStats -> peek (s_ctx s8) LStats = Some (VStats si1);
  fc_clock_changes : changes_only (s_ctx s8) (s_ctx s9) (fun l => W (EvMillis t1) l \/ W EvPanic l \/ l = LStats \/ (l = LState /\ alarm (s_ctx s) (si_actual si2) = true));
  fc_after : calls s9 s' (optional (h_after (x_h (s_ctx s))) EvAfter);
  fc_after_changes : changes_only (s_ctx s9) (s_ctx s') (W EvAfter);
  fc_conf : forall x l, In x [sf; s8; s9; s'] -> is_config l -> peek (s_ctx x) l = peek (s_ctx s) l }.
Lemma fault_split s s' : task_ready (s_ctx s) -> fault_path E s = Ok (tt, s') ->
  exists t1 ws si1 si2 sf s8 s9, fault_closing s t1 ws si1 si2 sf s8 s9 s'.
Proof.
  intros RD H. destruct (tr_hooks _ RD) as (h & HH & HM & HD). simpl in HH. injection HH as <-.
  destruct (tr_reads _ RD) as (io & HI & FR & FW & _ & _). simpl in HI. injection HI as <-.
  destruct (undo_ok s s' RD H) as (sf & TF & UF & L7 & HF). clear H. rename HF into H.
  destruct (conf_q _ _ L7) as (Q7 & I7 & _).
  apply bind_inv in H as ([] & s8 & H8 & H). apply writes_split in H8 as (C1 & ws & C2 & C3); [|rewrite I7; auto].
  unfold writers in C1, C3. rewrite I7 in C1, C3. fold (writers (s_ctx s)) in C1, C3.
  assert (L8 : forall l, is_config l -> peek (s_ctx s8) l = peek (s_ctx s) l).
  { intros l L. rewrite <- L7 by auto. apply (keep_conf _ _ _ C1); auto. intros x (m & q & qw & _ & K). eapply cb_conf; eauto. }
  destruct (conf_q _ _ L8) as (Q8 & I8 & HK8).
  apply bind_inv in H as ([] & s9 & H9 & H). apply time_split in H9 as (t1 & si1 & si2 & T1 & T2 & T3 & T4 & T5 & T6); [|rewrite HK8; auto].
  rewrite (alarm_conf _ _ _ L8), HK8 in *.
  assert (L9 : forall l, is_config l -> peek (s_ctx s9) l = peek (s_ctx s) l).
  { intros l L. rewrite <- L8 by auto. apply (keep_conf _ _ _ T6); auto. intros x [K|[K|[->|[-> _]]]]; auto; eapply cb_conf; eauto. }
  destruct (conf_q _ _ L9) as (Q9 & I9 & HK9). apply hook_split in H as [C4 C5]. rewrite HK9 in C4.
  exists t1, ws, si1, si2, sf, s8, s9. constructor; auto.
  intros x l [<-|[<-|[<-|[<-|[]]]]] L; auto. rewrite <- L9 by auto. apply (keep_conf _ _ _ C5); auto. intros; eapply cb_conf; eauto.
Qed.
End Cycle.
