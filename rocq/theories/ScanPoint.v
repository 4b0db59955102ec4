(** States inside a scan. *)
From Verif Require Export Cycle ScanOutcome.

Lemma plan_cells c n r col k : In (k, r, col) (net_cells c n) -> k = n /\ exists rows cols, peek c (LNet n) = Some (VNet true rows cols) /\ (r < rows)%nat /\ (col < cols)%nat
  /\ multi (code_at c n r col) = false.
Proof.
  unfold net_cells, plan. destruct (peek c (LNet n)) as [v|] eqn:P; [|intros []]. destruct v; try (intros []; fail). destruct en; [|intros []].
  intros H. apply in_flat_map in H as (x & H & K). pose proof (plan_ok c n _ _ _ _ _ H) as O.
  destruct x as [|cl rs|]; simpl in K; try contradiction. apply in_map_iff in K as (r' & K & F). injection K as <- <- <-.
  apply filter_In in F as [F1 F2]. destruct O as [O1 O2]. split; auto. exists rows, cols. split; auto. split; auto. split; auto.
  now apply negb_true_iff.
Qed.
Lemma program_cells_in c n r col : In (n, r, col) (program_cells c) -> exists rows cols, scanned c n rows cols /\ (r < rows)%nat /\ (col < cols)%nat
  /\ multi (code_at c n r col) = false.
Proof.
  intros H. apply in_flat_map in H as (k & K & H). apply in_seq in K. apply plan_cells in H as (-> & rows & cols & A & B). exists rows, cols. split; auto. split; [lia|auto].
Qed.
Lemma code_names c i n r col b dq : peek c (LCell n r col) = Some (VCell b i dq) -> code_at c n r col = i.
Proof. intros H. unfold code_at. now rewrite H. Qed.
Lemma names_past c i n r col l : names c i n r col l -> ~ is_past l.
Proof.
  assert (TP : forall v l, target c v = Some l -> ~ is_past l).
  { intros v l0 T (x & P). unfold target in T.
    destruct (v_type v); cbn [bank_of] in T; try discriminate;
    repeat match type of T with
    | (if ?b then _ else _) = _ => destruct b
    | match ?x with _ => _ end = _ => destruct x
    end; try discriminate; injection T as <-; destruct x; try discriminate; simpl in P;
    repeat match type of P with match ?x with _ => _ end = _ => destruct x end; discriminate. }
  intros [(j & v & _ & _ & T)|[(_ & v & _ & _ & T)|[(_ & v & _ & _ & T)|(_ & n' & r' & c' & a & b & A & ->)]]].
  - eauto.
  - intros (x & P). simpl in T. destruct x; simpl in P; repeat match type of P with match ?x with _ => _ end = _ => destruct x end; try discriminate; injection P as <-;
    decompose [or] T; try discriminate; contradiction.
  - intros (x & P). simpl in T. destruct x; simpl in P; repeat match type of P with match ?x with _ => _ end = _ => destruct x end; try discriminate; injection P as <-;
    decompose [or] T; try discriminate; contradiction.
  - intros (x & P). destruct x; simpl in P; repeat match type of P with match ?x with _ => _ end = _ => destruct x end; discriminate.
Qed.
Lemma scan_past c l : scan_writes c l -> ~ is_past l.
Proof.
  intros [H|[H|[H|H]]] (x & P).
  - destruct x; simpl in P; repeat match type of P with match ?x with _ => _ end = _ => destruct x end; try discriminate; injection P as <-; simpl in H; decompose [or] H; try discriminate; contradiction.
  - decompose [ex and] H. subst. destruct x; simpl in P; repeat match type of P with match ?x with _ => _ end = _ => destruct x end; discriminate.
  - decompose [ex and] H. eapply names_past; [eassumption|exists x; exact P].
  - destruct H as (k & js & j & _ & _ & _ & _ & _ & ->). destruct x; simpl in P; repeat match type of P with match ?x with _ => _ end = _ => destruct x end; discriminate.
Qed.
Lemma scan_stats_kept c l : scan_writes c l -> l <> LStats.
Proof.
  intros [H|[H|[H|H]]] ->.
  - simpl in H. decompose [or] H; try discriminate; contradiction.
  - decompose [ex and] H. discriminate.
  - decompose [ex and] H. match goal with H : names _ _ _ _ _ _ |- _ => destruct H as [(j & v & _ & _ & T)|[(_ & v & _ & _ & T)|[(_ & v & _ & _ & T)|(_ & n' & r' & c' & a & b & A & K)]]] end.
    + now apply target_place in T.
    + simpl in T. decompose [or] T; try discriminate; contradiction.
    + simpl in T. decompose [or] T; try discriminate; contradiction.
    + discriminate.
  - destruct H as (k & js & j & _ & _ & _ & _ & _ & K). discriminate.
Qed.

Section Pt.
Variables (E : env) (W : loc -> Prop) (c0 : ctx).
Hypothesis HE : env_writes E W.
Hypothesis HL : forall l, W l -> ~ is_layout l.
Hypothesis HS : forall k, peek c0 LNets = Some (VN k) -> Z.of_nat k <= 2 ^ 32.
(** Glue changes power everywhere, so power is added to what the outside may change. *)
Definition W2 (l : loc) : Prop := W l \/ exists n r col, l = LPow n r col.
Let HE2 : env_writes E W2.
Proof. destruct HE as [A B]. split; intros; eapply changes_mono; [|apply A; auto| |apply B]; intros l K; left; auto. Qed.
Let HL2 : forall l, W2 l -> ~ is_layout l.
Proof. intros l [K|(n & r & col & ->)]; [now apply HL|auto]. Qed.
Definition J2 (s : st) : Prop := J W2 c0 s.
Lemma glue_ws l : glue W l -> WS W2 c0 l.
Proof. intros [K|[K|K]]; [right; right; auto| |right; left; auto]. left; left. simpl in *. tauto. Qed.
Lemma J2_glue s s' : J2 s -> changes_only (s_ctx s) (s_ctx s') (glue W) -> J2 s'.
Proof. intros H C. apply (J_step W2 c0 s); auto. eapply changes_mono; [|exact C]. apply glue_ws. Qed.
(** One instruction. *)
Lemma J2_executed n r col s e s' : In (n, r, col) (program_cells c0) -> J2 s -> executed E n r col s e s' ->
  exists i b dq, peek c0 (LCell n r col) = Some (VCell b i dq) /\ peek (s_ctx s) (LCell n r col) = Some (VCell b i dq) /\ outcome E i r col s = Some (Ok (e, s'))
    /\ changes_only (s_ctx s) (s_ctx s') (wset W c0 i n r col) /\ J2 s'.
Proof.
  intros IN H (X & b & i & dq & C & O). apply program_cells_in in IN as (rows & cols & SC & R & CO & MU).
  pose proof (J_meta W2 c0 HL2 s (LCell n r col) H I) as MC. rewrite C in MC. exists i, b, dq. split; auto. split; auto. split; auto.
  unfold outcome in O. destruct (ladder_function E i) as [f|] eqn:F; [|discriminate]. injection O as O.
  pose proof (instr_frame E W s n r col HE HL X) as FR.
  assert (N1 : forall a d, peek (s_ctx s) (LNet n) <> Some (VNet false a d)).
  { intros a d. rewrite (J_meta W2 c0 HL2 s (LNet n) H I). destruct SC as [_ ->]. discriminate. }
  assert (N2 : forall k, peek (s_ctx s) LNets = Some (VN k) -> Z.of_nat k <= 2 ^ 32).
  { intros k. rewrite (J_meta W2 c0 HL2 s LNets H I). apply HS. }
  specialize (FR N1 N2 i f F). apply (wp_ok _ _ _ _ _ _ FR) in O. 
  assert (CH : changes_only (s_ctx s) (s_ctx s') (wset W c0 i n r col)).
  { eapply changes_mono; [|exact O]. intros l [[K|[[K1 K2]|[K|K]]]|K]; [left; left; auto| | | |right; auto].
    - left. right. left. split; auto. destruct K2 as [(bk & K2)|K2]; [left; exists bk; rewrite <- (J_meta W2 c0 HL2 s (LRegLen bk) H I)|right; rewrite <- (J_meta W2 c0 HL2 s LTmLen H I)]; auto.
    - left. right; right; left. auto.
    - left. right; right; right. destruct SC as [_ SC]. apply (J_names W2 c0 HL2 s i n r col l rows cols H SC K). }
  split; auto. apply (J_step W2 c0 s); auto. eapply changes_mono; [|exact CH].
  intros l [[->|[[-> _]|[(k & _ & ->)|K]]]|K]; [left; left; simpl; auto|left; left; simpl; auto|right; right; eauto| |right; left; auto].
  left. right; right; left. exists n, r, col, i. split; auto. exists rows, cols, b, dq. auto.
Qed.
Lemma J2_executes l s t : (forall x, In x l -> In x (program_cells c0)) -> J2 s -> executes E W l s t ->
  J2 t /\ forall p, ~ glue W p -> p <> LState -> (forall n r col, In (n, r, col) l -> ~ names c0 (code_at c0 n r col) n r col p) -> peek (s_ctx t) p = peek (s_ctx s) p.
Proof.
  intros IN H X. induction X as [s s' G|n r col l s s1 s2 s3 G EX X IH].
  - split; [eapply J2_glue; eauto|]. intros p P _ _. now apply G.
  - pose proof (J2_glue _ _ H G) as H1. destruct (J2_executed n r col s1 E_OK s2) as (i & b & dq & C0 & C1 & O & CH & H2); auto. { apply IN; simpl; auto. }
    destruct (IH ltac:(intros; apply IN; simpl; auto) H2) as [H3 K]. split; auto. intros p P PS N.
    rewrite K; auto. 2:{ intros; apply N; simpl; auto. } rewrite CH. { now apply G. }
    intros [[->|[[-> _]|[(k & _ & ->)|Y]]]|Y].
    + apply P. right; left; simpl; auto.
    + congruence.
    + apply P. left; eauto.
    + apply (N n r col); [simpl; auto|]. now rewrite (code_names _ _ _ _ _ _ _ C0).
    + apply P. right; right; auto.
Qed.
Lemma cron_J2 a a0 : s_ctx a = c0 -> cron_step E a a0 -> J2 a0.
Proof.
  intros A [C _]. unfold J2, J. rewrite <- A. eapply changes_mono; [|exact C]. rewrite A. intros l [->|K]; [left; left; simpl; auto|]. left; right; right; right; auto.
Qed.
End Pt.

Section R.
Variables (E : env) (W : event -> loc -> Prop) (a : st) (m : Z).
Hypothesis CB : callbacks E W.
Hypothesis SR : scan_ready E (during_scan W) (s_ctx a) m.
Let WD := during_scan W.
Let HE := sr_env _ _ _ _ SR.
Let HL := sr_layout _ _ _ _ SR.
Let HS := sr_nets _ _ _ _ SR.
Lemma reach_frame n r col t e t' : reaches E W a n r col t e t' -> J2 WD (s_ctx a) t /\ J2 WD (s_ctx a) t'.
Proof.
  intros (a0 & b4 & af & C & P & X & EX). pose proof (cron_J2 E WD (s_ctx a) a a0 eq_refl C) as H0.
  destruct (J2_executes E WD (s_ctx a) HE HL HS b4 a0 t) as [H1 _]; auto. { intros x IN. rewrite P. apply in_app_iff. auto. }
  split; auto. destruct (J2_executed E WD (s_ctx a) HE HL HS n r col t e t') as (i & b & dq & _ & _ & _ & _ & H2); auto. rewrite P. apply in_app_iff. right; left; auto.
Qed.
Lemma visit_reach b n r col t t' : visits E W a b n r col t t' -> reaches E W a n r col t E_OK t'.
Proof. intros (a0 & b4 & af & A & B & C & D & _). exists a0, b4, af. auto. Qed.
(** A place that no other instruction names keeps its value up to the instruction, and from it on. *)
Lemma reach_keep n r col t e t' p : reaches E W a n r col t e t' -> ~ glue WD p -> p <> LState -> ~ cron_flag (s_ctx a) p ->
  (forall n' r' col', In (n', r', col') (program_cells (s_ctx a)) -> (n', r', col') <> (n, r, col) -> ~ names (s_ctx a) (code_at (s_ctx a) n' r' col') n' r' col' p) ->
  NoDup (program_cells (s_ctx a)) -> peek (s_ctx t) p = peek (s_ctx a) p.
Proof.
  intros (a0 & b4 & af & C & P & X & EX) G PS CF N ND. pose proof (cron_J2 E WD (s_ctx a) a a0 eq_refl C) as H0.
  destruct (J2_executes E WD (s_ctx a) HE HL HS b4 a0 t) as [_ H1]; auto. { intros x IN. rewrite P. apply in_app_iff. auto. }
  rewrite H1; auto.
  - apply C. intros [->|K]; [|auto]. apply G. right; left; simpl; auto.
  - intros n' r' col' IN. apply N. { rewrite P. apply in_app_iff. auto. } intros K. rewrite K in IN. rewrite P in ND. apply NoDup_remove_2 in ND. apply ND. apply in_app_iff. auto.
Qed.
Lemma visit_keep b n r col t t' p : visits E W a b n r col t t' -> ~ glue WD p -> p <> LState ->
  (forall n' r' col', In (n', r', col') (program_cells (s_ctx a)) -> (n', r', col') <> (n, r, col) -> ~ names (s_ctx a) (code_at (s_ctx a) n' r' col') n' r' col' p) ->
  NoDup (program_cells (s_ctx a)) -> peek (s_ctx b) p = peek (s_ctx t') p.
Proof.
  intros V G PS N ND. pose proof (proj2 (reach_frame _ _ _ _ _ _ (visit_reach _ _ _ _ _ _ V))) as H0. destruct V as (a0 & b4 & af & C & P & X & EX & Y).
  destruct (J2_executes E WD (s_ctx a) HE HL HS af t' b) as [_ H1]; auto. { intros x IN. rewrite P. apply in_app_iff. right; right; auto. }
  apply H1; auto. intros n' r' col' IN. apply N. { rewrite P. apply in_app_iff. right; right; auto. } intros K. rewrite K in IN. rewrite P in ND. apply NoDup_remove_2 in ND. apply ND. apply in_app_iff. auto.
Qed.
Lemma executes_split l1 x l2 s s' : executes E WD (l1 ++ x :: l2) s s' -> exists t t', executes E WD l1 s t /\ executed E (fst (fst x)) (snd (fst x)) (snd x) t E_OK t' /\ executes E WD l2 t' s'.
Proof.
  revert s. induction l1 as [|[[n r] col] l1 IH]; intros s X; simpl in X.
  - inversion X as [|n r col l s0 s1 s2 s3 G EX Y]; subst. exists s1, s2. split; [constructor; auto|]. auto.
  - inversion X as [|n0 r0 col0 l s0 s1 s2 s3 G EX Y]; subst. apply IH in Y as (t & t' & A & B & D). exists t, t'. split; [econstructor; eauto|auto].
Qed.
(** A scan that is not stopped visits every cell of the program. *)
Lemma scan_visits b : scans E a b -> peek (s_ctx b) LState <> Some (VState S_INV) -> (forall n, (n < q_nets (x_q (s_ctx a)))%nat -> cost (s_ctx a) n <= m) ->
  forall n r col, In (n, r, col) (program_cells (s_ctx a)) -> exists t t', visits E W a b n r col t t'.
Proof.
  intros X NI CO n r col IN. destruct (scan_ends E WD a b m SR X) as (s0 & CS & [[[EX _] _]|[(k & r' & cl & e & F)|(k & K1 & K2 & _)]]).
  - apply in_split in IN as (l1 & l2 & P). rewrite P in EX. apply executes_split in EX as (t & t' & A & B & D). exists t, t', s0, l1, l2. auto.
  - destruct F as (b4 & af & u1 & u2 & _ & _ & _ & _ & _ & _ & _ & K & _). contradiction.
  - specialize (CO k K1). lia.
Qed.
End R.
