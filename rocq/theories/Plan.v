(** The scan of a network follows its plan. *)
From Verif Require Export ScanFrame.

Lemma bind_cong {A B} (m : M A) (k k' : A -> M B) (I : A -> st -> Prop) s :
  wp any m I s -> (forall a s', I a s' -> k a s' = k' a s') -> bind m k s = bind m k' s.
Proof. unfold wp, bind. intros H K. destruct (m s) as [[a s']| |]; auto. Qed.
Lemma bind_assoc {A B C} (m : M A) (k : A -> M B) (h : B -> M C) s : bind (bind m k) h s = bind m (fun a => bind (k a) h) s.
Proof. unfold bind. destruct (m s) as [[a s']| |]; auto. Qed.

(** Execution of a list of steps; false when the scan is abandoned. *)
Fixpoint run_steps (E : env) (n : nat) (l : list step) (cc : Z) : M bool :=
  match l with
  | [] => ret true
  | Tick :: t => go <- check_cycles E (cc + 1) ;; if go : bool then run_steps E n t (cc + 1) else ret false
  | Run col rs :: t =>
      ok <- exec_rows E n col rs ;;
      if ok : bool then b <- or_states col rs false ;; put_states col rs b ;;; run_steps E n t cc
      else set_state S_INV ;;; ret false
  | Close :: t => c <- getc ;; (if h_scan_end (x_h c) then emit E EvScanEnd else ret tt) ;;; run_steps E n t cc
  end.

Section P.
Variables (E : env) (WE : loc -> Prop) (c0 : ctx) (n rows cols : nat).
Hypothesis HE : env_writes E WE.
Hypothesis HL : forall l, WE l -> ~ is_layout l.
Hypothesis HS : forall k, peek c0 LNets = Some (VN k) -> Z.of_nat k <= 2 ^ 32.
Hypothesis HN : scanned c0 n rows cols.
Hypothesis HC : wf_cells c0 n rows cols.
Notation JX := (JX WE c0 n).
Notation code := (code_at c0 n).
Notation bar := (bar_at c0 n).

Lemma jx_cell s r col : JX s -> (r < rows)%nat -> (col < cols)%nat ->
  exists x nt, cell_of (s_ctx s) n r col = Some x /\ net_of (s_ctx s) n = Some nt /\ n_rows nt = rows /\ n_cols nt = cols
    /\ ncell nt r col = Some x /\ c_code x = code r col /\ c_bar x = bar r col /\ (known (c_code x) \/ c_code x = I_MULTI).
Proof.
  intros H R C. destruct (HC r col R C) as (b & i & d & P & K).
  destruct (JX_net WE c0 HL n rows cols HN s H) as (nt & N & A & B & _).
  pose proof (J_meta WE c0 HL s (LCell n r col) (proj1 H) I) as Q. rewrite P in Q. simpl in Q.
  destruct (cell_of (s_ctx s) n r col) as [x|] eqn:X; [|discriminate]. simpl in Q. injection Q as Q1 Q2 Q3.
  exists x, nt. unfold code_at, bar_at. rewrite P. rewrite <- (cell_of_net _ _ _ _ _ N). subst. repeat split; auto.
Qed.
Lemma is_multi_eq i : is_multi i = multi i. Proof. destruct i; auto. Qed.
Lemma side_eq i : known i -> has_side_effects_on_false i = Ok (always_run i).
Proof. destruct i; simpl; auto; contradiction. Qed.

Lemma bar_run_eq s nt f g col : JX s -> net_of (s_ctx s) n = Some nt -> (rows - S g <= f)%nat -> (col < cols)%nat -> (g < rows)%nat ->
  bar_run f nt col g = Ok (g + joined bar (rows - S g) g col)%nat.
Proof.
  intros H N Hf C. revert g Hf. induction f as [|f IH]; intros g Hf G; simpl.
  - replace (rows - S g)%nat with 0%nat by lia. simpl. f_equal; lia.
  - destruct (JX_net WE c0 HL n rows cols HN s H) as (nt' & N' & A & B & _). rewrite N in N'. injection N' as <-.
    rewrite A. destruct (S g <? rows)%nat eqn:L.
    + apply Nat.ltb_lt in L. destruct (jx_cell s (S g) col H L C) as (x & nt' & X & N' & _ & _ & X2 & _ & Bx & _).
      rewrite N in N'. injection N' as <-. rewrite (cell_in_of _ _ _ _ X2). simpl. rewrite Bx.
      replace (rows - S g)%nat with (S (rows - S (S g))) by lia. simpl. destruct (bar (S g) col); [|f_equal; lia].
      rewrite IH by lia. f_equal; lia.
    + apply Nat.ltb_ge in L. replace (rows - S g)%nat with 0%nat by lia. simpl. f_equal; lia.
Qed.
Lemma group_end_eq s nt g col : JX s -> net_of (s_ctx s) n = Some nt -> (col < cols)%nat -> (g < rows)%nat ->
  exists e, group_end nt col g = Ok e /\ rows_of g e = group rows bar g col /\ S e = (g + length (group rows bar g col))%nat.
Proof.
  intros H N C G. unfold group_end. destruct (JX_net WE c0 HL n rows cols HN s H) as (nt' & N' & A & _). rewrite N in N'. injection N' as <-.
  rewrite (bar_run_eq s nt (n_rows nt) g col) by (auto; lia). eexists; split; [reflexivity|]. unfold rows_of, group. rewrite seq_length.
  split; [f_equal; lia|lia].
Qed.
Lemma lower_eq s nt f r col : JX s -> net_of (s_ctx s) n = Some nt -> (r < rows)%nat -> (col + f = cols)%nat ->
  lower_from f nt r col = Ok (existsb (fun col => bar r col && negb ((S r <? rows)%nat && multi (code (S r) col))) (seq col f)).
Proof.
  intros H N R. revert col. destruct (JX_net WE c0 HL n rows cols HN s H) as (nt' & N' & A & _). rewrite N in N'. injection N' as <-.
  induction f as [|f IH]; intros col Hf; [reflexivity|]. cbn [lower_from seq existsb].
  destruct (jx_cell s r col H R ltac:(lia)) as (x & nt' & X & N' & _ & _ & X2 & _ & Bx & _).
  rewrite N in N'. injection N' as <-. rewrite (cell_in_of _ _ _ _ X2). simpl rbind. rewrite Bx, A.
  rewrite IH by lia. destruct (bar r col); [|reflexivity]. simpl andb.
  destruct (S r <? rows)%nat eqn:L; [|reflexivity]. apply Nat.ltb_lt in L.
  destruct (jx_cell s (S r) col H L ltac:(lia)) as (y & nt' & Y & N' & _ & _ & Y2 & Cy & _).
  rewrite N in N'. injection N' as <-. rewrite (cell_in_of _ _ _ _ Y2). simpl rbind. rewrite is_multi_eq, Cy.
  destruct (multi (code (S r) col)); reflexivity.
Qed.

Lemma mcell_eq s r col : JX s -> (r < rows)%nat -> (col < cols)%nat ->
  exists x, mcell r col s = Ok (x, s) /\ c_code x = code r col /\ (known (c_code x) \/ c_code x = I_MULTI) /\ cell_of (s_ctx s) n r col = Some x.
Proof.
  intros H R C. destruct (jx_cell s r col H R C) as (x & nt & X & N & _ & _ & _ & Cx & _ & Kx).
  exists x. split; [|auto]. unfold mcell. rewrite bind_getc. apply lift_ok. eapply ex_cell_ok; eauto. apply H.
Qed.
Lemma exec_net_eq s : JX s -> exists nt, exec_net (s_ctx s) = Ok nt /\ net_of (s_ctx s) n = Some nt /\ n_rows nt = rows /\ n_cols nt = cols.
Proof.
  intros H. destruct (JX_net WE c0 HL n rows cols HN s H) as (nt & N & A & B & _). exists nt. repeat split; auto.
  unfold exec_net. destruct H as [_ ->]. now apply net_at_of.
Qed.
Lemma skip_eq (l : list nat) col cc (k : option (Z * bool) -> M bool) L s :
  (forall r, In r l -> (r < rows)%nat) -> (col < cols)%nat -> JX s ->
  (forall s', JX s' -> k None s' = Ok (false, s')) ->
  (forall s' cc', JX s' -> k (Some (cc', negb (existsb (fun r => always_run (code r col)) l))) s' = run_steps E n L cc' s') ->
  bind (skip_loop E l col cc) k s = run_steps E n (repeat Tick (looked code l col) ++ L) cc s.
Proof.
  intros HR C. revert cc s. induction l as [|r l IH]; intros cc s H K0 K1.
  - simpl. rewrite bind_ret. apply K1; auto.
  - cbn [skip_loop looked]. rewrite bind_assoc.
    set (j := if always_run (code r col) then 0%nat else looked code l col).
    replace (if always_run (code r col) then 1%nat else S (looked code l col)) with (S j) by (unfold j; now destruct (always_run _)).
    cbn [repeat app run_steps].
    apply (bind_cong _ _ _ (fun _ s' => JX s')); [eapply JX_check; eauto|].
    intros [|] s1 H1; [|rewrite bind_ret; exact (K0 _ H1)].
    destruct (mcell_eq s1 r col H1 ltac:(apply HR; simpl; auto) C) as (x & Mx & Cx & Kx & _).
    rewrite bind_assoc, (bind_ok _ _ _ _ _ Mx). rewrite is_multi_eq, Cx. rewrite Cx in Kx.
    destruct Kx as [Kx|Kx].
    + replace (multi (code r col)) with false by (destruct (code r col); auto; contradiction).
      rewrite (side_eq _ Kx). rewrite bind_assoc. unfold lift. rewrite (bind_ok _ _ s1 (always_run (code r col)) s1) by reflexivity.
      simpl in K1. destruct (always_run (code r col)) eqn:AR; unfold j.
      * rewrite bind_ret. rewrite K1 by auto. reflexivity.
      * apply IH; auto; intros; apply HR; simpl; auto.
    + unfold j. simpl in K1. rewrite Kx in *. simpl. rewrite bind_ret. rewrite K1 by auto. reflexivity.
Qed.
Lemma column_eq g col cc (k : option Z -> M bool) L s :
  (g < rows)%nat -> (col < cols)%nat -> JX s ->
  (forall s', JX s' -> k None s' = Ok (false, s')) ->
  (forall s' cc', JX s' -> k (Some cc') s' = run_steps E n L cc' s') ->
  bind (scan_column E n g (negb (branch rows cols code bar g)) col cc) k s
  = run_steps E n (column_steps rows cols code bar g col ++ L) cc s.
Proof.
  intros G C H K0 K1. unfold scan_column. rewrite bind_assoc, bind_getc.
  destruct (exec_net_eq s H) as (nt & X & N & A & B). rewrite bind_assoc. unfold lift at 1. rewrite X.
  rewrite (bind_ok _ _ s nt s) by reflexivity. rewrite bind_assoc.
  destruct (group_end_eq s nt g col H N C G) as (e & GE & RO & _). rewrite GE.
  rewrite (bind_ok _ _ s e s) by reflexivity. cbv zeta. rewrite RO. rewrite bind_assoc.
  unfold column_steps. rewrite <- app_assoc.
  assert (HR : forall r, In r (group rows bar g col) -> (r < rows)%nat).
  { intros r Hr. unfold group in Hr. apply in_seq in Hr.
    assert (JL : forall q x, (joined bar q x col <= q)%nat).
    { induction q; intros; simpl; [lia|]. destruct (bar (S x) col); [|lia]. specialize (IHq (S x)). lia. }
    specialize (JL (rows - S g)%nat g). lia. }
  apply skip_eq; auto.
  { intros s' cc' H'. rewrite negb_involutive.
    replace (branch rows cols code bar g && negb (existsb (fun r => always_run (code r col)) (group rows bar g col)))
      with (negb (negb (branch rows cols code bar g) || existsb (fun r => always_run (code r col)) (group rows bar g col)))
      by (destruct (branch rows cols code bar g), (existsb (fun r => always_run (code r col)) (group rows bar g col)); reflexivity).
    destruct (negb (branch rows cols code bar g) || existsb (fun r => always_run (code r col)) (group rows bar g col)).
    + simpl negb. cbv iota. cbn [app run_steps]. rewrite bind_assoc.
      apply (bind_cong _ _ _ (fun _ s' => JX s')); [eapply JX_exec_rows; eauto|].
      intros [|] s2 H2.
      * rewrite bind_assoc. apply (bind_cong _ _ _ (fun _ s' => JX s')); [eapply JX_or; eauto|]. intros b s3 H3.
        rewrite bind_assoc. apply (bind_cong _ _ _ (fun _ s' => JX s')); [eapply JX_put; eauto|].
        intros [] s4 H4. rewrite bind_ret. auto.
      * rewrite bind_assoc. apply (bind_cong _ _ _ (fun _ s' => JX s')); [eapply JX_set_state; eauto|].
        intros [] s4 H4. rewrite bind_ret. rewrite K0 by auto. reflexivity.
    + simpl negb. cbv iota. rewrite bind_ret. auto. }
Qed.
Lemma columns_eq f g col cc (k : option Z -> M bool) L s :
  (g < rows)%nat -> (col + f = cols)%nat -> JX s ->
  (forall s', JX s' -> k None s' = Ok (false, s')) ->
  (forall s' cc', JX s' -> k (Some cc') s' = run_steps E n L cc' s') ->
  bind (scan_columns E f n g (negb (branch rows cols code bar g)) col cc) k s
  = run_steps E n (flat_map (column_steps rows cols code bar g) (seq col f) ++ L) cc s.
Proof.
  intros G Hf H K0 K1. revert col cc s Hf H. induction f as [|f IH]; intros col cc s Hf H;
    destruct (exec_net_eq s H) as (nt & X & N & A & B);
    assert (MC : mcols s = Ok (cols, s)) by (unfold mcols; rewrite bind_getc; unfold lift; rewrite X; unfold bind; simpl; now rewrite B).
  - simpl. rewrite bind_assoc, (bind_ok _ _ _ _ _ MC). replace (col <? cols)%nat with false by (symmetry; apply Nat.ltb_ge; lia).
    rewrite bind_ret. auto.
  - cbn [scan_columns seq flat_map]. rewrite bind_assoc, (bind_ok _ _ _ _ _ MC).
    replace (col <? cols)%nat with true by (symmetry; apply Nat.ltb_lt; lia). rewrite bind_assoc, <- app_assoc.
    apply column_eq; auto; [lia|]. intros s' cc' H'. apply IH; auto. lia.
Qed.
Lemma rung_eq g cc (k : option (nat * Z) -> M bool) L s : (g < rows)%nat -> (0 < cols)%nat -> JX s ->
  (forall s', JX s' -> k None s' = Ok (false, s')) ->
  (forall s' cc', JX s' -> k (Some (next_rung rows code bar g, cc')) s' = run_steps E n L cc' s') ->
  bind (scan_rung E n g cc) k s = run_steps E n (rung_steps rows cols code bar g ++ L) cc s.
Proof.
  intros G C H K0 K1. unfold scan_rung, rung_steps. rewrite bind_assoc. cbn [app run_steps].
  apply (bind_cong _ _ _ (fun _ s' => JX s')); [eapply JX_check; eauto|].
  intros [|] s1 H1; [|rewrite bind_ret; exact (K0 _ H1)].
  destruct (mcell_eq s1 g 0 H1 G C) as (x & Mx & Cx & _). rewrite bind_assoc, (bind_ok _ _ _ _ _ Mx), is_multi_eq, Cx.
  unfold next_rung in K1. destruct (multi (code g 0)).
  - rewrite bind_ret. simpl. auto.
  - rewrite bind_assoc, bind_getc. destruct (exec_net_eq s1 H1) as (nt & X & N & A & B). rewrite bind_assoc. unfold lift at 1. rewrite X.
    rewrite (bind_ok _ _ s1 nt s1) by reflexivity.
    destruct (group_end_eq s1 nt g 0 H1 N C G) as (e & GE & _ & SE). rewrite bind_assoc, GE.
    rewrite (bind_ok _ _ s1 e s1) by reflexivity.
    rewrite bind_assoc. unfold is_lower. rewrite (lower_eq s1 nt (n_cols nt) g 0) by auto.
    rewrite B. fold (branch rows cols code bar g).
    rewrite (bind_ok _ _ s1 (branch rows cols code bar g) s1) by reflexivity.
    rewrite bind_assoc, <- app_assoc. apply columns_eq; auto.
    { intros s' cc' H'. rewrite bind_assoc, bind_getc, bind_assoc. cbn [app run_steps]. rewrite bind_getc.
      apply (bind_cong _ _ _ (fun _ s' => JX s')).
      * destruct (h_scan_end _); [|apply wp_ret; auto]. eapply JX_emit; simpl; eauto.
      * intros [] s2 H2. rewrite bind_ret. rewrite SE. auto. }
Qed.
Lemma rows_eq f g cc s : (rows <= g + f)%nat -> (0 < cols)%nat -> JX s ->
  scan_rows E f n g cc s = run_steps E n (net_steps rows cols code bar f g) cc s.
Proof.
  intros Hf C H. revert g cc s Hf H. induction f as [|f IH]; intros g cc s Hf H;
    destruct (exec_net_eq s H) as (nt & X & N & A & B);
    assert (MR : mrows s = Ok (rows, s)) by (unfold mrows; rewrite bind_getc; unfold lift; rewrite X; unfold bind; simpl; now rewrite A).
  - simpl. rewrite (bind_ok _ _ _ _ _ MR). replace (g <? rows)%nat with false by (symmetry; apply Nat.ltb_ge; lia). reflexivity.
  - cbn [scan_rows net_steps]. rewrite (bind_ok _ _ _ _ _ MR). destruct (g <? rows)%nat eqn:L; [|reflexivity]. apply Nat.ltb_lt in L.
    apply rung_eq; auto. intros s' cc' H'. apply IH; auto.
    unfold next_rung, group. rewrite seq_length. destruct (multi (code g 0)); lia.
Qed.
End P.
