(** placing instructions (C39, C49). *)
From Verif Require Export P_Init.

(** ** C39 *)

(** [c'] differs from [c] only in the cells of the rows [rs] of a column, which are transformed by [F]. *)
Definition tr_cells (n col : nat) (rs : list nat) (F : nat -> cell -> cell) (c c' : ctx) : Prop :=
  (forall r x, In r rs -> cell_of c n r col = Some x -> cell_of c' n r col = Some (F r x))
  /\ changes_only c c' (fun l => exists r, In r rs /\ of_cell n r col l).
Definition have (n col : nat) (rs : list nat) (c : ctx) : Prop := forall r, In r rs -> exists x, cell_of c n r col = Some x.
Lemma tr_have n col rs F c c' : tr_cells n col rs F c c' -> have n col rs c -> have n col rs c'.
Proof. intros [H _] A r R. destruct (A r R) as [x X]. eauto. Qed.
Lemma tr_comp n col rs F G a b c : have n col rs a -> tr_cells n col rs F a b -> tr_cells n col rs G b c -> tr_cells n col rs (fun r x => G r (F r x)) a c.
Proof.
  intros A [H1 H2] [G1 G2]. split.
  - intros r x R X. apply G1; auto.
  - eapply changes_trans; eauto.
Qed.
Lemma tr_refl n col rs c : tr_cells n col rs (fun _ x => x) c c.
Proof. split; [auto|apply changes_refl]. Qed.
Lemma upd_cell_tr n r0 col f c rs : have n col rs c -> In r0 rs ->
  exists c', upd_cell n r0 col f c = Ok c' /\ tr_cells n col rs (fun r x => if (r =? r0)%nat then f x else x) c c'.
Proof.
  intros A R0. destruct (A r0 R0) as [x0 X0]. rewrite (upd_cell_ok _ _ _ _ _ _ X0). eexists. split; [reflexivity|]. split.
  - intros r x R X. destruct (Nat.eqb_spec r r0) as [->|D].
    + rewrite X0 in X. injection X as <-. eapply put_cell_same; eauto.
    + rewrite put_cell_other by congruence. auto.
  - intros l HL. apply put_cell_frame. intros K. apply HL. eauto.
Qed.
Lemma upd_cells_tr n col rs f g ls : NoDup ls -> (forall r, In r ls -> In r rs) -> forall c, have n col rs c ->
  (forall r x, In r ls -> cell_of c n r col = Some x -> f x = Ok (g x)) ->
  exists c', upd_cells n ls col f c = Ok c' /\ tr_cells n col rs (fun r x => if in_dec Nat.eq_dec r ls then g x else x) c c'.
Proof.
  induction ls as [|r0 ls IH]; intros ND SUB c A FG.
  - exists c. split; [reflexivity|]. apply tr_refl.
  - inversion ND as [|? ? NI ND']; subst. cbn [upd_cells]. destruct (A r0 (SUB r0 (or_introl eq_refl))) as [x0 X0].
    destruct (cell_of_inv _ _ _ _ _ X0) as (nt & ON & XN). rewrite (net_at_of _ _ _ ON). cbn [rbind]. rewrite (cell_in_of _ _ _ _ XN). cbn [rbind].
    rewrite (FG r0 x0 (or_introl eq_refl) X0). cbn [rbind].
    destruct (upd_cell_tr n r0 col (fun _ => g x0) c rs A (SUB r0 (or_introl eq_refl))) as (c1 & U1 & T1). rewrite U1. cbn [rbind].
    destruct (IH ND' (fun r H => SUB r (or_intror H)) c1) as (c2 & U2 & T2).
    + eapply tr_have; eauto.
    + intros r x R X. destruct (A r (SUB r (or_intror R))) as [y Y]. destruct T1 as [T1 _]. pose proof (T1 r y (SUB r (or_intror R)) Y) as K.
      destruct (Nat.eqb_spec r r0) as [->|D]; [contradiction|]. rewrite K in X. injection X as <-. apply (FG r y); simpl; auto.
    + exists c2. split; auto. destruct (tr_comp _ _ _ _ _ _ _ _ A T1 T2) as [P1 P2]. split; auto.
      intros r x R X. rewrite (P1 r x R X). f_equal. destruct (Nat.eqb_spec r r0) as [->|D].
      * rewrite X0 in X. injection X as <-. destruct (in_dec Nat.eq_dec r0 ls) as [K|K0]; [contradiction|].
        destruct (in_dec Nat.eq_dec r0 (r0 :: ls)) as [K1|K]; [auto|]. exfalso. apply K. simpl; auto.
      * destruct (in_dec Nat.eq_dec r ls) as [K|K]; destruct (in_dec Nat.eq_dec r (r0 :: ls)) as [K2|K2]; auto; exfalso; simpl in K2; intuition.
Qed.
Lemma span_free_ok nt rs col : (forall r, In r rs -> exists x, ncell nt r col = Some x) ->
  exists b, span_free nt rs col = Ok b /\ (b = true <-> forall r x, In r rs -> ncell nt r col = Some x -> c_code x = I_NOP).
Proof.
  induction rs as [|r rs IH]; intros A; simpl.
  - exists true. split; auto. split; [intros _ r x []|auto].
  - destruct (A r (or_introl eq_refl)) as [x X]. rewrite (cell_in_of _ _ _ _ X). simpl.
    destruct (is_nop (c_code x)) eqn:N.
    + destruct IH as (b & B1 & B2); [intros; apply A; simpl; auto|]. exists b. split; auto. rewrite B2. split.
      * intros H r' x' [<-|R] X'; [rewrite X in X'; injection X' as <-; destruct (c_code x); simpl in N; try discriminate; auto|eauto].
      * intros H r' x' R. apply H. auto.
    + exists false. split; auto. split; [discriminate|]. intros H. rewrite (H r x) in N; auto; discriminate.
Qed.
Definition dropped (x : cell) : cell := match c_data x with None => x | Some _ => set_c_dq 0 (set_c_data None x) end.
Lemma block_iocd c f fid cells dq : block_size c f fid cells dq ->
  (match f with I_FOREIGN => true | _ => false end && (fo_qty (x_for c) <=? fid)%nat) = false /\
  exists d, (if match f with I_FOREIGN => true | _ => false end then let? fd := pget (fo_fn (x_for c)) (Z.of_nat fid) in Ok (f_iocd fd) else fn_iocd f) = Ok d
    /\ d_cells d = cells /\ d_dq d = dq.
Proof.
  intros [D|(-> & fo & l & d & H1 & H2 & H3 & H4 & H5 & H6)].
  - destruct f; simpl in D; try discriminate; injection D as <- <-; (split; [reflexivity|]); eexists; (split; [reflexivity|]); auto.
  - simpl in H1. injection H1 as <-. rewrite (proj2 (Nat.leb_gt _ _) H3). split; auto. exists (f_iocd d). split; auto.
    rewrite H2. rewrite (pget_elem (Some l) (Z.of_nat fid) d); [reflexivity|lia|]. unfold ix. rewrite Nat2Z.id. exact H4.
Qed.
Lemma in_seq' r s n : In r (seq s n) <-> exists k, (k < n)%nat /\ r = (s + k)%nat.
Proof. rewrite in_seq. split; [intros H; exists (r - s)%nat; lia|intros (k & K & ->); lia]. Qed.
Lemma tr_frame n col r cells F c c' : tr_cells n col (seq r cells) F c c' -> have n col (seq r cells) c ->
  (forall r' x, c_state (F r' x) = c_state x) -> changes_only c c' (span_place n r col cells).
Proof.
  intros [T1 T2] A FS l HL. destruct l; try (apply T2; intros (r' & R & [K|[K|[K|(j & K)]]]); try discriminate; injection K as -> -> ->; apply in_seq' in R as (k & K & ->);
    apply HL; exists k; eauto; fail).
  destruct (loc_eq_dec (LPow n0 r0 col0) (LPow n r0 col)) as [Q|Q].
  - injection Q as -> ->. destruct (in_dec Nat.eq_dec r0 (seq r cells)) as [R|R].
    + destruct (A r0 R) as [x X]. simpl. rewrite (T1 r0 x R X), X. simpl. now rewrite FS.
    + apply T2. intros (r' & R' & [K|[K|[K|(j & K)]]]); try discriminate. injection K as ->. contradiction.
  - apply T2. intros (r' & R' & [K|[K|[K|(j & K)]]]); try discriminate. congruence.
Qed.
Lemma whole_cell c n r col cells : whole_program c -> inside c n r col cells -> have n col (seq r cells) c
  /\ forall r' x, In r' (seq r cells) -> cell_of c n r' col = Some x -> drop_data x = Ok (dropped x).
Proof.
  intros W (N & en & rows & cols & HN & R & C).
  assert (K : forall r', In r' (seq r cells) -> exists x, cell_of c n r' col = Some x /\ drop_data x = Ok (dropped x)).
  { intros r' R'. apply in_seq in R'. destruct (W n N) as (en' & rows' & cols' & HN' & HC). rewrite HN in HN'. injection HN' as <- <- <-.
    destruct (HC r' col) as (bar & i & dq & H1 & H2); [lia|lia|]. simpl in H1, H2. destruct (cell_of c n r' col) as [x|]; [|discriminate]. simpl in *. injection H1 as <- <- <-.
    exists x. split; auto. unfold drop_data, dropped. destruct (c_data x) as [d|]; auto. simpl in H2. destruct H2 as [H2|(k & H2 & K)]; [discriminate|]. injection H2 as <-.
    now rewrite (proj2 (Nat.leb_le _ _) K). }
  split.
  - intros r' R'. destruct (K r' R') as (x & X & _). eauto.
  - intros r' x R' X. destruct (K r' R') as (x' & X' & D). congruence.
Qed.
Lemma tr_peek c' n r col x : cell_of c' n r col = Some x ->
  peek c' (LCell n r col) = Some (VCell (c_bar x) (c_code x) (c_dq x)) /\ peek c' (LDataLen n r col) = size (c_data x)
  /\ forall i, peek c' (LData n r col i) = option_map VVal (elem (c_data x) i).
Proof. intros H. simpl. rewrite H. auto. Qed.

(** C39: an instruction of known size is placed exactly if its whole span is inside the network and vacant and memory for its
    operands is available; then the span is marked, the operands are allocated empty, and nothing else changes, not even the
    power of the span. If it is refused only the last error changes, unless memory ran out. *)
Lemma C39_places_l : forall alloc n r col f fid c cells dq, whole_program c -> block_size c f fid cells dq -> (1 <= cells)%nat ->
  peek c LNets <> None ->
  exists b c', fn_cell alloc n r col f fid c = Ok (b, c')
    /\ (b = true <-> inside c n r col cells /\ vacant c n r col cells /\ (dq = 0%nat \/ alloc = true))
    /\ (b = true -> placed c' n r col f cells dq /\ changes_only c c' (span_place n r col cells))
    /\ (b = false -> changes_only c c' (fun l => l = LErr)
         \/ (inside c n r col cells /\ vacant c n r col cells /\ (0 < dq)%nat /\ alloc = false)).
Proof.
  intros alloc n r col f fid c cells dq W BS C1 NN.
  assert (FAIL : forall e, ~ inside c n r col cells \/ ~ vacant c n r col cells -> exists b c', Ok (false, set_last_err e c) = Ok (b, c')
    /\ (b = true <-> inside c n r col cells /\ vacant c n r col cells /\ (dq = 0%nat \/ alloc = true))
    /\ (b = true -> placed c' n r col f cells dq /\ changes_only c c' (span_place n r col cells))
    /\ (b = false -> changes_only c c' (fun l => l = LErr) \/ (inside c n r col cells /\ vacant c n r col cells /\ (0 < dq)%nat /\ alloc = false))).
  { intros e H. exists false, (set_last_err e c). split; auto. split; [split; [discriminate|tauto]|]. split; [discriminate|]. intros _. left.
    intros l L. destruct l; try reflexivity. tauto. }
  destruct (block_iocd _ _ _ _ _ BS) as (B1 & d & B2 & B3 & B4).
  unfold fn_cell. destruct (q_nets (x_q c) <=? n)%nat eqn:N.
  { apply Nat.leb_le in N. apply FAIL. left. intros (K & _). lia. }
  apply Nat.leb_gt in N. destruct (W n N) as (en & rows & cols & HN & _).
  assert (exists nt, net_of c n = Some nt /\ n_rows nt = rows /\ n_cols nt = cols) as (nt & ON & NR & NC).
  { simpl in HN. destruct (net_of c n) as [nt|]; [|discriminate]. injection HN as <- <- <-. eauto. }
  rewrite (net_at_of _ _ _ ON). cbn [rbind]. rewrite NR, NC.
  destruct (rows <=? r)%nat eqn:R.
  { apply Nat.leb_le in R. apply FAIL. left. intros (_ & en' & rows' & cols' & K & K1 & K2). rewrite HN in K. injection K as <- <- <-. lia. }
  destruct (cols <=? col)%nat eqn:C.
  { apply Nat.leb_le in C. apply FAIL. left. intros (_ & en' & rows' & cols' & K & K1 & K2). rewrite HN in K. injection K as <- <- <-. lia. }
  apply Nat.leb_gt in R, C. rewrite B1, B2. cbn [rbind]. rewrite B3, B4.
  destruct (rows - r <? cells)%nat eqn:S0.
  { apply Nat.ltb_lt in S0. apply FAIL. left. intros (_ & en' & rows' & cols' & K & K1 & K2). rewrite HN in K. injection K as <- <- <-. lia. }
  apply Nat.ltb_ge in S0.
  assert (IN : inside c n r col cells). { split; auto. exists en, rows, cols. split; auto. lia. }
  destruct (whole_cell _ _ _ _ _ W IN) as [HV DD].
  destruct (span_free_ok nt (seq r cells) col) as (fr & F1 & F2).
  { intros r' R'. destruct (HV r' R') as [x X]. rewrite (cell_of_net _ _ _ _ _ ON) in X. eauto. }
  rewrite F1. cbn [rbind].
  assert (F3 : fr = true <-> vacant c n r col cells).
  { rewrite F2. split.
    - intros H k K. assert (R' : In (r + k)%nat (seq r cells)) by (apply in_seq; lia). destruct (HV _ R') as [x X]. exists (c_bar x), (c_dq x).
      pose proof X as X2. rewrite (cell_of_net _ _ _ _ _ ON) in X2. simpl. rewrite X. simpl. now rewrite (H _ x R' X2).
    - intros H r' x R' X. apply in_seq' in R' as (k & K & ->). destruct (H k K) as (bar & q & Q). simpl in Q. rewrite (cell_of_net _ _ _ _ _ ON), X in Q.
      simpl in Q. congruence. }
  destruct fr; cbn [negb].
  2:{ apply FAIL. right. rewrite <- F3. discriminate. }
  assert (VA : vacant c n r col cells) by (now apply F3). clear F3 F2 F1 FAIL.
  destruct (upd_cells_tr n col (seq r cells) drop_data dropped (seq r cells) (seq_NoDup _ _) (fun r H => H) c HV DD) as (c1 & U1 & T1).
  rewrite U1. cbn [rbind]. pose proof (tr_have _ _ _ _ _ _ T1 HV) as V1.
  assert (R0 : In r (seq r cells)) by (apply in_seq; lia).
  destruct (upd_cell_tr n r col (fun x => set_c_dq dq (set_c_code f x)) c1 _ V1 R0) as (c2 & U2 & T2). rewrite U2. cbn [rbind].
  pose proof (tr_comp _ _ _ _ _ _ _ _ HV T1 T2) as T12. pose proof (tr_have _ _ _ _ _ _ T2 V1) as V2.
  destruct (dq =? 0)%nat eqn:DQ; [apply Nat.eqb_eq in DQ|apply Nat.eqb_neq in DQ].
  { destruct (upd_cell_tr n r col (fun x => set_c_bar false (set_c_data None x)) c2 _ V2 R0) as (c3 & U3 & T3). rewrite U3. cbn [rbind].
    pose proof (tr_comp _ _ _ _ _ _ _ _ HV T12 T3) as T. exists true, c3. split; auto. split; [tauto|]. split; [intros _|discriminate]. split.
    - destruct (HV r R0) as [x X]. destruct T as [T _]. pose proof (T r x R0 X) as TR. cbv beta in TR. rewrite Nat.eqb_refl in TR. apply tr_peek in TR as (T5 & T6 & T7).
      split; [rewrite T5; rewrite DQ; change (0 <? 0)%nat with false; now rewrite andb_false_r|]. split; [rewrite T6, DQ; reflexivity|]. split; [intros i; lia|]. split; [lia|].
      intros _ k K. assert (R' : In (r + k)%nat (seq r cells)) by (apply in_seq; lia). destruct (HV _ R') as [y Y]. specialize (T _ y R' Y). cbv beta in T.
      destruct (Nat.eqb_spec (r + k) r) as [E|E]; [lia|]. destruct (in_dec Nat.eq_dec (r + k)%nat (seq r cells)) as [K3|K3]; [|contradiction].
      apply tr_peek in T as (P5 & P6 & _). exists (c_bar y), (c_dq (dropped y)). rewrite P5, P6.
      destruct (VA k ltac:(lia)) as (bar & q & Q). simpl in Q. rewrite Y in Q. simpl in Q. injection Q as _ Q _. unfold dropped. destruct (c_data y) eqn:CD; simpl; rewrite Q; rewrite ?CD; auto.
    - apply (tr_frame _ _ _ _ _ _ _ T HV). intros r' x. destruct (in_dec Nat.eq_dec r' (seq r cells)), (r' =? r)%nat; unfold dropped; destruct (c_data x); reflexivity. }
  destruct alloc; cbn [negb].
  - destruct (upd_cell_tr n r col (set_c_data (Some (repeat value0 dq))) c2 _ V2 R0) as (c3 & U3 & T3). rewrite U3. cbn [rbind].
    pose proof (tr_comp _ _ _ _ _ _ _ _ HV T12 T3) as T123. pose proof (tr_have _ _ _ _ _ _ T3 V2) as V3.
    destruct (upd_cells_tr n col (seq r cells) (fun x => Ok (set_c_code I_MULTI x)) (set_c_code I_MULTI) (seq (S r) (cells - 1)) (seq_NoDup _ _)) with (c := c3) as (c4 & U4 & T4); auto.
    { intros r' R'. apply in_seq in R'. apply in_seq. lia. }
    rewrite U4. cbn [rbind]. pose proof (tr_comp _ _ _ _ _ _ _ _ HV T123 T4) as T1234. pose proof (tr_have _ _ _ _ _ _ T4 V3) as V4.
    destruct (upd_cells_tr n col (seq r cells) (fun x => Ok (set_c_bar true x)) (set_c_bar true) (seq r (cells - 1)) (seq_NoDup _ _)) with (c := c4) as (c5 & U5 & T5); auto.
    { intros r' R'. apply in_seq in R'. apply in_seq. lia. }
    rewrite U5. cbn [rbind]. pose proof (tr_comp _ _ _ _ _ _ _ _ HV T1234 T5) as T12345. pose proof (tr_have _ _ _ _ _ _ T5 V4) as V5.
    destruct (r + cells)%nat as [|b] eqn:RC; [lia|].
    assert (RB : In b (seq r cells)) by (apply in_seq; lia).
    destruct (upd_cell_tr n b col (set_c_bar false) c5 _ V5 RB) as (c6 & U6 & T6). rewrite U6. cbn [rbind].
    pose proof (tr_comp _ _ _ _ _ _ _ _ HV T12345 T6) as T. clear T1 T2 T3 T4 T5 T6 T12 T123 T1234 T12345 U1 U2 U3 U4 U5 U6.
    exists true, c6. split; auto. split; [tauto|]. split; [intros _|discriminate]. split.
    + destruct T as [T _]. split; [|split; [|split; [|split; [|intros; contradiction]]]].
      1-3: destruct (HV r R0) as [x X]; specialize (T r x R0 X); cbv beta in T; rewrite Nat.eqb_refl in T;
        destruct (in_dec Nat.eq_dec r (seq (S r) (cells - 1))) as [K|K]; [apply in_seq in K; lia|]; apply tr_peek in T as (T5 & T6 & T7).
      * rewrite T5. destruct (Nat.eqb_spec r b) as [E|E].
        -- replace (1 <? cells)%nat with false by (symmetry; apply Nat.ltb_ge; lia). destruct (in_dec Nat.eq_dec r (seq r (cells - 1))); reflexivity.
        -- replace (1 <? cells)%nat with true by (symmetry; apply Nat.ltb_lt; lia). replace (0 <? dq)%nat with true by (symmetry; apply Nat.ltb_lt; lia).
           destruct (in_dec Nat.eq_dec r (seq r (cells - 1))) as [K2|K2]; [reflexivity|]. exfalso. apply K2. apply in_seq. lia.
      * rewrite T6. replace (dq =? 0)%nat with false by (symmetry; now apply Nat.eqb_neq).
        destruct (r =? b)%nat, (in_dec Nat.eq_dec r (seq r (cells - 1))); simpl; now rewrite repeat_length.
      * intros i L. rewrite T7.
        destruct (r =? b)%nat, (in_dec Nat.eq_dec r (seq r (cells - 1))); cbn [c_data set_c_data set_c_bar set_c_dq set_c_code option_map]; now rewrite elem_repeat.
      * intros _ k K. assert (R' : In (r + k)%nat (seq r cells)) by (apply in_seq; lia). destruct (HV _ R') as [x X]. specialize (T _ x R' X). cbv beta in T.
        destruct (Nat.eqb_spec (r + k) r) as [E|E]; [lia|].
        destruct (in_dec Nat.eq_dec (r + k)%nat (seq (S r) (cells - 1))) as [K2|K2]; [|exfalso; apply K2; apply in_seq; lia].
        destruct (in_dec Nat.eq_dec (r + k)%nat (seq r cells)) as [K3|K3]; [|contradiction].
        apply tr_peek in T as (T5 & T6 & _). eexists. rewrite T5, T6. split.
        -- f_equal. destruct (Nat.eqb_spec (r + k) b) as [E2|E2].
           ++ replace (S k <? cells)%nat with false by (symmetry; apply Nat.ltb_ge; lia). destruct (in_dec Nat.eq_dec (r + k)%nat (seq r (cells - 1))); reflexivity.
           ++ replace (S k <? cells)%nat with true by (symmetry; apply Nat.ltb_lt; lia).
              destruct (in_dec Nat.eq_dec (r + k)%nat (seq r (cells - 1))) as [K4|K4]; [reflexivity|]. exfalso. apply K4. apply in_seq. lia.
        -- unfold dropped. destruct (r + k =? b)%nat, (in_dec Nat.eq_dec (r + k)%nat (seq r (cells - 1))), (c_data x) eqn:CD; simpl; try rewrite CD; reflexivity.
    + apply (tr_frame _ _ _ _ _ _ _ T HV). intros r' x.
      destruct (r' =? b)%nat, (in_dec Nat.eq_dec r' (seq r (cells - 1))), (in_dec Nat.eq_dec r' (seq (S r) (cells - 1))), (r' =? r)%nat, (in_dec Nat.eq_dec r' (seq r cells));
        unfold dropped; destruct (c_data x); reflexivity.
  - destruct (upd_cell_tr n r col (set_c_data None) c2 _ V2 R0) as (c3 & U3 & T3). rewrite U3. cbn [rbind]. pose proof (tr_have _ _ _ _ _ _ T3 V2) as V3.
    destruct (upd_cells_tr n col (seq r cells) (fun x => Ok (set_c_bar false (set_c_dq 0 (set_c_data None (set_c_code I_INV x)))))
       (fun x => set_c_bar false (set_c_dq 0 (set_c_data None (set_c_code I_INV x)))) (seq r cells) (seq_NoDup _ _)) with (c := c3) as (c4 & U4 & T4); auto.
    rewrite U4. cbn [rbind]. exists false. eexists. split; [reflexivity|]. split; [|split; [discriminate|]].
    + split; [discriminate|]. intros (_ & _ & [K|K]); [contradiction|discriminate].
    + intros _. right. split; auto. split; auto. split; [lia|auto].
Qed.

(** C39, lack of memory: all cells of the span are turned into invalid instructions, and nothing else but the last error changes. *)
Lemma C39_no_memory_actual_l : forall n r col f fid c cells dq, whole_program c -> block_size c f fid cells dq -> (1 <= cells)%nat -> (0 < dq)%nat ->
  inside c n r col cells -> vacant c n r col cells ->
  exists c', fn_cell false n r col f fid c = Ok (false, c')
    /\ (forall k, (k < cells)%nat -> peek c' (LCell n (r + k) col) = Some (VCell false I_INV 0) /\ peek c' (LDataLen n (r + k) col) = None)
    /\ changes_only c c' (fun l => span_place n r col cells l \/ l = LErr).
Proof.
  intros n r col f fid c cells dq W BS C1 DQ IN VA.
  destruct (block_iocd _ _ _ _ _ BS) as (B1 & d & B2 & B3 & B4).
  destruct (whole_cell _ _ _ _ _ W IN) as [HV DD].
  destruct IN as (N & en & rows & cols & HN & R & C).
  unfold fn_cell. rewrite (proj2 (Nat.leb_gt _ _) N).
  assert (exists nt, net_of c n = Some nt /\ n_rows nt = rows /\ n_cols nt = cols) as (nt & ON & NR & NC).
  { simpl in HN. destruct (net_of c n) as [nt|]; [|discriminate]. injection HN as <- <- <-. eauto. }
  rewrite (net_at_of _ _ _ ON). cbn [rbind]. rewrite NR, NC. rewrite (proj2 (Nat.leb_gt rows r)) by lia. rewrite (proj2 (Nat.leb_gt cols col)) by lia.
  rewrite B1, B2. cbn [rbind]. rewrite B3, B4. rewrite (proj2 (Nat.ltb_ge (rows - r) cells)) by lia.
  destruct (span_free_ok nt (seq r cells) col) as (fr & F1 & F2).
  { intros r' R'. destruct (HV r' R') as [x X]. rewrite (cell_of_net _ _ _ _ _ ON) in X. eauto. }
  rewrite F1. cbn [rbind]. assert (fr = true) as ->.
  { apply F2. intros r' x R' X. apply in_seq' in R' as (k & K & ->). destruct (VA k K) as (bar & q & Q). simpl in Q. rewrite (cell_of_net _ _ _ _ _ ON), X in Q.
    simpl in Q. congruence. }
  cbn [negb].
  destruct (upd_cells_tr n col (seq r cells) drop_data dropped (seq r cells) (seq_NoDup _ _) (fun r H => H) c HV DD) as (c1 & U1 & T1).
  rewrite U1. cbn [rbind]. pose proof (tr_have _ _ _ _ _ _ T1 HV) as V1.
  assert (R0 : In r (seq r cells)) by (apply in_seq; lia).
  destruct (upd_cell_tr n r col (fun x => set_c_dq dq (set_c_code f x)) c1 _ V1 R0) as (c2 & U2 & T2). rewrite U2. cbn [rbind].
  pose proof (tr_comp _ _ _ _ _ _ _ _ HV T1 T2) as T12. pose proof (tr_have _ _ _ _ _ _ T2 V1) as V2.
  destruct (dq =? 0)%nat eqn:DQ'; [apply Nat.eqb_eq in DQ'; lia|].
  destruct (upd_cell_tr n r col (set_c_data None) c2 _ V2 R0) as (c3 & U3 & T3). rewrite U3. cbn [rbind].
  pose proof (tr_comp _ _ _ _ _ _ _ _ HV T12 T3) as T123. pose proof (tr_have _ _ _ _ _ _ T3 V2) as V3.
  destruct (upd_cells_tr n col (seq r cells) (fun x => Ok (set_c_bar false (set_c_dq 0 (set_c_data None (set_c_code I_INV x)))))
    (fun x => set_c_bar false (set_c_dq 0 (set_c_data None (set_c_code I_INV x)))) (seq r cells) (seq_NoDup _ _)) with (c := c3) as (c4 & U4 & T4); auto.
  rewrite U4. cbn [rbind]. pose proof (tr_comp _ _ _ _ _ _ _ _ HV T123 T4) as T. clear T1 T2 T3 T4 T12 T123.
  eexists. split; [reflexivity|]. split.
  - intros k K. assert (R' : In (r + k)%nat (seq r cells)) by (apply in_seq; lia). destruct (HV _ R') as [x X]. destruct T as [T _]. specialize (T _ x R' X). cbv beta in T.
    destruct (in_dec Nat.eq_dec (r + k)%nat (seq r cells)) as [K3|K3]; [|contradiction].
    apply tr_peek in T as (T5 & T6 & _). change (peek c4 (LCell n (r + k) col) = Some (VCell false I_INV 0) /\ peek c4 (LDataLen n (r + k) col) = None).
    rewrite T5, T6. split; reflexivity.
  - assert (K : changes_only c c4 (span_place n r col cells)).
    { apply (tr_frame _ _ _ _ _ _ _ T HV). intros r' x. destruct (in_dec Nat.eq_dec r' (seq r cells)), (r' =? r)%nat; unfold dropped; destruct (c_data x); reflexivity. }
    intros l L. transitivity (peek c4 l); [|apply K; tauto]. destruct l; try reflexivity. tauto.
Qed.
(** C39: a foreign function that was never added is refused, changing only the last error. *)
Lemma C39_unregistered_l : forall alloc n r col fid c fo, whole_program c -> peek c LForeign = Some (VForeign fo) -> (fo_qty fo <= fid)%nat ->
  exists c', fn_cell alloc n r col I_FOREIGN fid c = Ok (false, c') /\ changes_only c c' (fun l => l = LErr).
Proof.
  intros alloc n r col fid c fo W HF Q. simpl in HF. injection HF as <-.
  assert (F : forall e, changes_only c (set_last_err e c) (fun l => l = LErr)) by (intros e l L; destruct l; try reflexivity; tauto).
  unfold fn_cell. destruct (q_nets (x_q c) <=? n)%nat eqn:N; [eauto|]. apply Nat.leb_gt in N.
  destruct (W n N) as (en & rows & cols & HN & _). simpl in HN. destruct (net_of c n) as [nt|] eqn:ON; [|discriminate].
  rewrite (net_at_of _ _ _ ON). cbn [rbind]. destruct (n_rows nt <=? r)%nat; [eauto|]. destruct (n_cols nt <=? col)%nat; [eauto|].
  rewrite (proj2 (Nat.leb_le _ _) Q). cbn [andb]. eauto.
Qed.
(** C39, codes that are no instructions: for a position inside the network the table of sizes is read out of bounds. *)
Lemma C39_code_undefined_l : forall alloc n r col f fid c, inside c n r col 1 -> f <> I_FOREIGN -> documented f = None ->
  fn_cell alloc n r col f fid c = Bad UB_oob.
Proof.
  intros alloc n r col f fid c (N & en & rows & cols & HN & R & C) NF D. unfold fn_cell. rewrite (proj2 (Nat.leb_gt _ _) N).
  simpl in HN. destruct (net_of c n) as [nt|] eqn:ON; [|discriminate]. injection HN as _ <- <-. rewrite (net_at_of _ _ _ ON). cbn [rbind].
  rewrite (proj2 (Nat.leb_gt (n_rows nt) r)) by lia. rewrite (proj2 (Nat.leb_gt (n_cols nt) col)) by lia.
  destruct f; simpl in D; try discriminate; try congruence; reflexivity.
Qed.
Lemma span_kept c c' n r col cells : changes_only c c' (fun l => span_place n r col cells l \/ l = LErr) ->
  (forall k, (k < cells)%nat -> exists b i q, peek c' (LCell n (r + k) col) = Some (VCell b i q) /\ (peek c' (LDataLen n (r + k) col) = None \/ peek c' (LDataLen n (r + k) col) = Some (VN q))) ->
  whole_program c -> whole_program c'.
Proof.
  intros CH SP W m M.
  assert (Q : x_q c' = x_q c). { assert (H : peek c' LQty = peek c LQty) by (apply CH; intros [(k & _ & [K|[K|(i & K)]])|K]; discriminate). simpl in H. congruence. }
  rewrite Q in M. destruct (W m M) as (en & rows & cols & HN & HC). exists en, rows, cols. split.
  - rewrite CH; auto. intros [(k & _ & [K|[K|(i & K)]])|K]; discriminate.
  - intros r' col' R' C'. destruct (in_dec Nat.eq_dec r' (seq r cells)) as [I|I].
    1: destruct (Nat.eq_dec m n) as [->|D]; [destruct (Nat.eq_dec col' col) as [->|D]|].
    + apply in_seq' in I as (k & K & ->). destruct (SP k K) as (b & i & q & P1 & P2). exists b, i, q. split; auto. destruct P2 as [P2|P2]; auto. right. eauto.
    + destruct (HC r' col' R' C') as (b & i & q & P1 & P2). exists b, i, q. rewrite !CH; auto; intros [(k & _ & [K|[K|(j & K)]])|K]; congruence.
    + destruct (HC r' col' R' C') as (b & i & q & P1 & P2). exists b, i, q. rewrite !CH; auto; intros [(k & _ & [K|[K|(j & K)]])|K]; congruence.
    + destruct (HC r' col' R' C') as (b & i & q & P1 & P2). exists b, i, q.
      rewrite !CH; auto; intros [(k & K0 & [K|[K|(j & K)]])|K]; try discriminate; apply I; apply in_seq'; exists k; split; congruence.
Qed.
(** C39, sequences of placements: whatever is requested, also when memory runs out, every cell that holds an instruction or
    a part of one keeps it with its operands, and the program stays whole. *)
Lemma C39_preserves_l : forall c c', whole_program c -> peek c LNets <> None -> builds c c' ->
  whole_program c' /\ forall n r col bar i dq, peek c (LCell n r col) = Some (VCell bar i dq) -> i <> I_NOP ->
    peek c' (LCell n r col) = Some (VCell bar i dq) /\ peek c' (LDataLen n r col) = peek c (LDataLen n r col)
    /\ (forall k, peek c' (LData n r col k) = peek c (LData n r col k)).
Proof.
  intros c c' W NN B. induction B as [c|alloc n r col f fid cells dq b c c1 c2 BS C1 FN B IH]; [auto|].
  destruct (C39_places_l alloc n r col f fid c cells dq W BS C1 NN) as (b' & c1' & FN' & TR & PL & RF). rewrite FN in FN'. injection FN' as <- <-.
  assert (K : changes_only c c1 (fun l => l = LErr) \/
     (vacant c n r col cells /\ changes_only c c1 (fun l => span_place n r col cells l \/ l = LErr) /\
      forall k, (k < cells)%nat -> exists b i q, peek c1 (LCell n (r + k) col) = Some (VCell b i q) /\ (peek c1 (LDataLen n (r + k) col) = None \/ peek c1 (LDataLen n (r + k) col) = Some (VN q)))).
  { destruct b.
    - right. destruct (proj1 TR eq_refl) as (IN & VA & _). destruct (PL eq_refl) as [(P1 & P2 & P3 & P4 & P6) P5]. split; auto. split.
      { intros l L. apply P5. tauto. }
      intros k K. destruct k as [|k].
      + rewrite Nat.add_0_r. do 3 eexists. split; [exact P1|]. rewrite P2. destruct (dq =? 0)%nat; auto.
      + destruct dq as [|dq].
        * destruct (P6 eq_refl (S k) ltac:(lia)) as (bar & d & D1 & D2). do 3 eexists. split; [exact D1|]. auto.
        * destruct (P4 ltac:(lia) (S k) ltac:(lia)) as (d & D1 & D2). do 3 eexists. split; [exact D1|]. auto.
    - destruct (RF eq_refl) as [H|(IN & VA & DQ & ->)]; [auto|]. right.
      destruct (C39_no_memory_actual_l n r col f fid c cells dq W BS C1 DQ IN VA) as (c1' & FN' & P1 & P2). rewrite FN in FN'. injection FN' as <-.
      split; auto. split; auto. intros k K. destruct (P1 k K). do 3 eexists. eauto. }
  assert (W1 : whole_program c1).
  { destruct K as [K|(_ & K1 & K2)]; [|eapply span_kept; eauto].
    apply (span_kept c c1 n r col 0); auto; [intros l L; apply K; tauto|intros k; lia]. }
  assert (N1 : peek c1 LNets <> None).
  { destruct K as [K|(_ & K & _)]; rewrite K; auto; [discriminate|]. intros [(k & _ & [L|[L|(i & L)]])|L]; discriminate. }
  destruct (IH W1 N1) as [W2 KEEP]. split; auto. intros n' r' col' bar i q H NI.
  assert (X : forall l, l = LCell n' r' col' \/ l = LDataLen n' r' col' \/ (exists j, l = LData n' r' col' j) -> peek c1 l = peek c l).
  { intros l L. destruct K as [K|(VA & K & _)]; apply K.
    - destruct L as [->|[->|(j & ->)]]; discriminate.
    - intros [(k & K0 & LL)|LL]; [|destruct L as [->|[->|(j & ->)]]; discriminate].
      assert (n' = n /\ r' = (r + k)%nat /\ col' = col) as (-> & -> & ->).
      { destruct L as [->|[->|(j & ->)]], LL as [E|[E|(j' & E)]]; try discriminate; injection E; auto. }
      destruct (VA k K0) as (bar' & q' & V). rewrite H in V. congruence. }
  destruct (KEEP n' r' col' bar i q) as (K1 & K2 & K3); [rewrite X by auto; auto|auto|]. split; [auto|]. split.
  - rewrite K2. apply X. auto.
  - intros k. rewrite K3. apply X. eauto.
Qed.
(*EX
(* A timer is placed at row 1, then an addition over it is refused, then a contact is placed above; the timer is kept. *)
Example C39_case :
  let c := demo [[cellv I_NOP []; cellv I_NOP []]; [cellv I_NOP []; cellv I_NOP []]; [cellv I_NOP []; cellv I_NOP []]] in
  whole_program c /\ block_size c I_TON 0 2 2 /\ inside c 0 1 1 2 /\ vacant c 0 1 1 2
  /\ exists c1 c2 c3, fn_cell true 0 1 1 I_TON 0 c = Ok (true, c1) /\ placed c1 0 1 1 I_TON 2 2
     /\ fn_cell true 0 0 1 I_ADD 0 c1 = Ok (false, c2) /\ fn_cell true 0 0 1 I_NO 0 c2 = Ok (true, c3)
     /\ builds c c3 /\ code_at c3 0 0 1 = I_NO /\ code_at c3 0 1 1 = I_TON /\ code_at c3 0 2 1 = I_MULTI.
Proof.
  cbv zeta. split.
  { intros n N. simpl in N. assert (n = 0)%nat as -> by lia. do 3 eexists. split; [reflexivity|]. intros r col R C. simpl in R, C.
    do 3 (destruct r as [|r]; [do 2 (destruct col as [|col]; [do 3 eexists; split; [reflexivity|]; right; exists 0%nat; split; [reflexivity|apply le_n]|]); lia|]). lia. }
  split; [left; reflexivity|]. split; [split; [simpl; lia|do 3 eexists; split; [reflexivity|simpl; lia]]|].
  split; [intros k K; do 2 (destruct k as [|k]; [do 2 eexists; reflexivity|]); lia|].
  eexists. eexists. eexists. split; [vm_compute; reflexivity|]. split.
  { split; [reflexivity|]. split; [reflexivity|]. split; [intros i I; do 2 (destruct i as [|i]; [reflexivity|]); lia|].
    split; [intros _ k K; assert (k = 1)%nat as -> by lia; eexists; split; reflexivity|discriminate]. }
  split; [vm_compute; reflexivity|]. split; [vm_compute; reflexivity|]. split.
  { eapply (bu_more true 0 1 1 I_TON 0 2 2); [left; reflexivity|lia|vm_compute; reflexivity|].
    eapply (bu_more true 0 0 1 I_ADD 0 3 3); [left; reflexivity|lia|vm_compute; reflexivity|].
    eapply (bu_more true 0 0 1 I_NO 0 1 1); [left; reflexivity|lia|vm_compute; reflexivity|constructor]. }
  repeat split; reflexivity.
Qed.
EX*)

(** ** C49 *)

(** C49 is violated by every block of two or more rows with operands that is placed below the top row: from then on the scan
    takes the row above and the row of the block as one group of parallel branches in that column, also if they were separate
    before. *)
Lemma C49_joined_actual_l : forall alloc n r col f fid c c' cells dq rows, whole_program c -> peek c LNets <> None -> block_size c f fid cells dq ->
  (2 <= cells)%nat -> (0 < dq)%nat -> fn_cell alloc n (S r) col f fid c = Ok (true, c') ->
  (exists en cols, peek c (LNet n) = Some (VNet en rows cols)) ->
  In (S r) (group rows (bar_at c' n) r col) /\ (bar_at c n (S r) col = false -> ~ In (S r) (group rows (bar_at c n) r col)).
Proof.
  intros alloc n r col f fid c c' cells dq rows W NN BS C2 DQ FN (en & cols & HN).
  destruct (C39_places_l alloc n (S r) col f fid c cells dq W BS ltac:(lia) NN) as (b & c1 & FN' & TR & PL & _). rewrite FN in FN'. injection FN' as <- <-.
  destruct (proj1 TR eq_refl) as ((_ & en' & rows' & cols' & HN' & R & _) & _). rewrite HN in HN'. injection HN' as <- <- <-.
  destruct (PL eq_refl) as [[P1 _] _]. unfold group. destruct (rows - S r)%nat as [|k] eqn:K; [lia|]. cbn [joined]. split.
  - unfold bar_at at 1. rewrite P1. replace (1 <? cells)%nat with true by (symmetry; apply Nat.ltb_lt; lia).
    replace (0 <? dq)%nat with true by (symmetry; apply Nat.ltb_lt; lia). cbn [andb]. apply in_seq. lia.
  - intros H. rewrite H. rewrite in_seq. lia.
Qed.
(*EX
Example C49_joined_case :
  let c := demo [[cellv I_NO [V R_M 0]; cellv I_COIL [V R_M 1]]; [cellv I_NOP []; cellv I_NOP []]; [cellv I_NOP []; cellv I_NOP []]] in
  bar_at c 0 1 0 = false /\ exists c', fn_cell true 0 1 0 I_EQ 0 c = Ok (true, c')
  /\ group 3 (bar_at c 0) 0 0 = [0%nat] /\ group 3 (bar_at c' 0) 0 0 = [0%nat; 1%nat].
Proof. cbv zeta. split; [reflexivity|]. eexists. split; [vm_compute; reflexivity|]. split; reflexivity. Qed.
EX*)
