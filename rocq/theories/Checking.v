(** The program checker follows the rules. *)
From Verif Require Export SpecCheck View Safe.

Lemma require_ok b e k : e <> P_OK -> require b e k = Ok P_OK <-> b = true /\ k = Ok P_OK.
Proof. intros H. unfold require. destruct b; split; try tauto; try (intros [A B]; auto; congruence); intros A; injection A; intros; contradiction. Qed.
(** A result other than undefined behaviour. *)
Definition defined {A} (r : res A) : Prop := exists a, r = Ok a.
Lemma require_def b e k : (b = true -> defined k) -> defined (require b e k).
Proof. intros H. unfold require. destruct b; auto. now exists e. Qed.

Lemma type_ok_spec i d v : type_ok i d (v_type v) = true <-> typed_as i d v.
Proof.
  unfold typed_as. destruct i; simpl; try (split; [intros _ l H; discriminate|tauto]);
    try (destruct d as [|[|d]]; simpl);
    destruct (v_type v); simpl; (split; [intros K l H; try discriminate K; injection H as <-; simpl; tauto|]);
    intros H; auto; specialize (H _ eq_refl); simpl in H; repeat (destruct H as [H|H]; try discriminate); tauto.
Qed.
Lemma index_spec c v k : check_index c v k = Ok P_OK <-> index_rule c v /\ k = Ok P_OK.
Proof.
  unfold check_index, index_rule, bad_index. 
  assert (B : forall n, require (0 <=? v_raw v) P_FAIL (require (v_raw v <? Z.of_nat n) P_FAIL k) = Ok P_OK <-> in_qty (v_raw v) n /\ k = Ok P_OK).
  { intros n. rewrite !require_ok by discriminate. unfold in_qty. rewrite Z.leb_le, Z.ltb_lt. tauto. }
  assert (D : forall n, ~ ~ in_qty (v_raw v) n <-> in_qty (v_raw v) n) by (intros; unfold in_qty; lia).
  destruct (v_type v); simpl; rewrite ?B; try rewrite D; intuition (try discriminate; try congruence).
Qed.
Lemma timer_spec c dq d v k : index_rule c v -> check_timer c dq d v k = Ok P_OK <-> (2 <= dq)%nat /\ timer_rule c d v /\ k = Ok P_OK.
Proof.
  intros [I1 I2]. unfold check_timer, timer_rule, basetime. rewrite require_ok by discriminate. rewrite Nat.leb_le.
  destruct d as [|[|d]]; [| |tauto].
  - rewrite !require_ok by discriminate. rewrite negb_true_iff, andb_false_iff, Nat.ltb_ge, Z.leb_gt.
    split; [intros (A & B & _ & D); destruct (v_type v); try discriminate; auto|].
    intros (A & B & D). unfold bad_index in I1. rewrite B in *. repeat split; auto. right.
    assert (E : in_qty (v_raw v) (q_t (x_q c))) by (assert (H := I1 ltac:(discriminate)); unfold in_qty in *; lia).
    unfold in_qty in E. unfold u32. assert (L := Z.mod_le (v_raw v) (2 ^ 32)). lia.
  - rewrite require_ok by discriminate. destruct (v_type v); simpl; try tauto; cbn; intuition (try discriminate; try congruence).
Qed.
Lemma in_elem {A} (p : option (list A)) n z : exactly n p -> 0 <= z ->
  (z < Z.of_nat n -> exists m, pget p z = Ok m /\ elem p (ix z) = Some m)
  /\ (Z.of_nat n <= z -> (forall m, pget p z <> Ok m) /\ elem p (ix z) = None).
Proof.
  intros [HA HB] Z0. unfold pget, elem, ix. destruct p as [l|]; simpl in *.
  - unfold lget, idx_ok. rewrite <- HA. split; intros K.
    + destruct (nth_error l (Z.to_nat z)) as [m|] eqn:F; [|apply nth_error_None in F; lia].
      exists m. rewrite (proj2 (Z.leb_le _ _)), (proj2 (Z.ltb_lt _ _)) by lia. auto.
    + rewrite (proj2 (Z.ltb_ge _ _)) by lia. rewrite andb_false_r. split; [discriminate|]. apply nth_error_None. lia.
  - split; intros K; [lia|]. split; [discriminate|auto].
Qed.
Lemma module_nonneg v : 0 <= v_module v.
Proof. unfold v_module. apply Z.mod_pos_bound. lia. Qed.
Lemma port_nonneg v : 0 <= v_port v.
Proof. unfold v_port. apply Z.mod_pos_bound. lia. Qed.
Lemma below_lt z q : 0 <= z -> below z q = (z <? Z.of_nat q).
Proof. intros H. unfold below. rewrite (proj2 (Z.leb_le _ _) H). auto. Qed.

Section Exact.
Context (c : ctx) (HR : exactly (io_rq (x_io c)) (x_in c)) (HW : exactly (io_wq (x_io c)) (x_out c)).

Lemma io_spec v k : check_io c v k = Ok P_OK <-> port_rule c v /\ k = Ok P_OK.
Proof.
  unfold check_io, port_rule, target.
  assert (M0 := module_nonneg v). assert (P0 := port_nonneg v).
  destruct (in_elem (x_in c) _ (v_module v) HR M0) as [R1 R2]. destruct (in_elem (x_out c) _ (v_module v) HW M0) as [W1 W2].
  rewrite !(below_lt (v_module v)) by auto. simpl.
  destruct (v_type v); simpl; try tauto.
  - unfold check_out. rewrite !require_ok by discriminate. rewrite negb_true_iff, Nat.eqb_neq, Z.leb_le.
    destruct (Z.ltb_spec (v_module v) (Z.of_nat (io_wq (x_io c)))) as [L|L].
    + destruct (W1 L) as (m & E1 & E2). rewrite E1, E2. simpl. rewrite require_ok by discriminate. rewrite below_lt by auto.
      destruct (v_port v <? _); intuition (try discriminate; try congruence; try lia).
    + destruct (W2 L) as [E1 _]. destruct (pget (x_out c) (v_module v)); simpl; try (intuition congruence). exfalso. eapply E1; eauto.
  - unfold check_in. rewrite !require_ok by discriminate. rewrite negb_true_iff, Nat.eqb_neq, Z.leb_le.
    destruct (Z.ltb_spec (v_module v) (Z.of_nat (io_rq (x_io c)))) as [L|L].
    + destruct (R1 L) as (m & E1 & E2). rewrite E1, E2. simpl. rewrite require_ok by discriminate. rewrite below_lt by auto.
      destruct (v_port v <? _); intuition (try discriminate; try congruence; try lia).
    + destruct (R2 L) as [E1 _]. destruct (pget (x_in c) (v_module v)); simpl; try (intuition congruence). exfalso. eapply E1; eauto.
  - unfold check_in. rewrite !require_ok by discriminate. rewrite negb_true_iff, Nat.eqb_neq, Z.leb_le.
    destruct (Z.ltb_spec (v_module v) (Z.of_nat (io_rq (x_io c)))) as [L|L].
    + destruct (R1 L) as (m & E1 & E2). rewrite E1, E2. simpl. rewrite require_ok by discriminate. rewrite below_lt by auto.
      destruct (v_port v <? _); intuition (try discriminate; try congruence; try lia).
    + destruct (R2 L) as [E1 _]. destruct (pget (x_in c) (v_module v)); simpl; try (intuition congruence). exfalso. eapply E1; eauto.
  - unfold check_out. rewrite !require_ok by discriminate. rewrite negb_true_iff, Nat.eqb_neq, Z.leb_le.
    destruct (Z.ltb_spec (v_module v) (Z.of_nat (io_wq (x_io c)))) as [L|L].
    + destruct (W1 L) as (m & E1 & E2). rewrite E1, E2. simpl. rewrite require_ok by discriminate. rewrite below_lt by auto.
      destruct (v_port v <? _); intuition (try discriminate; try congruence; try lia).
    + destruct (W2 L) as [E1 _]. destruct (pget (x_out c) (v_module v)); simpl; try (intuition congruence). exfalso. eapply E1; eauto.
Qed.
Lemma pget_nth_elem {A} (p : option (list A)) d : pget p (Z.of_nat d) = match elem p d with Some v => Ok v | None => match p with None => Bad UB_null | _ => Bad UB_oob end end.
Proof.
  unfold pget, elem. destruct p as [l|]; auto. simpl. unfold lget, idx_ok. rewrite Nat2Z.id.
  rewrite (proj2 (Z.leb_le _ _)) by lia. simpl. destruct (nth_error l d) eqn:F.
  - rewrite (proj2 (Z.ltb_lt _ _)); auto. apply inj_lt. apply nth_error_Some. congruence.
  - destruct (_ <? _); auto.
Qed.
Lemma operand_spec x d : check_operand c x d = Ok P_OK <->
  exists v, elem (c_data x) d = Some v /\ operand_rule c (c_code x) (c_dq x) d v.
Proof.
  unfold check_operand. rewrite pget_nth_elem. destruct (elem (c_data x) d) as [v|] eqn:F.
  2:{ destruct (c_data x); simpl; split; try discriminate; intros (v & A & _); discriminate. }
  simpl. assert (T : (exists v0, Some v = Some v0 /\ operand_rule c (c_code x) (c_dq x) d v0) <-> operand_rule c (c_code x) (c_dq x) d v).
  { split; [intros (v0 & [= <-] & B); auto|intros B; eauto]. }
  rewrite T. clear T. unfold operand_rule. change (timer_code (c_code x)) with (is_tmr (c_code x)). destruct (is_tmr (c_code x)).
  - split.
    + intros H. assert (I : index_rule c v).
      { unfold check_timer in H. rewrite require_ok in H by discriminate. destruct H as [_ H].
        destruct d as [|[|d]]; rewrite ?require_ok in H by discriminate.
        - destruct H as (_ & _ & H). now apply index_spec in H.
        - destruct H as (_ & H). now apply index_spec in H.
        - now apply index_spec in H. }
      apply timer_spec in H; auto. destruct H as (A & B & H). apply index_spec in H as [_ H].
      rewrite require_ok in H by discriminate. destruct H as [H _]. apply type_ok_spec in H. auto.
    + intros (I & A & B & H). apply timer_spec; auto. split; auto. split; auto. apply index_spec. split; auto.
      rewrite require_ok by discriminate. split; auto. now apply type_ok_spec.
  - rewrite io_spec, index_spec, require_ok, type_ok_spec by discriminate. tauto.
Qed.
Lemma operands_spec x k : forall d, check_operands c x k d = Ok P_OK <-> forall j, (d <= j < d + k)%nat -> check_operand c x j = Ok P_OK.
Proof.
  induction k as [|k IH]; intros d; simpl.
  - split; auto. intros _ j. lia.
  - destruct (check_operand c x d) as [[]| |] eqn:E; simpl;
      try (split; [discriminate|intros H; specialize (H d ltac:(lia)); congruence]).
    rewrite IH. split; intros H j J; [|apply H; lia]. destruct (Nat.eq_dec j d) as [->|N]; auto. apply H. lia.
Qed.
End Exact.

(** Rows taken by a cell. *)
Definition hgt (c : ctx) (x : cell) (h : nat) : Prop :=
  match c_code x with
  | I_MULTI => False
  | I_OTHER _ => h = 1%nat
  | I_FOREIGN => exists v k, elem (c_data x) 0 = Some v /\ (1 <= c_dq x)%nat /\ block_size c I_FOREIGN (ix (u32 (v_raw v))) h k
  | i => exists k, documented i = Some (h, k)
  end.
Lemma takes_hgt c n r col x h : cell_of c n r col = Some x -> takes c n r col h <-> hgt c x h.
Proof.
  intros H. unfold takes, hgt, code_at, operand_at. cbn [peek]. rewrite H. simpl. destruct (c_code x); try tauto.
  split.
  - intros (v & k & [A (bar & code & dq & B & C)] & D). destruct (elem (c_data x) 0) as [v0|]; [|discriminate]. injection A as ->.
    injection B as <- <- <-. exists v, k. repeat split; auto.
  - intros (v & k & A & B & D). exists v, k. rewrite A. repeat split; auto. exists (c_bar x), I_FOREIGN, (c_dq x). split; auto.
Qed.
Lemma hgt_fun c x h h' : hgt c x h -> hgt c x h' -> h = h'.
Proof.
  unfold hgt. destruct (c_code x); simpl; try (intros [k A] [k' B]; congruence); try congruence; try tauto.
  intros (v & k & A & _ & [B|(_ & fo & l & d & B1 & B2 & B3 & B4 & B5 & _)]) (v' & k' & A' & _ & [B'|(_ & fo' & l' & d' & B1' & B2' & B3' & B4' & B5' & _)]); try discriminate. congruence.
Qed.
Definition foreigners (c : ctx) : Prop := forall f i, peek c LForeign = Some (VForeign f) -> (i < fo_qty f)%nat ->
    exists d, elem (fo_fn f) i = Some d /\ (1 <= d_cells (f_iocd d) <= 255)%nat.
Lemma u32_pred n : (1 <= n <= 255)%nat -> u32 (Z.of_nat n - 1) = Z.of_nat (n - 1).
Proof. intros H. unfold u32. rewrite Z.mod_small by lia. lia. Qed.
Lemma rows_spec c rows row x e : foreigners c -> (row < rows)%nat -> c_code x <> I_MULTI ->
  check_rows c rows row x = Ok (inr e) <-> exists h, hgt c x h /\ (1 <= h)%nat /\ (row + h <= rows)%nat /\ e = Z.of_nat (h - 1).
Proof.
  intros HF HL HM.
  assert (Q : forall (d : iocd), (1 <= d_cells d <= 255)%nat ->
    (if (rows <? row + d_cells d)%nat then @Ok (perr + Z) (inl P_FAIL) else Ok (inr (u32 (Z.of_nat (d_cells d) - 1)))) = Ok (inr e)
    <-> (row + d_cells d <= rows)%nat /\ e = Z.of_nat (d_cells d - 1)).
  { intros d D. rewrite (u32_pred _ D). destruct (Nat.ltb_spec rows (row + d_cells d)); split; intros H0; try discriminate; try lia.
    - injection H0 as <-. split; auto.
    - destruct H0 as [_ ->]. auto. }
  unfold check_rows, hgt. destruct (c_code x) eqn:EC; cbn [beyond documented fn_iocd rbind]; try contradiction;
    try (split; [intros [= <-]; exists 1%nat; repeat split; eauto; lia|intros (h & A & B & C & D); f_equal; f_equal; destruct A as [k A] || idtac; try injection A as <- <-; subst; auto; try lia]);
    try (rewrite Q by (cbn; lia); cbn [d_cells]; split;
      [intros [A ->]; eexists; split; [eexists; reflexivity|repeat split; auto; lia]|intros (h & (k & [= <- <-]) & A & B & C); auto]).
  destruct (Nat.ltb_spec (c_dq x) 1) as [L|L].
  { split; [discriminate|]. intros (h & (v & k & _ & A & _) & _). lia. }
  assert (P0 := pget_nth_elem (c_data x) 0). change (Z.of_nat 0) with 0 in P0. rewrite P0. clear P0. destruct (elem (c_data x) 0) as [v|] eqn:EV.
  2:{ destruct (c_data x); simpl; split; try discriminate; intros (h & (v & k & A & _) & _); discriminate. }
  simpl. assert (N : 0 <= u32 (v_raw v)) by (unfold u32; apply Z.mod_pos_bound; lia).
  destruct (Z.leb_spec (Z.of_nat (fo_qty (x_for c))) (u32 (v_raw v))) as [Y|Y].
  { split; [discriminate|]. intros (h & (v' & k & [= <-] & _ & [A|(_ & fo & l & d & A1 & A2 & A3 & _)]) & _); [discriminate|].
    injection A1 as <-. unfold ix in A3. lia. }
  destruct (HF (x_for c) (ix (u32 (v_raw v))) eq_refl) as (d & D1 & D2); [unfold ix; lia|].
  replace (u32 (v_raw v)) with (Z.of_nat (ix (u32 (v_raw v)))) at 1 by (unfold ix; lia). rewrite pget_nth_elem, D1. simpl. rewrite Q by auto. split.
  - intros [A ->]. exists (d_cells (f_iocd d)). split; [|repeat split; auto; lia]. exists v, (d_dq (f_iocd d)). repeat split; auto.
    right. split; auto. unfold elem in D1. destruct (fo_fn (x_for c)) as [l|] eqn:EL; [|discriminate]. exists (x_for c), l, d. repeat split; auto. unfold ix; lia.
  - intros (h & (v' & k & [= <-] & _ & [A|(_ & fo & l & d' & A1 & A2 & A3 & A4 & A5 & A6)]) & B & C & E); [discriminate|].
    injection A1 as <-. unfold elem in D1. rewrite A2 in D1. simpl in D1. rewrite A4 in D1. injection D1 as ->. subst. auto.
Qed.

(** ** Columns *)

Definition cont (x : cell) : Prop := c_code x = I_MULTI /\ c_dq x = 0%nat /\ c_data x = None.
Lemma multi_code x : is_multi (c_code x) = true <-> c_code x = I_MULTI.
Proof. destruct (c_code x); simpl; split; congruence. Qed.
Definition sane (c : ctx) (x : cell) : Prop := forall d, (d < c_dq x)%nat -> check_operand c x d = Ok P_OK.
Lemma cell_spec c rows row x exp e : foreigners c -> (row < rows)%nat -> 0 <= exp ->
  check_cell c rows row x exp = Ok (inr e) <->
  (0 < exp /\ cont x /\ e = exp - 1)
  \/ (exp = 0 /\ c_code x <> I_MULTI /\ sane c x /\ exists h, hgt c x h /\ (1 <= h)%nat /\ (row + h <= rows)%nat /\ e = Z.of_nat (h - 1)).
Proof.
  intros HF HL HE. unfold check_cell, cont. destruct (Z.ltb_spec 0 exp) as [L|L].
  - destruct (is_multi (c_code x)) eqn:M.
    + apply multi_code in M. destruct (Nat.eqb_spec (c_dq x) 0); destruct (c_data x); simpl; split; intros H;
        try discriminate; try (injection H as <-; left; repeat split; auto; fail); destruct H as [(A & (B1 & B2 & B3) & C)|(A & _)]; try lia; try congruence.
    + split; [discriminate|]. intros [(A & (B1 & B2 & B3) & C)|(A & _)]; [apply multi_code in B1; congruence|lia].
  - assert (exp = 0) as -> by lia. destruct (is_multi (c_code x)) eqn:M.
    + apply multi_code in M. split; [discriminate|]. intros [(A & _)|(_ & A & _)]; [lia|contradiction].
    + assert (N : c_code x <> I_MULTI) by (intros K; apply multi_code in K; congruence).
      assert (G : sane c x <-> check_operands c x (c_dq x) 0 = Ok P_OK).
      { unfold sane. rewrite operands_spec. split; intros H j J; apply H; lia. }
      rewrite G. rewrite <- (rows_spec c rows row x e HF HL N).
      destruct (check_operands c x (c_dq x) 0) as [[]| |]; simpl; split; intros H; try discriminate; try (right; repeat split; auto; fail);
        destruct H as [(A & _)|(_ & _ & A & B)]; try lia; try discriminate; auto.
Qed.

Section Column.
Context (c : ctx) (HF : foreigners c) (n col : nat) (nt : network).
Let X j := cell_in nt j col.
Definition col_rule (row k e : nat) : Prop :=
  forall j, (row <= j < row + k)%nat -> exists x, X j = Ok x
    /\ ((j < row + e)%nat -> cont x)
    /\ ((row + e <= j)%nat -> c_code x <> I_MULTI -> sane c x /\ exists h, hgt c x h /\ (1 <= h)%nat /\ (j + h <= n_rows nt)%nat
           /\ forall i, (j < i < j + h)%nat -> exists y, X i = Ok y /\ cont y)
    /\ ((row + e <= j)%nat -> c_code x = I_MULTI -> exists r0 h y, (row + e <= r0 < j)%nat /\ X r0 = Ok y /\ hgt c y h /\ (j < r0 + h)%nat).
Lemma cont_hgt y h : cont y -> hgt c y h -> False.
Proof. intros [A _] B. unfold hgt in B. rewrite A in B. auto. Qed.
Lemma column_spec k : forall row e st, (row + k = n_rows nt)%nat -> (e <= k)%nat ->
  (exists st', check_column c n nt col k row (Z.of_nat e) st = Ok (st', true)) <-> col_rule row k e.
Proof.
  induction k as [|k IH]; intros row e st HK HE.
  { simpl. split; [|eauto]. intros _ j J. lia. }
  cbn [check_column]. split.
  - intros [st' H]. destruct (cell_in nt row col) as [x| |] eqn:EX; simpl in H; try discriminate.
    destruct (check_cell c (n_rows nt) row x (Z.of_nat e)) as [[er|e']| |] eqn:EC; simpl in H; try discriminate.
    apply cell_spec in EC; auto; try lia. destruct EC as [(A & B & C)|(A & B & G & h & C & D & F & K)].
    + subst e'. replace (Z.of_nat e - 1) with (Z.of_nat (e - 1)) in H by lia.
      assert (R : col_rule (S row) k (e - 1)) by (eapply IH; [lia|lia|eauto]). clear H.
      intros j J. destruct (Nat.eq_dec j row) as [->|N].
      * exists x. split; [auto|]. split; [auto|]. split; intros; lia.
      * destruct (R j ltac:(lia)) as (y & Y1 & Y2 & Y3 & Y4). exists y. split; auto. split; [intros; apply Y2; lia|]. split; intros Q1 Q2.
        -- apply Y3; auto; lia.
        -- destruct Y4 as (r0 & h & z & Z1 & Z2); [lia|auto|]. exists r0, h, z. split; [lia|auto].
    + subst e'. assert (e = 0)%nat as -> by lia.
      assert (R : col_rule (S row) k (h - 1)) by (eapply IH; [lia|lia|eauto]). clear H.
      intros j J. destruct (Nat.eq_dec j row) as [->|N].
      * exists x. split; [auto|]. split; [intros; lia|]. split; [|intros; contradiction]. intros _ _. split; auto. exists h. repeat split; auto.
        intros i I. destruct (R i ltac:(lia)) as (y & Y1 & Y2 & _). exists y. split; auto. apply Y2. lia.
      * destruct (R j ltac:(lia)) as (y & Y1 & Y2 & Y3 & Y4). exists y. split; auto. split; [intros; lia|].
        destruct (Nat.lt_ge_cases j (S row + (h - 1))) as [L|L].
        -- specialize (Y2 L). split; [intros _ Q; destruct Y2; contradiction|]. intros _ _. exists row, h, x. split; [lia|]. repeat split; auto. lia.
        -- split; [intros _; auto|]. intros _ Q. destruct (Y4 L Q) as (r0 & h0 & z & Z1 & Z2). exists r0, h0, z. split; [lia|auto].
  - intros R. destruct (R row ltac:(lia)) as (x & EX & R2 & R3 & R4). unfold X in EX. rewrite EX. cbn [rbind].
    destruct (Nat.eq_dec e 0) as [->|NE].
    + assert (NM : c_code x <> I_MULTI).
      { intros Q. destruct (R4 ltac:(lia) Q) as (r0 & h & y & Q1 & _). lia. }
      destruct (R3 ltac:(lia) NM) as (G & h & H1 & H2 & H3 & H4).
      assert (EC : check_cell c (n_rows nt) row x (Z.of_nat 0) = Ok (inr (Z.of_nat (h - 1)))).
      { apply cell_spec; auto; try lia. right. repeat split; auto. exists h. auto. }
      rewrite EC. cbn [rbind]. apply IH; [lia|lia|]. intros j J. destruct (R j ltac:(lia)) as (y & Y1 & _ & Y3 & Y4). exists y. split; auto.
      split; [|split].
      * intros L. destruct (H4 j ltac:(lia)) as (y' & Z1 & Z2). congruence.
      * intros L Q. apply Y3; auto. lia.
      * intros L Q. destruct (Y4 ltac:(lia) Q) as (r0 & h0 & z & Z1 & Z2 & Z3 & Z4). exists r0, h0, z. split; [|auto]. split; [|lia].
        destruct (Nat.lt_ge_cases r0 (S row + (h - 1))) as [L0|]; auto. exfalso. destruct (Nat.eq_dec r0 row) as [->|N0].
        -- unfold X in Z2. assert (z = x) as -> by congruence. assert (h0 = h) as -> by (eapply hgt_fun; eauto). lia.
        -- destruct (H4 r0 ltac:(lia)) as (y' & W1 & W2). assert (z = y') as -> by congruence. eapply cont_hgt; eauto.
    + assert (EC : check_cell c (n_rows nt) row x (Z.of_nat e) = Ok (inr (Z.of_nat (e - 1)))).
      { apply cell_spec; auto; try lia. left. split; [lia|]. split; [apply R2; lia|lia]. }
      rewrite EC. cbn [rbind]. apply IH; [lia|lia|]. intros j J. destruct (R j ltac:(lia)) as (y & Y1 & Y2 & Y3 & Y4). exists y. split; auto.
      split; [intros; apply Y2; lia|]. split; intros Q1 Q2.
      * apply Y3; auto; lia.
      * destruct Y4 as (r0 & h & z & Z1 & Z2); [lia|auto|]. exists r0, h, z. split; [lia|auto].
Qed.
End Column.

(** ** Networks *)

Definition fine (st : option pstatus) : Prop := match st with None => True | Some s => ps_err s = P_OK end.
Lemma require_err b e k e' : require b e k = Ok e' -> e' = e \/ k = Ok e'.
Proof. unfold require. destruct b; auto. intros [= <-]; auto. Qed.
Lemma columns_spec c n nt : foreigners c -> forall k col st,
  (exists st', check_columns c n nt k col st = Ok (st', true)) <-> forall j, (col <= j < col + k)%nat -> col_rule c j nt 0 (n_rows nt) 0.
Proof.
  intros HF. induction k as [|k IH]; intros col st.
  { simpl. split; [|eauto]. intros _ j. lia. }
  cbn [check_columns]. assert (SP := column_spec c HF n col nt (n_rows nt) 0 0 st eq_refl ltac:(lia)). change (Z.of_nat 0) with 0 in SP.
  split.
  - intros [st' H]. destruct (check_column c n nt col (n_rows nt) 0 0 st) as [[s []]| |] eqn:E; simpl in H; try discriminate.
    assert (R : forall j, (S col <= j < S col + k)%nat -> col_rule c j nt 0 (n_rows nt) 0) by (eapply IH; eauto).
    intros j J. destruct (Nat.eq_dec j col) as [->|N]; [apply SP; eauto|apply R; lia].
  - intros H. destruct (proj2 SP (H col ltac:(lia))) as [s E]. rewrite E. cbn [rbind]. apply IH. intros j J. apply H. lia.
Qed.
Lemma networks_spec c : foreigners c -> forall k n st,
  (exists st', check_networks c k n st = Ok (st', true)) <->
  forall j, (n <= j < n + k)%nat -> exists nt, net_at j c = Ok nt /\ forall col, (col < n_cols nt)%nat -> col_rule c col nt 0 (n_rows nt) 0.
Proof.
  intros HF. induction k as [|k IH]; intros n st.
  { simpl. split; [|eauto]. intros _ j. lia. }
  cbn [check_networks]. split.
  - intros [st' H]. destruct (net_at n c) as [nt| |] eqn:EN; cbn [rbind] in H; try discriminate.
    assert (SP := columns_spec c n nt HF (n_cols nt) 0 st).
    destruct (check_columns c n nt (n_cols nt) 0 st) as [[s []]| |] eqn:E; simpl in H; try discriminate.
    assert (R : forall j, (S n <= j < S n + k)%nat -> exists nt, net_at j c = Ok nt /\ forall col, (col < n_cols nt)%nat -> col_rule c col nt 0 (n_rows nt) 0) by (eapply IH; eauto).
    intros j J. destruct (Nat.eq_dec j n) as [->|N]; [|apply R; lia]. exists nt. split; auto. intros col L. apply SP; [eauto|lia].
  - intros H. destruct (H n ltac:(lia)) as (nt & EN & R). rewrite EN. cbn [rbind].
    destruct (proj2 (columns_spec c n nt HF (n_cols nt) 0 st)) as [s E]; [intros j J; apply R; lia|]. rewrite E. cbn [rbind]. apply IH. intros j J. apply H. lia.
Qed.

(** ** The status *)

Lemma cell_err c rows row x exp e : check_cell c rows row x exp = Ok (inl e) -> e <> P_OK.
Proof.
  unfold check_cell, check_rows. intros H ->.
  destruct (0 <? exp), (is_multi (c_code x)); try discriminate.
  { destruct (_ && _); discriminate. }
  destruct (check_operands c x (c_dq x) 0) as [[]| |]; simpl in H; try discriminate.
  destruct (c_code x); simpl in H; try discriminate;
    repeat match type of H with (if ?b then _ else _) = _ => destruct b end; try discriminate.
  destruct (pget (c_data x) 0); simpl in H; try discriminate.
  destruct (_ <=? _); simpl in H; try discriminate. destruct (pget (fo_fn (x_for c)) _); simpl in H; try discriminate. 
  destruct (_ <? _)%nat; discriminate.
Qed.
(** The status points at a cell of the network. *)
Definition points (nt : network) (n col : nat) (s : pstatus) : Prop :=
  ps_net s = n /\ ps_col s = col /\ (ps_row s < n_rows nt)%nat /\ exists x, cell_in nt (ps_row s) col = Ok x /\ ps_code s = c_code x.
Definition status_of (P : pstatus -> Prop) (st st' : option pstatus) (go : bool) (some : Prop) : Prop :=
  (if go then (fine st -> fine st') /\ ((st' <> None) <-> (st <> None \/ some)) else exists s, st' = Some s /\ ps_err s <> P_OK)
  /\ ((forall s, st = Some s -> P s) -> forall s, st' = Some s -> P s).
Lemma column_status c n nt col (P : pstatus -> Prop) k : forall row exp st st' go, (row + k <= n_rows nt)%nat -> (forall s, points nt n col s -> P s) ->
  check_column c n nt col k row exp st = Ok (st', go) -> status_of P st st' go (0 < k)%nat.
Proof.
  induction k as [|k IH]; intros row exp st st' go HK HP H; cbn [check_column] in H.
  { injection H as <- <-. unfold status_of. intuition lia. }
  destruct (cell_in nt row col) as [x| |] eqn:EX; simpl in H; try discriminate.
  assert (HQ : forall e, P (mk_pstatus n row col e (c_code x))).
  { intros e. apply HP. repeat split; simpl; auto; [lia|eauto]. }
  destruct (check_cell c (n_rows nt) row x exp) as [[e|e']| |] eqn:EC; simpl in H; try discriminate.
  - injection H as <- <-. apply cell_err in EC. split; [eauto|]. intros _ s [= <-]; auto.
  - apply IH in H; [|lia|auto]. destruct H as (A & D). split; [|intros _; apply D; intros s [= <-]; auto].
    destruct go; auto. destruct A as [A B]. split; [intros _; now apply A|]. rewrite B. split; [intros _; right; lia|intros _; left; discriminate].
Qed.
Lemma columns_status c n nt (P : pstatus -> Prop) k : forall col st st' go, (col + k <= n_cols nt)%nat -> (forall s col, (col < n_cols nt)%nat -> points nt n col s -> P s) ->
  check_columns c n nt k col st = Ok (st', go) -> status_of P st st' go (0 < k /\ 0 < n_rows nt)%nat.
Proof.
  induction k as [|k IH]; intros col st st' go HK HP H; cbn [check_columns] in H.
  { injection H as <- <-. unfold status_of. intuition lia. }
  destruct (check_column c n nt col (n_rows nt) 0 0 st) as [[s g]| |] eqn:E; simpl in H; try discriminate.
  assert (Q := column_status c n nt col P (n_rows nt) 0%nat 0 st s g (Nat.le_refl _) (fun s => HP s col ltac:(lia)) E).
  destruct g; [|injection H as <- <-; exact Q].
  apply IH in H; [|lia|auto]. destruct Q as (A & D), H as (A' & D'). split; [|auto]. destruct go; auto. destruct A as [A B], A' as [A' B']. split; [auto|].
  rewrite B', B. intuition lia.
Qed.
Lemma networks_status c (P : pstatus -> Prop) k : forall n st st' go, (n + k <= q_nets (x_q c))%nat ->
  (forall s n nt col, (n < q_nets (x_q c))%nat -> net_at n c = Ok nt -> (col < n_cols nt)%nat -> points nt n col s -> P s) ->
  check_networks c k n st = Ok (st', go) ->
  status_of P st st' go (exists j nt, (n <= j < n + k)%nat /\ net_at j c = Ok nt /\ 0 < n_rows nt /\ 0 < n_cols nt)%nat.
Proof.
  induction k as [|k IH]; intros n st st' go HK HP H; cbn [check_networks] in H.
  { injection H as <- <-. split; auto. split; auto. split; auto. intros [|(j & nt & A & _)]; auto. lia. }
  destruct (net_at n c) as [nt| |] eqn:EN; cbn [rbind] in H; try discriminate.
  destruct (check_columns c n nt (n_cols nt) 0 st) as [[s g]| |] eqn:E; simpl in H; try discriminate.
  assert (Q := columns_status c n nt P (n_cols nt) 0%nat st s g (Nat.le_refl _) (fun s col L => HP s n nt col ltac:(lia) EN L) E).
  destruct g; [|injection H as <- <-; destruct Q as [A B]; split; auto].
  apply IH in H; [|lia|auto]. destruct Q as (A & D), H as (A' & D'). split; [|auto]. destruct go; auto. destruct A as [A B], A' as [A' B']. split; [auto|].
  rewrite B', B. split.
  - intros [[|(L1 & L2)]|(j & nt' & J & K)]; auto; right.
    + exists n, nt. repeat split; auto; lia.
    + exists j, nt'. split; [lia|auto].
  - intros [|(j & nt' & J & K1 & K2 & K3)]; auto. destruct (Nat.eq_dec j n) as [->|N].
    + left. right. replace nt with nt' by congruence. auto.
    + right. exists j, nt'. split; [lia|auto].
Qed.

(** ** No undefined behaviour *)

Lemma defined_bind {A B} (m : res A) (k : A -> res B) : defined m -> (forall a, m = Ok a -> defined (k a)) -> defined (rbind m k).
Proof. intros [a ->] H. simpl. auto. Qed.
Lemma ok_defined {A} (a : A) : defined (Ok a).
Proof. now exists a. Qed.
Lemma index_def c v k : defined k -> defined (check_index c v k).
Proof. intros H. unfold check_index. destruct (v_type v); auto; try apply ok_defined; repeat (apply require_def; intros _; auto). Qed.
Lemma operand_def c x d v : exactly (io_rq (x_io c)) (x_in c) -> exactly (io_wq (x_io c)) (x_out c) -> elem (c_data x) d = Some v ->
  match v_type v with
  | R_I | R_IW => v_module v <> Z.of_nat (io_rq (x_io c))
  | R_Q | R_QW => v_module v <> Z.of_nat (io_wq (x_io c))
  | _ => True end -> defined (check_operand c x d).
Proof.
  intros HR HW EV HM. unfold check_operand. rewrite pget_nth_elem, EV. simpl.
  set (t := check_index c v _). assert (T : defined t) by (apply index_def, require_def; intros _; apply ok_defined). clearbody t.
  destruct (is_tmr (c_code x)).
  - unfold check_timer. apply require_def. intros _. destruct d as [|[|d]]; auto; repeat (apply require_def; intros _; auto).
  - assert (M0 := module_nonneg v). unfold check_io, check_in, check_out.
    destruct (in_elem (x_in c) _ (v_module v) HR M0) as [R1 _]. destruct (in_elem (x_out c) _ (v_module v) HW M0) as [W1 _].
    destruct (v_type v); auto; apply require_def; intros _; apply require_def; intros L; apply Z.leb_le in L;
      (destruct R1 as (m & -> & _); [lia|]) || (destruct W1 as (m & -> & _); [lia|]); simpl; apply require_def; auto.
Qed.
Lemma operands_def c x k : forall d, (forall j, (d <= j < d + k)%nat -> defined (check_operand c x j)) -> defined (check_operands c x k d).
Proof.
  induction k as [|k IH]; intros d H; simpl; [apply ok_defined|]. apply defined_bind; [apply H; lia|]. intros e _.
  destruct e; try apply ok_defined. apply IH. intros j J. apply H. lia.
Qed.
Lemma cell_def c rows row x exp : foreigners c -> (forall d, (d < c_dq x)%nat -> defined (check_operand c x d)) -> (c_dq x = 0 \/ exists v, elem (c_data x) 0 = Some v)%nat ->
  defined (check_cell c rows row x exp).
Proof.
  intros HF HD HV. unfold check_cell. destruct (_ <? _); [destruct (is_multi _); [destruct (_ && _)|]; apply ok_defined|].
  destruct (is_multi _); [apply ok_defined|]. apply defined_bind; [apply operands_def; intros j J; apply HD; lia|].
  intros e _. destruct e; try apply ok_defined. unfold check_rows. destruct (c_code x); simpl; try apply ok_defined; try (destruct (_ <? _)%nat; apply ok_defined).
  destruct (Nat.ltb_spec (c_dq x) 1) as [L|L]; [apply ok_defined|]. destruct HV as [HV|[v EV]]; [lia|].
  assert (P0 := pget_nth_elem (c_data x) 0). change (Z.of_nat 0) with 0 in P0. rewrite P0, EV. simpl.
  assert (N : 0 <= u32 (v_raw v)) by (unfold u32; apply Z.mod_pos_bound; lia).
  destruct (Z.leb_spec (Z.of_nat (fo_qty (x_for c))) (u32 (v_raw v))) as [Y|Y]; [apply ok_defined|].
  destruct (HF (x_for c) (ix (u32 (v_raw v))) eq_refl) as (d & D1 & D2); [unfold ix; lia|].
  replace (u32 (v_raw v)) with (Z.of_nat (ix (u32 (v_raw v)))) by (unfold ix; lia). rewrite pget_nth_elem, D1. simpl. destruct (_ <? _)%nat; apply ok_defined.
Qed.
Lemma column_def c n nt col k : forall row exp st,
  (forall j exp, (row <= j < row + k)%nat -> exists x, cell_in nt j col = Ok x /\ defined (check_cell c (n_rows nt) j x exp)) ->
  defined (check_column c n nt col k row exp st).
Proof.
  induction k as [|k IH]; intros row exp st H; simpl; [apply ok_defined|].
  destruct (H row exp ltac:(lia)) as (x & -> & [r Hr]). simpl. rewrite Hr. simpl. destruct r; [apply ok_defined|]. apply IH. intros j e J. apply H. lia.
Qed.
Lemma columns_def c n nt k : forall col st,
  (forall j col' exp, (j < n_rows nt)%nat -> (col <= col' < col + k)%nat -> exists x, cell_in nt j col' = Ok x /\ defined (check_cell c (n_rows nt) j x exp)) ->
  defined (check_columns c n nt k col st).
Proof.
  induction k as [|k IH]; intros col st H; simpl; [apply ok_defined|].
  apply defined_bind; [apply column_def; intros j e J; apply H; lia|]. intros [s []] _; [|apply ok_defined]. apply IH. intros; apply H; lia.
Qed.
Lemma networks_def c k : forall n st,
  (forall j, (n <= j < n + k)%nat -> exists nt, net_at j c = Ok nt /\ forall r col exp, (r < n_rows nt)%nat -> (col < n_cols nt)%nat ->
     exists x, cell_in nt r col = Ok x /\ defined (check_cell c (n_rows nt) r x exp)) ->
  defined (check_networks c k n st).
Proof.
  induction k as [|k IH]; intros n st H; simpl; [apply ok_defined|].
  destruct (H n ltac:(lia)) as (nt & -> & Q). simpl. apply defined_bind; [apply columns_def; intros; apply Q; lia|].
  intros [s []] _; [|apply ok_defined]. apply IH. intros; apply H; lia.
Qed.

(** ** The program as a whole *)

Lemma cell_in_ncell nt r col x : cell_in nt r col = Ok x <-> ncell nt r col = Some x.
Proof.
  unfold cell_in, ncell, elem, nth_res. destruct (n_cells nt) as [l|]; simpl; [|split; discriminate].
  destruct (nth_error l r) as [rw|]; simpl; [|split; discriminate]. destruct (nth_error rw col); split; congruence.
Qed.
Lemma cell_in_at c n nt r col x : net_at n c = Ok nt -> cell_in nt r col = Ok x <-> cell_of c n r col = Some x.
Proof. intros H. rewrite cell_in_ncell. apply net_at_inv in H. rewrite (cell_of_net c n nt r col H). tauto. Qed.
Lemma cont_at c n r col x : cell_of c n r col = Some x -> continuation c n r col <-> cont x.
Proof.
  intros H. unfold continuation, cont. cbn [peek]. rewrite H. simpl. unfold size. destruct (c_data x); simpl; split.
  - intros (bar & _ & A). discriminate.
  - intros (_ & _ & A). discriminate.
  - intros (bar & [= A B C] & _). auto.
  - intros (A & B & _). rewrite A, B. eauto.
Qed.
