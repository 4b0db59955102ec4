(** Operand access: the accessors of the model against the specification. *)
From Verif Require Export View.

(** ** Stability of the vocabulary *)
Lemma peek_qty c c' : peek c' LQty = peek c LQty -> x_q c' = x_q c.
Proof. simpl; congruence. Qed.
Lemma peek_io c c' : peek c' LIo = peek c LIo -> x_io c' = x_io c.
Proof. simpl; congruence. Qed.
(** Places holding data that programs read. *)
Definition is_store (l : loc) : Prop :=
  match l with
  | LReg _ _ | LRegLen _ | LTs _ | LAcc _ | LTmLen | LIn _ _ _ | LInLen _ _ | LInMeta _ | LInCount
  | LOut _ _ _ | LOutLen _ _ | LOutMeta _ | LOutCount | LQty | LIo => True
  | _ => False
  end.
Definition same_store (c c' : ctx) : Prop := forall l, is_store l -> peek c' l = peek c l.
Lemma size_none {A} (p p' : option (list A)) : size p = size p' -> p <> None -> p' <> None.
Proof. destruct p, p'; simpl; congruence. Qed.
Lemma same_store_none c c' b : same_store c c' -> bank_arr b c <> None -> bank_arr b c' <> None.
Proof. intros H. apply size_none. symmetry. apply (H (LRegLen b) I). Qed.
Lemma same_store_tm c c' : same_store c c' -> x_tm c <> None -> x_tm c' <> None.
Proof. intros H. apply size_none. symmetry. apply (H LTmLen I). Qed.
Lemma bad_index_same c c' v : same_store c c' -> bad_index c' v <-> bad_index c v.
Proof. intros H. unfold bad_index. rewrite (peek_qty c c') by (apply H; simpl; auto). tauto. Qed.
Lemma reads_same c c' v z : same_store c c' -> reads c v z -> reads c' v z.
Proof.
  intros H R. unfold reads in *. rewrite (bad_index_same c c' v H). rewrite (peek_io c c') by (apply H; simpl; auto).
  unfold holds_flag, holds in *. destruct R as [(R1 & R2 & R3)|(R1 & R2)]; [left|right]; split; auto.
  - split; auto. pose proof (fun b => same_store_none c c' b H). pose proof (same_store_tm c c' H).
    destruct (v_type v); intuition eauto.
  - destruct (v_type v); rewrite ?(H (LReg _ _) I), ?(H (LAcc _) I), ?(H (LOut _ _ _) I), ?(H (LIn _ _ _) I); auto.
    all: destruct (_ <? _); rewrite ?(H (LOut _ _ _) I), ?(H (LIn _ _ _) I); auto.
Qed.
Lemma target_same c c' v : same_store c c' -> target c' v = target c v.
Proof.
  intros H. unfold target. rewrite (peek_io c c') by (apply H; simpl; auto). rewrite (peek_qty c c') by (apply H; simpl; auto).
  rewrite ?(H (LOutMeta _) I), ?(H (LInMeta _) I). auto.
Qed.

Definition bad_b (c : ctx) (v : value) : bool :=
  match v_type v with
  | R_T => negb (below (v_raw v) (q_t (x_q c)))
  | t => match bank_of t with Some b => negb (below (v_raw v) (bank_qty b (x_q c))) | None => false end
  end.
Lemma below_spec z q : below z q = true <-> in_qty z q.
Proof. unfold below, in_qty; lia. Qed.
Lemma bad_b_spec c v : bad_b c v = true <-> bad_index c v.
Proof.
  unfold bad_b, bad_index. destruct (v_type v); simpl; rewrite ?negb_true_iff, <- ?below_spec;
    try (split; [discriminate|tauto]); try (destruct (below _ _); intuition congruence).
Qed.
(** Reporting an out-of-range operand. *)
Definition mark (c : ctx) (v : value) : ctx := if bad_b c v then set_x_last (set_l_err E_OUTOFRANGE (x_last c)) c else c.
Lemma mark_frame c v l : l <> LErr -> peek (mark c v) l = peek c l.
Proof. unfold mark. destruct (bad_b c v); auto. destruct l; auto; congruence. Qed.
Lemma mark_good c v : ~ bad_index c v -> mark c v = c.
Proof. unfold mark. rewrite <- bad_b_spec. destruct (bad_b c v); auto; tauto. Qed.
Lemma mark_bad c v : bad_index c v -> mark c v = set_x_last (set_l_err E_OUTOFRANGE (x_last c)) c.
Proof. unfold mark. rewrite <- bad_b_spec. intros ->; auto. Qed.

(** ** Cells *)
Lemma peek_cell c n r col b k d : peek c (LCell n r col) = Some (VCell b k d) ->
  exists x, cell_of c n r col = Some x /\ c_bar x = b /\ c_code x = k /\ c_dq x = d.
Proof. simpl. destruct (cell_of c n r col) as [x|]; simpl; [|discriminate]. intros [= <- <- <-]; eauto. Qed.
Lemma executing_cell c n r col : executing c n r col ->
  exists nt x, x_exec c = Some n /\ net_of c n = Some nt /\ (r < n_rows nt)%nat /\ (col < n_cols nt)%nat
               /\ cell_of c n r col = Some x /\ ncell nt r col = Some x.
Proof.
  intros (H1 & (en & rows & cols & H2 & H3 & H4) & (b & k & d & H5)).
  simpl in H1. destruct (peek_cell _ _ _ _ _ _ _ H5) as (x & Hx & _).
  destruct (cell_of_inv _ _ _ _ _ Hx) as (nt & Hn & Hc). simpl in H2. rewrite Hn in H2; simpl in H2.
  inversion H2; subst. inversion H1. exists nt, x. auto 10.
Qed.
Lemma ex_cell_ok c n r col x : x_exec c = Some n -> cell_of c n r col = Some x -> ex_cell r col c = Ok x.
Proof.
  intros H1 H2. destruct (cell_of_inv _ _ _ _ _ H2) as (nt & Hn & Hc).
  unfold ex_cell. rewrite H1, (net_at_of _ _ _ Hn); simpl. apply cell_in_of; auto.
Qed.
Lemma operand_ok c n r col i v : executing c n r col -> operand_at c n r col i v -> operand r col i c = Ok (Some v).
Proof.
  intros He (H1 & b & k & d & H2 & H3). destruct (executing_cell _ _ _ _ He) as (nt & x & Hx & Hn & Hr & Hc & Hce & Hnc).
  unfold operand. rewrite Hx, (net_at_of _ _ _ Hn); simpl.
  replace (n_rows nt <=? r)%nat with false by lia. replace (n_cols nt <=? col)%nat with false by lia. simpl.
  rewrite (cell_in_of _ _ _ _ Hnc); simpl. simpl in H1, H2. rewrite Hce in H1, H2; simpl in H1, H2.
  inversion H2; subst. replace (c_dq x <=? i)%nat with false by lia.
  destruct (elem (c_data x) i) eqn:Hd; simpl in H1; [|discriminate]. inversion H1; subst.
  rewrite (pget_nat _ _ _ Hd); auto.
Qed.
Lemma operand_none c n r col i b k d :
  executing c n r col -> peek c (LCell n r col) = Some (VCell b k d) -> (d <= i)%nat -> operand r col i c = Ok None.
Proof.
  intros He H2 H3. destruct (executing_cell _ _ _ _ He) as (nt & x & Hx & Hn & Hr & Hc & Hce & Hnc).
  unfold operand. rewrite Hx, (net_at_of _ _ _ Hn); simpl.
  replace (n_rows nt <=? r)%nat with false by lia. replace (n_cols nt <=? col)%nat with false by lia. simpl.
  rewrite (cell_in_of _ _ _ _ Hnc); simpl. simpl in H2. rewrite Hce in H2; simpl in H2.
  inversion H2; subst. replace (c_dq x <=? i)%nat with true by lia. auto.
Qed.
Lemma ex_data_ok c n r col i v : executing c n r col -> peek c (LData n r col i) = Some (VVal v) -> ex_data r col i c = Ok v.
Proof.
  intros He H1. destruct (executing_cell _ _ _ _ He) as (nt & x & Hx & Hn & Hr & Hc & Hce & Hnc).
  unfold ex_data. rewrite (ex_cell_ok _ _ _ _ _ Hx Hce); simpl. simpl in H1. rewrite Hce in H1; simpl in H1.
  destruct (elem (c_data x) i) eqn:Hd; simpl in H1; [|discriminate]. inversion H1; subst. apply pget_nat; auto.
Qed.

(** ** Reading *)
Lemma below_false z q : below z q = false <-> ~ in_qty z q.
Proof. rewrite <- below_spec. destruct (below z q); intuition congruence. Qed.
Lemma holds_elem c b i z : holds c (LReg b i) z -> elem (bank_arr b c) i = Some z.
Proof. unfold holds; simpl. destruct (elem (bank_arr b c) i); simpl; congruence. Qed.
Lemma holds_get c b z u : 0 <= z -> holds c (LReg b (ix z)) u -> bk_get b z c = Ok u.
Proof. intros Hz H. unfold bk_get. rewrite arr_of_bank. apply pget_elem; auto. apply holds_elem; auto. Qed.
Lemma holds_bool c b z u : 0 <= z -> holds_flag c (LReg b (ix z)) u -> bk_bool b z c = Ok (u =? 1) /\ b2z (u =? 1) = u.
Proof.
  intros Hz (H & Hu). unfold bk_bool, bget. rewrite arr_of_bank.
  rewrite (pget_elem _ _ _ Hz (holds_elem _ _ _ _ H)); simpl. destruct Hu as [-> | ->]; auto.
Qed.
Lemma holds_out c m k p z : 0 <= m -> 0 <= p -> holds c (LOut (ix m) k (ix p)) z -> out_get k m p c = Ok z.
Proof.
  unfold holds; simpl; intros Hm Hp H. unfold out_get.
  destruct (elem (x_out c) (ix m)) as [om|] eqn:E; simpl in H; [|discriminate].
  rewrite (pget_elem _ _ _ Hm E); simpl. rewrite o_arr_out.
  destruct (elem (out_arr k om) (ix p)) eqn:E2; simpl in H; [|discriminate]. inversion H; subst. apply pget_elem; auto.
Qed.
Lemma holds_in c m k p z : 0 <= m -> 0 <= p -> holds c (LIn (ix m) k (ix p)) z -> in_get k m p c = Ok z.
Proof.
  unfold holds; simpl; intros Hm Hp H. unfold in_get.
  destruct (elem (x_in c) (ix m)) as [om|] eqn:E; simpl in H; [|discriminate].
  rewrite (pget_elem _ _ _ Hm E); simpl. rewrite i_arr_in.
  destruct (elem (in_arr k om) (ix p)) eqn:E2; simpl in H; [|discriminate]. inversion H; subst. apply pget_elem; auto.
Qed.
Lemma v_module_nn v : 0 <= v_module v < 256. Proof. unfold v_module. apply (Z.mod_pos_bound _ (2 ^ 8)); lia. Qed.
Lemma v_port_nn v : 0 <= v_port v < 256. Proof. unfold v_port. apply (Z.mod_pos_bound _ (2 ^ 8)); lia. Qed.

Definition indexed (t : reg) : bool :=
  match t with R_M | R_Cd | R_Cr | R_Td | R_Tr | R_C | R_T | R_D | R_R => true | _ => false end.
Lemma safe_index_bad c v : indexed (v_type v) = true -> bad_index c v ->
  match v_type v with R_T => x_tm c <> None | t => forall b, bank_of t = Some b -> bank_arr b c <> None end ->
  safe_index (v_type v) (v_raw v) c = E_OUTOFRANGE.
Proof.
  unfold bad_index, safe_index, in_qty, reg_bank. destruct (v_raw v <? 0) eqn:Hs; auto.
  destruct (v_type v); simpl; try discriminate; intros _ H1 H2;
    try (specialize (H2 _ eq_refl); simpl in H2);
    match goal with |- context [is_null ?p] => destruct p; [simpl|congruence] end;
    match goal with |- context [?a <=? ?b] => replace (a <=? b) with true by lia end; auto.
Qed.
Lemma safe_index_good c v : indexed (v_type v) = true -> ~ bad_index c v ->
  match v_type v with R_T => x_tm c <> None | t => forall b, bank_of t = Some b -> bank_arr b c <> None end ->
  safe_index (v_type v) (v_raw v) c = E_OK /\ 0 <= v_raw v.
Proof.
  unfold bad_index, safe_index, in_qty, reg_bank.
  destruct (v_type v); simpl; try discriminate; intros _ H1 H2;
    (replace (v_raw v <? 0) with false by lia);
    try (specialize (H2 _ eq_refl); simpl in H2);
    (match goal with |- context [is_null ?p] => destruct p; [simpl|congruence] end);
    (match goal with |- context [?a <=? ?b] => replace (a <=? b) with false by lia end); split; auto; lia.
Qed.
Lemma elem_not_none {A} (p : option (list A)) i a : elem p i = Some a -> p <> None.
Proof. destruct p; simpl; congruence. Qed.

Lemma holds_reg_nn c b i z : holds c (LReg b i) z -> bank_arr b c <> None.
Proof. intros H; apply holds_elem in H. eapply elem_not_none; eauto. Qed.
Lemma holds_acc_nn c i z : holds c (LAcc i) z -> x_tm c <> None.
Proof. unfold holds; simpl. destruct (x_tm c); simpl; congruence. Qed.
Lemma get_data_value_reads E s n r col i v z :
  executing (s_ctx s) n r col -> operand_at (s_ctx s) n r col i v -> reads (s_ctx s) v z ->
  get_data_value E r col i s = Ok (z, inc s (mark (s_ctx s) v)).
Proof.
  intros He Ho R. set (c := s_ctx s) in *. unfold get_data_value. rewrite bind_getc. fold c.
  rewrite (bind_ok _ _ _ _ _ (lift_ok _ _ _ (operand_ok _ _ _ _ _ _ He Ho))).
  pose proof (v_module_nn v) as HM. pose proof (v_port_nn v) as HP.
  destruct (indexed (v_type v)) eqn:Hi.
  - assert (G : (if is_ok (safe_index (v_type v) (v_raw v) c) then lift (reg_value (v_type v) (v_raw v) c)
       else set_err (safe_index (v_type v) (v_raw v) c) ;;;
         (if err_eqb (safe_index (v_type v) (v_raw v) c) E_FAIL || err_eqb (safe_index (v_type v) (v_raw v) c) E_TYPEMISMATCH
          then set_state S_ERROR ;;; panic E else ret tt) ;;; ret 0) s = Ok (z, inc s (mark c v))).
    { destruct R as [(R1 & R2 & R3)|(R1 & R2)].
      - rewrite (safe_index_bad _ _ Hi R1 R3), (mark_bad _ _ R1). subst z. reflexivity.
      - destruct (safe_index_good c v Hi R1) as (-> & Hz).
        { unfold holds_flag in R2. destruct (v_type v); try discriminate;
            try (destruct R2 as (u & R2 & R3)); try (destruct R2 as (R2 & R3));
            try (eapply holds_acc_nn; eauto; fail); intros b [= <-]; eapply holds_reg_nn; eauto. }
        simpl. rewrite (mark_good _ _ R1). unfold c; rewrite inc_self; fold c.
        unfold reg_value. destruct (v_type v); try discriminate.
        all: try (destruct (holds_bool _ _ _ _ Hz R2) as (HB1 & HB2); rewrite HB1; simpl; rewrite HB2; reflexivity).
        all: try (rewrite (holds_get _ _ _ _ Hz R2); reflexivity).
        + destruct R2 as (u & R2 & ->). rewrite (holds_get _ _ _ _ Hz R2); reflexivity.
        + destruct R2 as (u & R2 & ->). unfold holds in R2; simpl in R2.
          destruct (elem (x_tm c) (ix (v_raw v))) as [t|] eqn:Ht; simpl in R2; [|discriminate]. inversion R2; subst.
          rewrite (pget_elem _ _ _ Hz Ht); simpl. do 3 f_equal.
          destruct (2147483647 <? t_acc t) eqn:Hl; lia.
        + destruct R2 as (u & R2 & R3). rewrite (holds_get _ _ _ _ Hz R2); simpl; rewrite R3; reflexivity. }
    destruct (v_type v); try discriminate; exact G.
  - destruct R as [(R1 & R2 & R3)|(R1 & R2)].
    { unfold bad_index in R1; destruct (v_type v); simpl in *; try discriminate; tauto. }
    rewrite (mark_good _ _ R1). unfold c; rewrite inc_self; fold c.
    destruct (v_type v); try discriminate; subst; try reflexivity.
    all: destruct (v_module v <? _) eqn:Hm;
      (match goal with |- context [?a <=? ?b] => replace (a <=? b) with (negb (v_module v <? a)) by lia end);
      rewrite Hm; simpl; subst; try reflexivity; apply lift_ok; first [apply holds_out | apply holds_in]; auto; lia.
Qed.
Lemma get_data_value_missing E s n r col i b k d :
  executing (s_ctx s) n r col -> peek (s_ctx s) (LCell n r col) = Some (VCell b k d) -> (d <= i)%nat ->
  get_data_value E r col i s = Ok (0, s).
Proof.
  intros He H1 H2. unfold get_data_value. rewrite bind_getc.
  rewrite (bind_ok _ _ _ _ _ (lift_ok _ _ _ (operand_none _ _ _ _ _ _ _ _ He H1 H2))). reflexivity.
Qed.

(** ** Writing *)
Definition poke (l : loc) (z : Z) (c : ctx) : ctx :=
  match l with
  | LReg b i => put_reg b i z c
  | LOut m k i => put_out k m i z c
  | LIn m k i => put_in k m i z c
  | _ => c
  end.
Lemma poke_frame l z c l' : l' <> l -> peek (poke l z c) l' = peek c l'.
Proof. intros; destruct l; auto; simpl poke; [apply put_reg_frame|apply put_in_frame|apply put_out_frame]; auto. Qed.
Lemma poke_here l z u c : match l with LReg _ _ | LOut _ _ _ | LIn _ _ _ => True | _ => False end ->
  holds c l u -> holds (poke l z c) l z.
Proof.
  unfold holds. destruct l; simpl poke; try tauto; intros _ H.
  - simpl in H. destruct (elem (bank_arr b c) i) eqn:He; [|discriminate]. eapply put_reg_here; eauto.
  - simpl in H. destruct (elem (x_in c) m) eqn:He; [|discriminate]; simpl in H.
    destruct (elem (in_arr k i0) i) eqn:He2; [|discriminate]. eapply put_in_here; eauto.
  - simpl in H. destruct (elem (x_out c) m) eqn:He; [|discriminate]; simpl in H.
    destruct (elem (out_arr k o) i) eqn:He2; [|discriminate]. eapply put_out_here; eauto.
Qed.
(** The context after writing the word [w] to operand [v]. *)
Definition wr (v : value) (w : Z) (c : ctx) : ctx :=
  match target c v with Some l => poke l (kept (v_type v) w) c | None => c end.
Lemma below_ix z q : below z q = true -> (ix z < q)%nat.
Proof. unfold below, ix; lia. Qed.
Lemma safe_index_target c v b : bank_of (v_type v) = Some b -> banks_ok c ->
  safe_index (v_type v) (v_raw v) c = if below (v_raw v) (bank_qty b (x_q c)) then E_OK else E_OUTOFRANGE.
Proof.
  intros Hb Hk. destruct (below (v_raw v) (bank_qty b (x_q c))) eqn:Hq.
  - apply safe_index_good.
    + destruct (v_type v); simpl in *; congruence.
    + rewrite <- bad_b_spec. unfold bad_b. destruct (v_type v); try discriminate; rewrite Hb, Hq; discriminate.
    + destruct (v_type v); try discriminate; intros b0 Hb0; destruct (bo_bank c Hk b0) as (l & -> & _); discriminate.
  - apply safe_index_bad.
    + destruct (v_type v); simpl in *; congruence.
    + rewrite <- bad_b_spec. unfold bad_b. destruct (v_type v); try discriminate; rewrite Hb, Hq; reflexivity.
    + destruct (v_type v); try discriminate; intros b0 Hb0; destruct (bo_bank c Hk b0) as (l & -> & _); discriminate.
Qed.
Lemma target_reg c v b : bank_of (v_type v) = Some b ->
  target c v = if below (v_raw v) (bank_qty b (x_q c)) then Some (LReg b (ix (v_raw v))) else None.
Proof. unfold target. destruct (v_type v); simpl; try discriminate; intros [= <-]; auto. Qed.
Lemma target_holds c v l : stores_ok c -> target c v = Some l ->
  exists z, holds c l z /\ match l with LReg _ _ | LOut _ _ _ | LIn _ _ _ => True | _ => False end.
Proof.
  intros (Hk & Hm).
  destruct (bank_of (v_type v)) as [b|] eqn:Hb.
  - rewrite (target_reg _ _ _ Hb).
    destruct (below (v_raw v) (bank_qty b (x_q c))) eqn:Hq; [|discriminate]. intros [= <-].
    destruct (arr_ok_elem _ _ _ (bo_bank c Hk b) (below_ix _ _ Hq)) as (z & Hz).
    exists z; split; auto. unfold holds; simpl; rewrite Hz; auto.
  - unfold target. destruct (v_type v) eqn:Ht; try discriminate; simpl peek;
    (destruct (below (v_module v) _) eqn:Hbm; [|discriminate]); pose proof (below_ix _ _ Hbm) as Hlt.
    + destruct (elem (x_out c) (ix (v_module v))) as [om|] eqn:Ho; [|discriminate]; simpl.
      destruct (below (v_port v) _) eqn:Hbp; [|discriminate]. pose proof (below_ix _ _ Hbp) as Hlp. intros [= <-].
      destruct (mo_oa c Hm _ _ Hlt Ho) as ([?|H1] & H2); [lia|].
      destruct (arr_ok_elem _ _ _ H1 Hlp) as (z & Hz). exists z; split; auto. unfold holds; simpl; rewrite Ho; simpl. rewrite Hz; auto.
    + destruct (elem (x_in c) (ix (v_module v))) as [om|] eqn:Ho; [|discriminate]; simpl.
      destruct (below (v_port v) _) eqn:Hbp; [|discriminate]. pose proof (below_ix _ _ Hbp) as Hlp. intros [= <-].
      destruct (mo_ia c Hm _ _ Hlt Ho) as ([?|H1] & H2); [lia|].
      destruct (arr_ok_elem _ _ _ H1 Hlp) as (z & Hz). exists z; split; auto. unfold holds; simpl; rewrite Ho; simpl. rewrite Hz; auto.
    + destruct (elem (x_in c) (ix (v_module v))) as [om|] eqn:Ho; [|discriminate]; simpl.
      destruct (below (v_port v) _) eqn:Hbp; [|discriminate]. pose proof (below_ix _ _ Hbp) as Hlp. intros [= <-].
      destruct (mo_ia c Hm _ _ Hlt Ho) as (H1 & [?|H2]); [lia|].
      destruct (arr_ok_elem _ _ _ H2 Hlp) as (z & Hz). exists z; split; auto. unfold holds; simpl; rewrite Ho; simpl. rewrite Hz; auto.
    + destruct (elem (x_out c) (ix (v_module v))) as [om|] eqn:Ho; [|discriminate]; simpl.
      destruct (below (v_port v) _) eqn:Hbp; [|discriminate]. pose proof (below_ix _ _ Hbp) as Hlp. intros [= <-].
      destruct (mo_oa c Hm _ _ Hlt Ho) as (H1 & [?|H2]); [lia|].
      destruct (arr_ok_elem _ _ _ H2 Hlp) as (z & Hz). exists z; split; auto. unfold holds; simpl; rewrite Ho; simpl. rewrite Hz; auto.
Qed.
Lemma wr_frame v w c l : target c v <> Some l -> peek (wr v w c) l = peek c l.
Proof. unfold wr. destruct (target c v) as [t|] eqn:Ht; auto. intros; apply poke_frame; congruence. Qed.
Lemma wr_here v w c l : stores_ok c -> target c v = Some l -> holds (wr v w c) l (kept (v_type v) w).
Proof. intros H1 H2. destruct (target_holds _ _ _ H1 H2) as (z & H3 & H4). unfold wr; rewrite H2. eapply poke_here; eauto. Qed.

Lemma target_err c v b : bank_of (v_type v) = Some b ->
  write_err c v = if below (v_raw v) (bank_qty b (x_q c)) then E_OK else E_OUTOFRANGE.
Proof.
  intros Hb. unfold write_err. rewrite (target_reg _ _ _ Hb).
  destruct (below _ _); auto. destruct (v_type v); try discriminate; auto.
Qed.
Lemma pget_mods {A} (p : option (list A)) (q : nat) z :
  (q = 0%nat \/ exists l, p = Some l /\ (q <= length l)%nat) -> below z q = true -> exists a, elem p (ix z) = Some a /\ pget p z = Ok a.
Proof.
  intros [->|(l & -> & Hl)] H. { unfold below in H; lia. }
  destruct (nth_lt_some l (ix z)) as (a & Ha). { apply below_ix in H; lia. }
  exists a; split; auto. apply pget_elem; auto. unfold below in H; lia.
Qed.
Lemma below_nn z q : 0 <= z -> below z q = (z <? Z.of_nat q). Proof. unfold below; lia. Qed.
Ltac io_case p q c v Hmods Hmo HM HP qf pr put_lemma :=
  let Hp := fresh "Hp" in let l := fresh "l" in let Hlt := fresh "Hlt" in
  destruct p as [l|] eqn:Hp; simpl is_null; cbv iota;
  [ rewrite (below_nn (v_module v)) by lia;
    replace (Z.of_nat q <=? v_module v) with (negb (v_module v <? Z.of_nat q)) by lia;
    destruct (v_module v <? Z.of_nat q) eqn:Hlt; simpl negb; cbv iota; [|reflexivity];
    rewrite <- Hp in *;
    let om := fresh "om" in let H1 := fresh "H" in let H2 := fresh "H" in
    destruct (pget_mods p q (v_module v) Hmods) as (om & H1 & H2); [rewrite below_nn by lia; auto|];
    rewrite H2, H1; simpl rbind; simpl option_map; cbv iota beta; rewrite below_nn by lia;
    let Hpt := fresh "Hpt" in
    replace (Z.of_nat (qf om) <=? v_port v) with (negb (v_port v <? Z.of_nat (qf om))) by lia;
    destruct (v_port v <? Z.of_nat (qf om)) eqn:Hpt; simpl; [|rewrite Hp; reflexivity];
    let HA := fresh "HA" in let z := fresh "z" in let Hz := fresh "Hz" in
    destruct (pr _ _ (Hmo (ix (v_module v)) om ltac:(unfold ix; lia) H1)) as [?|HA]; [lia|];
    destruct (arr_ok_elem _ _ (ix (v_port v)) HA) as (z & Hz); [unfold ix; lia|];
    let la := fresh "la" in let HL := fresh "HL" in destruct HA as (la & HA & HL); rewrite HA; simpl;
    erewrite put_lemma; eauto; try lia; try reflexivity; try (simpl; rewrite HA; eauto)
  | let HH := fresh "HH" in
    assert (HH : below (v_module v) q = false);
    [ let l' := fresh "l" in destruct Hmods as [HH|(l' & HH & _)]; [rewrite HH; unfold below; lia|congruence]
    | rewrite HH; reflexivity ] ].
Ltac out_case c v Hm HM HP qf pr := io_case (x_out c) (io_wq (x_io c)) c v (mo_out c Hm) (mo_oa c Hm) HM HP qf pr out_put_ok.
Ltac in_case c v Hm HM HP qf pr := io_case (x_in c) (io_rq (x_io c)) c v (mo_in c Hm) (mo_ia c Hm) HM HP qf pr in_put_ok.
Lemma set_data_wr s n r col i v w :
  executing (s_ctx s) n r col -> peek (s_ctx s) (LData n r col i) = Some (VVal v) -> stores_ok (s_ctx s) ->
  set_data r col i w s = Ok (write_err (s_ctx s) v, inc s (wr v w (s_ctx s))).
Proof.
  intros He Hd Hs. unfold set_data, set_data_value. set (c := s_ctx s) in *.
  rewrite (ex_data_ok _ _ _ _ _ _ He Hd); simpl rbind.
  pose proof (v_module_nn v) as HM. pose proof (v_port_nn v) as HP.
  destruct (bank_of (v_type v)) as [b|] eqn:Hb.
  - rewrite (target_err _ _ _ Hb). unfold wr; rewrite (target_reg _ _ _ Hb).
    pose proof (safe_index_target c v b Hb (proj1 Hs)) as HS.
    pose proof (target_holds c v) as HT. rewrite (target_reg _ _ _ Hb) in HT.
    destruct (below (v_raw v) (bank_qty b (x_q c))) eqn:Hq.
    + destruct (HT _ Hs eq_refl) as (z & Hz & _). apply holds_elem in Hz.
      assert (0 <= v_raw v) as Hnn by (unfold below in Hq; lia).
      assert (HB : forall x, bk_put b (v_raw v) x c = Ok (put_reg b (ix (v_raw v)) x c)) by (intros; eapply bk_put_ok; eauto).
      destruct (v_type v); try discriminate; inversion Hb; subst b; rewrite HS; simpl; rewrite HB; reflexivity.
    + destruct (v_type v); try discriminate; inversion Hb; subst b; rewrite HS; simpl; reflexivity.
  - destruct Hs as (Hk & Hm). unfold write_err, wr, target. destruct (v_type v) eqn:Ht; try discriminate;
      try reflexivity; unfold safe_port; cbn [peek].
    + out_case c v Hm HM HP o_qq (@proj1).
    + in_case c v Hm HM HP i_iq (@proj1).
    + in_case c v Hm HM HP i_iwq (@proj2).
    + out_case c v Hm HM HP o_qwq (@proj2).
Qed.
