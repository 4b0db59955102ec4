(** operand access (C23, C24). *)
From Verif Require Export Effects.

Lemma f32_eq u m e : 0 <= u < 2 ^ 32 -> f32_denotes u m e ->
  f32_to_i32 u = if in_i32 (truncated m e) then Ok (truncated m e) else Bad UB_float.
Proof.
  intros Hu (H1 & H2). unfold f32_to_i32. replace ((u / 2 ^ 23) mod 2 ^ 8 =? 255) with false by lia.
  set (ex := (u / 2 ^ 23) mod 2 ^ 8) in *. set (fr := u mod 2 ^ 23) in *.
  assert (0 <= ex < 256) by (apply Z.mod_pos_bound; lia). assert (0 <= fr < 2 ^ 23) by (apply Z.mod_pos_bound; lia).
  match goal with |- (if in_i32 ?a then _ else _) = _ => assert (a = truncated m e) as ->; [|reflexivity] end.
  assert (HS : (u / 2 ^ 31 =? 0) = (u <? 2 ^ 31)).
  { destruct (u <? 2 ^ 31) eqn:Hl.
    - rewrite Z.div_small by lia. reflexivity.
    - apply Z.eqb_neq. intros H3. apply Z.div_small_iff in H3; lia. }
  rewrite HS. clear HS Hu. unfold truncated.
  destruct (ex =? 0) eqn:He0.
  - destruct H2 as (-> & ->). replace (ex <? 127) with true by lia. simpl Z.leb; cbv iota.
    change (- -149) with 149. destruct (u <? 2 ^ 31).
    + rewrite Z.mul_1_l, Z.quot_small; auto. lia.
    + replace (-1 * fr) with (- fr) by lia. rewrite Z.quot_opp_l by lia. rewrite Z.quot_small; auto. lia.
  - destruct H2 as (-> & ->). destruct (ex <? 127) eqn:H127; [|destruct (ex <? 150) eqn:H150].
    + replace (0 <=? ex - 150) with false by lia.
      assert (HQ : Z.quot (2 ^ 23 + fr) (2 ^ (- (ex - 150))) = 0).
      { apply Z.quot_small. split; try lia. apply Z.lt_le_trans with (2 ^ 24); [lia|].
        apply Z.pow_le_mono_r; lia. }
      destruct (u <? 2 ^ 31); [rewrite Z.mul_1_l, HQ; auto|].
      replace (-1 * (2 ^ 23 + fr)) with (- (2 ^ 23 + fr)) by lia. rewrite Z.quot_opp_l, HQ by lia. auto.
    + replace (0 <=? ex - 150) with false by lia. replace (- (ex - 150)) with (150 - ex) by lia.
      assert (0 < 2 ^ (150 - ex)) by (apply Z.pow_pos_nonneg; lia).
      assert (HQ : Z.quot (2 ^ 23 + fr) (2 ^ (150 - ex)) = (2 ^ 23 + fr) / 2 ^ (150 - ex)) by (apply Z.quot_div_nonneg; lia).
      destruct (u <? 2 ^ 31); [rewrite Z.mul_1_l, HQ; auto|].
      replace (-1 * (2 ^ 23 + fr)) with (- (2 ^ 23 + fr)) by lia. rewrite Z.quot_opp_l, HQ by lia. auto.
    + replace (0 <=? ex - 150) with true by lia. destruct (u <? 2 ^ 31); lia.
Qed.
Lemma in_i32_fits z : in_i32 z = true <-> fits z.
Proof. unfold in_i32, fits. lia. Qed.

Lemma readable_reads c v : stores_ok c -> flags_ok c -> readable c v -> exists z, reads c v z.
Proof.
  intros (Hk & Hm) HFL HR. pose proof (v_module_nn v) as HM. pose proof (v_port_nn v) as HP.
  destruct (bad_b c v) eqn:Hb.
  { exists 0. left. apply bad_b_spec in Hb. split; auto. split; auto.
    destruct (bo_tm c Hk) as (l & Hl & _).
    assert (forall b, bank_arr b c <> None) by (intros b; destruct (bo_bank c Hk b) as (l0 & -> & _); discriminate).
    destruct (v_type v); auto. congruence. }
  assert (Hg : ~ bad_index c v) by (rewrite <- bad_b_spec; congruence).
  assert (HA : forall b, below (v_raw v) (bank_qty b (x_q c)) = true -> exists z, holds c (LReg b (ix (v_raw v))) z).
  { intros b Hq. destruct (arr_ok_elem _ _ _ (bo_bank c Hk b) (below_ix _ _ Hq)) as (z & Hz).
    exists z. unfold holds; simpl; rewrite Hz; auto. }
  assert (HF : forall b, In b [B_Cd; B_Cr; B_Td; B_Tr] -> below (v_raw v) (bank_qty b (x_q c)) = true ->
     exists z, holds_flag c (LReg b (ix (v_raw v))) z).
  { intros b Hi Hq. destruct (HA b Hq) as (z & Hz). exists z; split; auto. eapply HFL; eauto.
    simpl in *; tauto. }
  assert (HQ : forall (w : bool) id qd qa, v_module v < Z.of_nat (io_wq (x_io c)) -> peek c (LOutMeta (ix (v_module v))) = Some (VMeta id qd qa) ->
     v_port v < Z.of_nat (if w then qa else qd) -> exists z, holds c (LOut (ix (v_module v)) (if w then K_QW else K_Q) (ix (v_port v))) z).
  { intros w id qd qa H1 H2 H3. simpl in H2. destruct (elem (x_out c) (ix (v_module v))) as [om|] eqn:Ho; [|discriminate].
    inversion H2; subst. destruct (mo_oa c Hm (ix (v_module v)) om) as (A & B); [unfold ix; lia|auto|].
    assert (exists z, elem (out_arr (if w then K_QW else K_Q) om) (ix (v_port v)) = Some z) as (z & Hz).
    { destruct w; [destruct B as [?|B]; [lia|eapply arr_ok_elem; [exact B|unfold ix; lia]]
                  |destruct A as [?|A]; [lia|eapply arr_ok_elem; [exact A|unfold ix; lia]]]. }
    exists z. unfold holds; simpl. rewrite Ho; simpl. rewrite Hz; auto. }
  assert (HI : forall (w : bool) id qd qa, v_module v < Z.of_nat (io_rq (x_io c)) -> peek c (LInMeta (ix (v_module v))) = Some (VMeta id qd qa) ->
     v_port v < Z.of_nat (if w then qa else qd) -> exists z, holds c (LIn (ix (v_module v)) (if w then K_IW else K_I) (ix (v_port v))) z).
  { intros w id qd qa H1 H2 H3. simpl in H2. destruct (elem (x_in c) (ix (v_module v))) as [om|] eqn:Ho; [|discriminate].
    inversion H2; subst. destruct (mo_ia c Hm (ix (v_module v)) om) as (A & B); [unfold ix; lia|auto|].
    assert (exists z, elem (in_arr (if w then K_IW else K_I) om) (ix (v_port v)) = Some z) as (z & Hz).
    { destruct w; [destruct B as [?|B]; [lia|eapply arr_ok_elem; [exact B|unfold ix; lia]]
                  |destruct A as [?|A]; [lia|eapply arr_ok_elem; [exact A|unfold ix; lia]]]. }
    exists z. unfold holds; simpl. rewrite Ho; simpl. rewrite Hz; auto. }
  unfold reads. unfold bad_b in Hb. unfold readable in HR.
  destruct (v_type v) eqn:Ht; simpl in Hb; try (apply negb_false_iff in Hb);
    try (exists 0; right; split; auto; fail); try (eexists; right; split; [auto|reflexivity]).
  - destruct (HA B_M Hb) as (z & Hz). exists z; right; auto.
  - destruct (v_module v <? Z.of_nat (io_wq (x_io c))) eqn:E; [|exists 0; right; auto].
    destruct (HR ltac:(lia)) as (id & qd & qa & H1 & H2). destruct (HQ false id qd qa) as (z & Hz); auto; try lia. exists z; right; auto.
  - destruct (v_module v <? Z.of_nat (io_rq (x_io c))) eqn:E; [|exists 0; right; auto].
    destruct (HR ltac:(lia)) as (id & qd & qa & H1 & H2). destruct (HI false id qd qa) as (z & Hz); auto; try lia. exists z; right; auto.
  - destruct (HF B_Cd) as (z & Hz); simpl; auto. exists z; right; auto.
  - destruct (HF B_Cr) as (z & Hz); simpl; auto. exists z; right; auto.
  - destruct (HF B_Td) as (z & Hz); simpl; auto. exists z; right; auto.
  - destruct (HF B_Tr) as (z & Hz); simpl; auto. exists z; right; auto.
  - destruct (v_module v <? Z.of_nat (io_rq (x_io c))) eqn:E; [|exists 0; right; auto].
    destruct (HR ltac:(lia)) as (id & qd & qa & H1 & H2). destruct (HI true id qd qa) as (z & Hz); auto; try lia. exists z; right; auto.
  - destruct (v_module v <? Z.of_nat (io_wq (x_io c))) eqn:E; [|exists 0; right; auto].
    destruct (HR ltac:(lia)) as (id & qd & qa & H1 & H2). destruct (HQ true id qd qa) as (z & Hz); auto; try lia. exists z; right; auto.
  - destruct (HA B_C Hb) as (z & Hz). exists (i32 z); right; split; eauto.
  - destruct (bo_tm c Hk) as (l & Hl & Hle). destruct (nth_lt_some l (ix (v_raw v))) as (t & Hnt).
    { apply below_ix in Hb. lia. }
    exists (Z.min (t_acc t) (2 ^ 31 - 1)). right; split; auto. exists (t_acc t); split; auto.
    unfold holds; simpl. rewrite Hl; simpl. rewrite Hnt; auto.
  - destruct (HA B_D Hb) as (z & Hz). exists z; right; auto.
  - destruct (HA B_R Hb) as (u & Hz). destruct (HR u Hz) as (Hu & m & e & Hd & Hf). exists (truncated m e). right; split; auto.
    exists u; split; auto. rewrite (f32_eq u m e Hu Hd). apply in_i32_fits in Hf. rewrite Hf; auto.
Qed.

(** ** C23 *)
(** C23: reading an operand yields the number it denotes and leaves every place as it was, except that an index
    outside the configured quantity is reported in the error mark. *)
Lemma C23_read_l : forall E s n r col i v z,
  executing (s_ctx s) n r col -> operand_at (s_ctx s) n r col i v -> reads (s_ctx s) v z ->
  exists c', get_data_value E r col i s = Ok (z, mk_st c' (s_tr s))
    /\ changes_only (s_ctx s) c' (fun l => l = LErr /\ bad_index (s_ctx s) v)
    /\ (bad_index (s_ctx s) v -> z = 0 /\ peek c' LErr = Some (VErr E_OUTOFRANGE)).
Proof.
  intros E s n r col i v z H1 H2 H3. exists (mark (s_ctx s) v). split; [eapply get_data_value_reads; eauto|]. split.
  - intros l Hl. destruct (bad_b (s_ctx s) v) eqn:Hb.
    + apply bad_b_spec in Hb. apply mark_frame. intros ->; auto.
    + unfold mark; rewrite Hb; auto.
  - intros Hb. split.
    + destruct H3 as [(_ & H3 & _)|(H3 & _)]; [auto|contradiction].
    + rewrite (mark_bad _ _ Hb). auto.
Qed.
(** C23: every operand of every register type and index has such a value, provided the arrays have the configured
    sizes, flags are 0 or 1 and the operand is not an I/O port missing from an existing module nor a real beyond 32 bits. *)
Lemma C23_total_l : forall E s n r col i v,
  executing (s_ctx s) n r col -> operand_at (s_ctx s) n r col i v -> stores_ok (s_ctx s) -> flags_ok (s_ctx s) -> readable (s_ctx s) v ->
  exists z c', reads (s_ctx s) v z /\ get_data_value E r col i s = Ok (z, mk_st c' (s_tr s))
    /\ changes_only (s_ctx s) c' (eq LErr).
Proof.
  intros E s n r col i v H1 H2 H3 H5 H4. destruct (readable_reads _ _ H3 H5 H4) as (z & Hz).
  destruct (C23_read_l E s n r col i v z) as (c' & A & B & _); auto. exists z, c'. split; auto. split; auto.
  eapply changes_mono; [|exact B]. simpl. intros l (-> & _); auto.
Qed.
(** C23: two operands are read in either order with the same values and the same effect, so the order in which the compiler evaluates
    the operands of an expression does not matter. *)
Lemma C23_order_l : forall E s n r col i j v w a b,
  executing (s_ctx s) n r col -> operand_at (s_ctx s) n r col i v -> operand_at (s_ctx s) n r col j w ->
  reads (s_ctx s) v a -> reads (s_ctx s) w b ->
  (x <- get_data_value E r col i ;; y <- get_data_value E r col j ;; ret (x, y)) s
  = (y <- get_data_value E r col j ;; x <- get_data_value E r col i ;; ret (x, y)) s
  /\ exists s', (x <- get_data_value E r col i ;; y <- get_data_value E r col j ;; ret (x, y)) s = Ok ((a, b), s').
Proof.
  intros E s n r col i j v w a b H1 H2 H3 H4 H5.
  assert (G : forall i j v w a b, operand_at (s_ctx s) n r col i v -> operand_at (s_ctx s) n r col j w -> reads (s_ctx s) v a -> reads (s_ctx s) w b ->
    forall C (k : Z -> Z -> M C), (x <- get_data_value E r col i ;; y <- get_data_value E r col j ;; k x y) s = k a b (inc s (mark (mark (s_ctx s) v) w))).
  { clear - H1. intros i j v w a b H2 H3 H4 H5 C k. rewrite (bind_ok _ _ _ _ _ (get_data_value_reads E s n r col i v a H1 H2 H4)).
    rewrite (bind_ok _ _ _ _ _ (get_data_value_reads E (inc s (mark (s_ctx s) v)) n r col j w b (ex_mark _ _ _ _ _ H1) (op_mark _ _ _ _ _ _ _ H3) (rd_mark _ _ _ _ H5))).
    reflexivity. }
  rewrite (G i j v w a b H2 H3 H4 H5 _ (fun x y => ret (x, y))), (G j i w v b a H3 H2 H5 H4 _ (fun y x => ret (x, y))).
  split; [|eexists; reflexivity]. unfold ret. do 3 f_equal.
  assert (B : forall v w, bad_b (mark (s_ctx s) v) w = bad_b (s_ctx s) w) by (intros v' w'; unfold mark; destruct (bad_b (s_ctx s) v'); reflexivity).
  unfold mark at 1 3. rewrite !B. unfold mark. destruct (bad_b (s_ctx s) v), (bad_b (s_ctx s) w); reflexivity.
Qed.
(** C23: an operand beyond the cell's operand count reads as 0 and changes nothing. *)
Lemma C23_no_operand_l : forall E s n r col i b k d,
  executing (s_ctx s) n r col -> peek (s_ctx s) (LCell n r col) = Some (VCell b k d) -> (d <= i)%nat ->
  get_data_value E r col i s = Ok (0, s).
Proof. intros. eapply get_data_value_missing; eauto. Qed.
(** C23: a real register reads as its value rounded toward zero when that fits in 32 bits, and is undefined otherwise. *)
Lemma C23_real_l : forall u m e, 0 <= u < 2 ^ 32 -> f32_denotes u m e ->
  (fits (truncated m e) -> f32_to_i32 u = Ok (truncated m e)) /\ (~ fits (truncated m e) -> f32_to_i32 u = Bad UB_float).
Proof.
  intros u m e Hu H. rewrite (f32_eq u m e Hu H). rewrite <- in_i32_fits. destruct (in_i32 (truncated m e)); split; intros; auto; congruence.
Qed.
(** C23: reading an infinity or a NaN is undefined. *)
Lemma C23_real_nan_undefined_l : forall u, (forall m e, ~ f32_denotes u m e) -> f32_to_i32 u = Bad UB_float.
Proof.
  intros u H. unfold f32_to_i32. destruct ((u / 2 ^ 23) mod 2 ^ 8 =? 255) eqn:He; auto. exfalso.
  unfold f32_denotes in H. destruct ((u / 2 ^ 23) mod 2 ^ 8 =? 0) eqn:H0.
  - eapply H. split; [lia|split; reflexivity].
  - eapply H. split; [lia|split; reflexivity].
Qed.
(** C23: a register whose bank is missing reads as 0, is reported, and stops the program; nothing else changes. *)
Lemma C23_missing_bank_l : forall E s n r col i v b,
  executing (s_ctx s) n r col -> operand_at (s_ctx s) n r col i v ->
  bank_of (v_type v) = Some b -> peek (s_ctx s) (LRegLen b) = None -> 0 <= v_raw v ->
  h_panic (x_h (s_ctx s)) = false ->
  exists c', get_data_value E r col i s = Ok (0, mk_st c' (s_tr s))
    /\ peek c' LErr = Some (VErr E_FAIL) /\ peek c' LState = Some (VState S_ERROR)
    /\ changes_only (s_ctx s) c' (fun l => l = LErr \/ l = LState).
Proof.
  intros E s n r col i v b H1 H2 H3 H4 H5 H6. set (c := s_ctx s) in *.
  exists (set_x_state S_ERROR (set_x_last (set_l_err E_FAIL (x_last c)) c)). split; [|split; [reflexivity|split; [reflexivity|]]].
  2:{ intros l Hl. destruct l; try reflexivity; exfalso; apply Hl; auto. }
  unfold get_data_value. rewrite bind_getc. fold c.
  rewrite (bind_ok _ _ _ _ _ (lift_ok _ _ _ (operand_ok _ _ _ _ _ _ H1 H2))).
  assert (HS : safe_index (v_type v) (v_raw v) c = E_FAIL).
  { unfold safe_index. replace (v_raw v <? 0) with false by lia. cbn [peek] in H4.
    destruct (bank_arr b c) eqn:Hn; [discriminate|]. unfold reg_bank.
    destruct (v_type v); try discriminate; inversion H3; subst b; simpl in Hn; simpl arr_of; rewrite Hn; reflexivity. }
  destruct (v_type v); try discriminate; rewrite HS; simpl; unfold panic, bind, getc; simpl; fold c; rewrite H6; reflexivity.
Qed.
(** C23, finding: the port of an existing I/O module is not checked; a port outside the module's array is an
    out-of-bounds read. *)
Lemma C23_port_undefined_l : forall E s n r col i v len,
  executing (s_ctx s) n r col -> operand_at (s_ctx s) n r col i v ->
  match v_type v with
  | R_I => v_module v < Z.of_nat (io_rq (x_io (s_ctx s))) /\ peek (s_ctx s) (LInLen (ix (v_module v)) K_I) = Some (VN len)
  | R_IW => v_module v < Z.of_nat (io_rq (x_io (s_ctx s))) /\ peek (s_ctx s) (LInLen (ix (v_module v)) K_IW) = Some (VN len)
  | R_Q => v_module v < Z.of_nat (io_wq (x_io (s_ctx s))) /\ peek (s_ctx s) (LOutLen (ix (v_module v)) K_Q) = Some (VN len)
  | R_QW => v_module v < Z.of_nat (io_wq (x_io (s_ctx s))) /\ peek (s_ctx s) (LOutLen (ix (v_module v)) K_QW) = Some (VN len)
  | _ => False
  end ->
  Z.of_nat len <= v_port v -> get_data_value E r col i s = Bad UB_oob.
Proof.
  intros E s n r col i v len H1 H2 H3 H4. set (c := s_ctx s) in *.
  unfold get_data_value. rewrite bind_getc. fold c.
  rewrite (bind_ok _ _ _ _ _ (lift_ok _ _ _ (operand_ok _ _ _ _ _ _ H1 H2))).
  pose proof (v_module_nn v) as HM. pose proof (v_port_nn v) as HP.
  destruct (v_type v); try contradiction; destruct H3 as (A & B); simpl in B;
    (match goal with |- context [?a <=? ?b] => replace (a <=? b) with false by lia end).
  1,4: destruct (elem (x_out c) (ix (v_module v))) as [om|] eqn:Ho; simpl in B; [|discriminate];
    unfold lift, out_get; rewrite (pget_elem _ _ _ (proj1 HM) Ho); simpl.
  3,4: destruct (elem (x_in c) (ix (v_module v))) as [om|] eqn:Ho; simpl in B; [|discriminate];
    unfold lift, in_get; rewrite (pget_elem _ _ _ (proj1 HM) Ho); simpl.
  all: (match goal with |- context [pget ?p _] => destruct p as [l|]; simpl in B; [|discriminate] end); inversion B; subst;
    simpl; unfold lget, idx_ok; replace (v_port v <? Z.of_nat (length l)) with false by lia; rewrite andb_false_r; reflexivity.
Qed.
(** C23: the previous value of an operand is read without any change. *)
Lemma C23_previous_l : forall c n r col i v z,
  executing c n r col -> operand_at c n r col i v -> prev_reads c v z -> get_previous_value r col i c = Ok z.
Proof. intros. unfold get_previous_value. rewrite (operand_ok c n r col i v); auto. simpl. apply prev_ok; auto. Qed.
(** C23, finding: previous values are read without an index check; an index outside the history array is an
    out-of-bounds read. *)
Lemma C23_previous_undefined_l : forall c n r col i v b len,
  executing c n r col -> operand_at c n r col i v ->
  match v_type v with
  | R_M => b = B_Mh | R_Cd => b = B_Cdh | R_Cr => b = B_Crh | R_Td => b = B_Tdh | R_Tr => b = B_Trh
  | R_C => b = B_C | R_D => b = B_D | R_R => b = B_R | _ => False
  end ->
  peek c (LRegLen b) = Some (VN len) -> ~ in_qty (v_raw v) len -> get_previous_value r col i c = Bad UB_oob.
Proof.
  intros c n r col i v b len H1 H2 H3 H4 H5. unfold get_previous_value. rewrite (operand_ok c n r col i v); auto. simpl.
  cbn [peek] in H4. destruct (bank_arr b c) as [l|] eqn:Hb; simpl in H4; [|discriminate]. inversion H4; subst.
  assert (HG : pget (arr_of b c) (v_raw v) = Bad UB_oob).
  { rewrite arr_of_bank, Hb. simpl. unfold lget. replace (idx_ok l (v_raw v)) with false; auto.
    unfold in_qty in H5. unfold idx_ok. lia. }
  unfold prev_of, bk_bool, bget, bk_get. destruct (v_type v); try contradiction; subst b; rewrite HG; reflexivity.
Qed.
(*EX
(* D9 does not exist (four registers), I0.1 does, the real R0 is 1.5, and input port 7 of a two-port module. *)
Example C23_case :
  let c := demo [[cellv I_NO [V R_D 9]; cellv I_NO [V R_I 256]; cellv I_NO [V R_R 0]; cellv I_NO [V R_I 1792]]] in
  executing c 0 0 0 /\ operand_at c 0 0 0 0 (V R_D 9) /\ reads c (V R_D 9) 0 /\ bad_index c (V R_D 9)
  /\ executing c 0 0 1 /\ operand_at c 0 0 1 0 (V R_I 256) /\ reads c (V R_I 256) 0
  /\ executing c 0 0 2 /\ operand_at c 0 0 2 0 (V R_R 0) /\ reads c (V R_R 0) 1
  /\ executing c 0 0 3 /\ operand_at c 0 0 3 0 (V R_I 1792) /\ v_module (V R_I 1792) = 0 /\ v_port (V R_I 1792) = 7
  /\ peek c (LInLen 0 K_I) = Some (VN 2) /\ stores_ok c.
Proof. demo_case. Qed.
Example C23_order_case :
  let c := demo [[cellv I_ADD [V R_D 0; V R_D 77; V R_D 2]]] in
  executing c 0 0 0 /\ operand_at c 0 0 0 0 (V R_D 0) /\ operand_at c 0 0 0 1 (V R_D 77) /\ reads c (V R_D 0) 10 /\ reads c (V R_D 77) 0.
Proof. demo_case. Qed.
Example C23_readable_case :
  let c := demo [[cellv I_NO [V R_R 0]; cellv I_NO [V R_QW 256]]] in
  stores_ok c /\ flags_ok c /\ readable c (V R_R 0) /\ readable c (V R_QW 256).
Proof.
  cbv zeta. split; [decide_stores|]. split; [apply flags_okb_ok; vm_compute; reflexivity|split].
  - intros u Hu. vm_compute in Hu. inversion Hu; subst. split; [lia|]. do 2 eexists. split.
    + split; [vm_compute; discriminate|vm_compute; split; reflexivity].
    + vm_compute. split; [discriminate|reflexivity].
  - intros _. do 3 eexists. split; [reflexivity|vm_compute; reflexivity].
Qed.
(* The patterns of 1.5, -2.75 and 2^31. *)
Example C23_real_case : f32_to_i32 1069547520 = Ok 1 /\ f32_to_i32 3224371200 = Ok (-2) /\ f32_to_i32 1325400064 = Bad UB_float
  /\ f32_denotes 3224371200 (-11534336) (-22).
Proof. repeat split; vm_compute; try reflexivity; try discriminate. Qed.
Example C23_previous_case :
  let c := demo [[cellv I_RE [V R_M 2]; cellv I_RE [V R_M 7]]] in
  executing c 0 0 0 /\ operand_at c 0 0 0 0 (V R_M 2) /\ prev_reads c (V R_M 2) 0
  /\ executing c 0 0 1 /\ operand_at c 0 0 1 0 (V R_M 7) /\ peek c (LRegLen B_Mh) = Some (VN 4) /\ ~ in_qty 7 4.
Proof. cbv zeta. split; [|split; [|split]]. 3: vm_compute; split; [discriminate|reflexivity]. all: demo_case. Qed.
Example C23_missing_bank_case :
  let c := set_x_regs (mk_regs None None None) (demo [[cellv I_NO [V R_D 0]]]) in
  executing c 0 0 0 /\ operand_at c 0 0 0 0 (V R_D 0) /\ peek c (LRegLen B_D) = None /\ h_panic (x_h c) = false.
Proof. demo_case. Qed.
EX*)

(** ** C24 *)
(** C24: a write to an operand that addresses a place stores there what the register keeps of the 32-bit word, and
    nothing else changes. *)
Lemma C24_write_l : forall c n r col i v w l,
  executing c n r col -> peek c (LData n r col i) = Some (VVal v) -> stores_ok c -> target c v = Some l ->
  exists c', set_data_value r col i w c = Ok (E_OK, c') /\ stored c l (kept (v_type v) w) c'.
Proof.
  intros c n r col i v w l H1 H2 H3 H4. pose proof (set_data_wr (mk_st c []) n r col i v w H1 H2 H3) as HW.
  unfold set_data in HW. cbn [s_ctx] in HW. destruct (set_data_value r col i w c) as [[e c']| |]; try discriminate.
  exists c'. inversion HW; subst. unfold write_err at 1. rewrite H4. split; auto. split.
  - apply wr_here; auto.
  - intros l' Hl. apply wr_frame. congruence.
Qed.
(** C24: a write to an operand that addresses no place (index, module or port outside the configured quantities, a
    timer value, string, constant or invalid type) reports an error and changes nothing. *)
Lemma C24_no_place_l : forall c n r col i v w,
  executing c n r col -> peek c (LData n r col i) = Some (VVal v) -> stores_ok c -> target c v = None ->
  exists e, set_data_value r col i w c = Ok (e, c) /\ e = write_err c v /\ e <> E_OK.
Proof.
  intros c n r col i v w H1 H2 H3 H4. pose proof (set_data_wr (mk_st c []) n r col i v w H1 H2 H3) as HW.
  unfold set_data in HW. cbn [s_ctx] in HW. destruct (set_data_value r col i w c) as [[e c']| |]; try discriminate.
  inversion HW; subst. exists (write_err c v). split; [|split; auto].
  - unfold wr. rewrite H4. auto.
  - unfold write_err. rewrite H4. destruct (v_type v); try discriminate; match goal with |- context [match ?x with _ => _ end] => destruct x; discriminate end.
Qed.
(** C24: strings, timer values, constants and invalid operands are never written, whatever the context. *)
Lemma C24_never_l : forall c n r col i v w,
  executing c n r col -> peek c (LData n r col i) = Some (VVal v) ->
  match v_type v with R_S | R_T | R_NONE | R_INV | R_OTHER _ => True | _ => False end ->
  set_data_value r col i w c = Ok (E_SETDATAVAL, c).
Proof.
  intros c n r col i v w H1 H2 H3. unfold set_data_value. rewrite (ex_data_ok _ _ _ _ _ _ H1 H2). simpl.
  destruct (v_type v); try contradiction; reflexivity.
Qed.
(** C24: for each register type, which indices, modules and ports address a place, and which. *)
Lemma C24_addressed_l : forall c v l, target c v = Some l <->
  match v_type v with
  | R_M => l = LReg B_M (ix (v_raw v)) /\ 0 <= v_raw v < Z.of_nat (q_m (x_q c))
  | R_Cd => l = LReg B_Cd (ix (v_raw v)) /\ 0 <= v_raw v < Z.of_nat (q_c (x_q c))
  | R_Cr => l = LReg B_Cr (ix (v_raw v)) /\ 0 <= v_raw v < Z.of_nat (q_c (x_q c))
  | R_Td => l = LReg B_Td (ix (v_raw v)) /\ 0 <= v_raw v < Z.of_nat (q_t (x_q c))
  | R_Tr => l = LReg B_Tr (ix (v_raw v)) /\ 0 <= v_raw v < Z.of_nat (q_t (x_q c))
  | R_C => l = LReg B_C (ix (v_raw v)) /\ 0 <= v_raw v < Z.of_nat (q_c (x_q c))
  | R_D => l = LReg B_D (ix (v_raw v)) /\ 0 <= v_raw v < Z.of_nat (q_d (x_q c))
  | R_R => l = LReg B_R (ix (v_raw v)) /\ 0 <= v_raw v < Z.of_nat (q_r (x_q c))
  | R_Q => exists id qd qa, l = LOut (ix (v_module v)) K_Q (ix (v_port v)) /\ v_module v < Z.of_nat (io_wq (x_io c))
             /\ peek c (LOutMeta (ix (v_module v))) = Some (VMeta id qd qa) /\ v_port v < Z.of_nat qd
  | R_QW => exists id qd qa, l = LOut (ix (v_module v)) K_QW (ix (v_port v)) /\ v_module v < Z.of_nat (io_wq (x_io c))
             /\ peek c (LOutMeta (ix (v_module v))) = Some (VMeta id qd qa) /\ v_port v < Z.of_nat qa
  | R_I => exists id qd qa, l = LIn (ix (v_module v)) K_I (ix (v_port v)) /\ v_module v < Z.of_nat (io_rq (x_io c))
             /\ peek c (LInMeta (ix (v_module v))) = Some (VMeta id qd qa) /\ v_port v < Z.of_nat qd
  | R_IW => exists id qd qa, l = LIn (ix (v_module v)) K_IW (ix (v_port v)) /\ v_module v < Z.of_nat (io_rq (x_io c))
             /\ peek c (LInMeta (ix (v_module v))) = Some (VMeta id qd qa) /\ v_port v < Z.of_nat qa
  | _ => False
  end.
Proof.
  intros c v l. pose proof (v_module_nn v) as HM. pose proof (v_port_nn v) as HP. unfold target, below.
  destruct (v_type v); cbn [bank_of bank_qty]; try (split; [discriminate|tauto]).
  all: try (destruct ((0 <=? v_raw v) && _) eqn:Hb; split; [intros [= <-]; split; [auto|lia]|intros (-> & _); auto|discriminate|intros (_ & ?); lia]).
  all: destruct ((0 <=? v_module v) && _) eqn:Hb; [|split; [discriminate|intros (id & qd & qa & _ & ? & _); lia]].
  1,4: destruct (peek c (LOutMeta (ix (v_module v)))) as [[]|] eqn:Hp; try (split; [discriminate|intros (id' & qd & qa & _ & _ & ? & _); discriminate]).
  3,4: destruct (peek c (LInMeta (ix (v_module v)))) as [[]|] eqn:Hp; try (split; [discriminate|intros (id' & qd & qa & _ & _ & ? & _); discriminate]).
  all: destruct ((0 <=? v_port v) && _) eqn:Hb2; split;
    [intros [= <-]; do 3 eexists; split; [reflexivity|split; [lia|split; [reflexivity|lia]]]
    |intros (? & ? & ? & -> & _); auto|discriminate|intros (? & ? & ? & _ & _ & [= <- <- <-] & ?); lia].
Qed.
(*EX
Example C24_case :
  let c := demo [[cellv I_COIL [V R_QW 256]; cellv I_COIL [V R_Q 512]; cellv I_COIL [V R_D (-1)]; cellv I_COIL [V R_T 0]]] in
  executing c 0 0 0 /\ peek c (LData 0 0 0 0) = Some (VVal (V R_QW 256)) /\ stores_ok c
  /\ target c (V R_QW 256) = Some (LOut 0 K_QW 1)
  /\ peek c (LData 0 0 1 0) = Some (VVal (V R_Q 512)) /\ target c (V R_Q 512) = None /\ write_err c (V R_Q 512) = E_OUTOFRANGE
  /\ peek c (LData 0 0 2 0) = Some (VVal (V R_D (-1))) /\ target c (V R_D (-1)) = None
  /\ peek c (LData 0 0 3 0) = Some (VVal (V R_T 0)).
Proof. demo_case. Qed.
EX*)
