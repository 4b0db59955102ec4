(** the typed accessors offered to foreign functions (C67). *)
From Verif Require Export P_Access ReaderFacts.

Ltac begin_read c H1 H2 :=
  rewrite bind_getc; fold c; rewrite (bind_ok _ _ _ _ _ (lift_ok _ _ _ (operand_ok c _ _ _ _ _ H1 H2))); cbv beta iota.
Lemma i32_id u : 0 <= u < 2 ^ 31 -> i32 u = u.
Proof. intros. unfold i32. rewrite Z.mod_small; lia. Qed.
Lemma not_bad_nn c v : unchecked (v_type v) = true -> ~ bad_index c v -> 0 <= v_raw v.
Proof. unfold bad_index, in_qty. destruct (v_type v); simpl; try discriminate; lia. Qed.
Lemma holds_acc_get c z u : 0 <= z -> holds c (LAcc (ix z)) u -> exists t, pget (x_tm c) z = Ok t /\ t_acc t = u.
Proof.
  intros Hz H. unfold holds in H; simpl in H. destruct (elem (x_tm c) (ix z)) as [t|] eqn:Ht; simpl in H; [|discriminate].
  inversion H; subst. exists t. split; auto. apply pget_elem; auto.
Qed.
Lemma holds_fun c l a b : holds c l a -> holds c l b -> a = b.
Proof. unfold holds. congruence. Qed.

Lemma int_agrees E s n r col i v z :
  executing (s_ctx s) n r col -> operand_at (s_ctx s) n r col i v -> reads (s_ctx s) v z ->
  (unchecked (v_type v) = true -> ~ bad_index (s_ctx s) v) -> small (s_ctx s) v ->
  get_data_int32 E r col i s = get_data_value E r col i s.
Proof.
  intros H1 H2 R HU HT. pose proof (get_data_value_reads E s n r col i v z H1 H2 R) as G.
  set (c := s_ctx s) in *. unfold get_data_int32. begin_read c H1 H2.
  rewrite G. destruct (unchecked (v_type v)) eqn:U.
  - specialize (HU eq_refl). pose proof (not_bad_nn c v U HU) as NN.
    destruct R as [(R1 & _)|(_ & R)]; [contradiction|]. rewrite (mark_good _ _ HU). unfold c; rewrite inc_self; fold c.
    unfold small in HT. destruct (v_type v) eqn:T; simpl in U; try discriminate.
    + destruct R as (u & R & ->). rewrite (bind_ok _ _ _ _ _ (lift_ok _ _ s (holds_get _ _ _ _ NN R))).
      destruct HT as (u' & R' & HT). rewrite (holds_fun _ _ _ _ R' R) in HT.
      replace (2 ^ 31 - 1 <? u) with false by lia. unfold ret. do 2 f_equal. symmetry. apply i32_id. lia.
    + destruct R as (u & R & ->). destruct (holds_acc_get _ _ _ NN R) as (t & R2 & <-).
      rewrite (bind_ok _ _ _ _ _ (lift_ok _ _ s R2)).
      destruct HT as (u' & R' & HT). rewrite (holds_fun _ _ _ _ R' R) in HT.
      replace (2 ^ 31 - 1 <? t_acc t) with false by lia. unfold ret. do 2 f_equal. lia.
    + apply lift_ok. apply holds_get; auto.
    + destruct R as (u & R & R2). apply lift_ok. rewrite (holds_get _ _ _ _ NN R). exact R2.
  - assert (K : forall t, v_type v = t -> match t with R_IW | R_QW | R_NONE | R_S | R_INV | R_OTHER _ => bad_b c v = false | _ => True end).
    { intros t <-. destruct (v_type v) eqn:T; auto; unfold bad_b; rewrite T; reflexivity. }
    specialize (K _ eq_refl).
    destruct (v_type v) eqn:T; simpl in U; try discriminate; try (rewrite <- G; reflexivity).
    all: assert (NB : ~ bad_index c v) by (unfold bad_index; rewrite T; simpl; tauto).
    all: rewrite <- G; unfold get_data_value; begin_read c H1 H2; rewrite T; reflexivity.
Qed.

Lemma float_counts E s n r col i v z :
  executing (s_ctx s) n r col -> operand_at (s_ctx s) n r col i v -> counts (s_ctx s) v z ->
  (unchecked (v_type v) = true -> ~ bad_index (s_ctx s) v) ->
  get_data_float E r col i s = Ok (f32_of_int z, inc s (if unchecked (v_type v) then s_ctx s else mark (s_ctx s) v)).
Proof.
  intros H1 H2 R HU. set (c := s_ctx s) in *. unfold get_data_float. begin_read c H1 H2.
  unfold counts in R. destruct (unchecked (v_type v)) eqn:U.
  - specialize (HU eq_refl). pose proof (not_bad_nn c v U HU) as NN. unfold c; rewrite inc_self; fold c.
    destruct (v_type v) eqn:T; simpl in U; try discriminate; try contradiction.
    + apply lift_ok. rewrite (holds_get _ _ _ _ NN R). reflexivity.
    + destruct (holds_acc_get _ _ _ NN R) as (t & R2 & <-). apply lift_ok. rewrite R2. reflexivity.
    + destruct R as [(R1 & _)|(_ & R)]; [contradiction|]. rewrite T in R. apply lift_ok. rewrite (holds_get _ _ _ _ NN R). reflexivity.
  - assert (R' : reads c v z) by (destruct (v_type v); try discriminate; exact R). clear R.
    pose proof (get_data_value_reads E s n r col i v z H1 H2 R') as G. fold c in G.
    assert (F : unchecked (v_type v) = false -> match v_type v with R_M | R_Q | R_I | R_Cd | R_Cr | R_Td | R_Tr => True | _ => ~ bad_index c v end).
    { intros _. unfold bad_index. destruct (v_type v); simpl in *; auto; discriminate. }
    specialize (F U). pose proof (v_module_nn v) as HM. pose proof (v_port_nn v) as HP.
    destruct (v_type v) eqn:T; simpl in U; try discriminate; try (rewrite (bind_ok _ _ _ _ _ G); reflexivity);
      (destruct R' as [(R1 & _)|(_ & R')]; [contradiction|]); rewrite T in R'; rewrite (mark_good _ _ F); unfold c; rewrite inc_self; fold c;
      try (subst z; reflexivity);
      (destruct (v_module v <? _) eqn:Hm;
        (match goal with |- context [?a <=? ?b] => replace (a <=? b) with (negb (v_module v <? a)) by lia end);
        rewrite Hm; simpl negb; cbv iota; [apply lift_ok|subst z; reflexivity]);
      first [rewrite (holds_in _ _ _ _ _ (proj1 HM) (proj1 HP) R') | rewrite (holds_out _ _ _ _ _ (proj1 HM) (proj1 HP) R')]; reflexivity.
Qed.

(** ** C67 *)
(** C67: read as an integer, an operand yields the number it denotes and leaves every place as it was, except that a flag or
    marker index outside the configured quantity is reported in the error mark. *)
Lemma C67_int_l : forall E s n r col i v z,
  executing (s_ctx s) n r col -> operand_at (s_ctx s) n r col i v -> reads (s_ctx s) v z ->
  (unchecked (v_type v) = true -> ~ bad_index (s_ctx s) v) -> small (s_ctx s) v ->
  exists c', get_data_int32 E r col i s = Ok (z, mk_st c' (s_tr s))
    /\ changes_only (s_ctx s) c' (fun l => l = LErr /\ bad_index (s_ctx s) v)
    /\ (bad_index (s_ctx s) v -> z = 0 /\ peek c' LErr = Some (VErr E_OUTOFRANGE)).
Proof.
  intros E s n r col i v z H1 H2 H3 H4 H5. rewrite (int_agrees E s n r col i v z) by auto. eapply C23_read_l; eauto.
Qed.
(** C67: for such operands the integer accessor and the accessor of the instructions are the same function. *)
Lemma C67_agrees_l : forall E s n r col i v z,
  executing (s_ctx s) n r col -> operand_at (s_ctx s) n r col i v -> reads (s_ctx s) v z ->
  (unchecked (v_type v) = true -> ~ bad_index (s_ctx s) v) -> small (s_ctx s) v ->
  get_data_int32 E r col i s = get_data_value E r col i s.
Proof. intros. eapply int_agrees; eauto. Qed.
(** C67: a counter or a time of 2^31 or more reads as the integer 0 and is reported as an overflow; nothing else changes. *)
Lemma C67_overflow_l : forall E s n r col i v,
  executing (s_ctx s) n r col -> operand_at (s_ctx s) n r col i v -> ~ bad_index (s_ctx s) v -> too_big (s_ctx s) v ->
  exists c', get_data_int32 E r col i s = Ok (0, mk_st c' (s_tr s)) /\ changes_only (s_ctx s) c' (eq LErr)
    /\ peek c' LErr = Some (VErr E_OVERFLOW).
Proof.
  intros E s n r col i v H1 H2 H3 H4. set (c := s_ctx s) in *. unfold get_data_int32. begin_read c H1 H2.
  unfold too_big in H4. assert (NN : unchecked (v_type v) = true -> 0 <= v_raw v) by (intros; eapply not_bad_nn; eauto).
  exists (set_x_last (set_l_err E_OVERFLOW (x_last c)) c).
  assert (CH : changes_only c (set_x_last (set_l_err E_OVERFLOW (x_last c)) c) (eq LErr)).
  { intros l Hl. destruct l; try reflexivity. exfalso; apply Hl; reflexivity. }
  destruct (v_type v) eqn:T; try contradiction; specialize (NN eq_refl); destruct H4 as (u & R & HB).
  - rewrite (bind_ok _ _ _ _ _ (lift_ok _ _ s (holds_get _ _ _ _ NN R))). replace (2 ^ 31 - 1 <? u) with true by lia.
    split; [reflexivity|]. split; auto.
  - destruct (holds_acc_get _ _ _ NN R) as (t & R2 & <-). rewrite (bind_ok _ _ _ _ _ (lift_ok _ _ s R2)).
    replace (2 ^ 31 - 1 <? t_acc t) with true by lia. split; [reflexivity|]. split; auto.
Qed.
(** C67: the accessor of the instructions reads the same counter as a negative number and the same time as 2^31 - 1, without
    any report. *)
Lemma C67_differs_l : forall E s n r col i v u,
  executing (s_ctx s) n r col -> operand_at (s_ctx s) n r col i v -> ~ bad_index (s_ctx s) v -> 2 ^ 31 <= u ->
  (v_type v = R_C -> holds (s_ctx s) (LReg B_C (ix (v_raw v))) u -> u < 2 ^ 32 -> get_data_value E r col i s = Ok (u - 2 ^ 32, s))
  /\ (v_type v = R_T -> holds (s_ctx s) (LAcc (ix (v_raw v))) u -> get_data_value E r col i s = Ok (2 ^ 31 - 1, s)).
Proof.
  intros E s n r col i v u H1 H2 H3 H4. split.
  - intros T R HB. erewrite get_data_value_reads; eauto; [rewrite (mark_good _ _ H3), inc_self; reflexivity|].
    right. split; auto. rewrite T. exists u. split; auto. unfold i32.
    replace (u + 2 ^ 31) with (u - 2 ^ 31 + 1 * 2 ^ 32) by lia. rewrite Z.mod_add by lia. rewrite Z.mod_small; lia.
  - intros T R. erewrite get_data_value_reads; eauto; [rewrite (mark_good _ _ H3), inc_self; reflexivity|].
    right. split; auto. rewrite T. exists u. split; auto. lia.
Qed.
(** C67: read as a real, an operand that is not a real register yields the single nearest to its number, counters and times in
    full; nothing changes, except that a flag or marker index outside the configured quantity is reported. *)
Lemma C67_float_l : forall E s n r col i v z,
  executing (s_ctx s) n r col -> operand_at (s_ctx s) n r col i v -> counts (s_ctx s) v z ->
  (unchecked (v_type v) = true -> ~ bad_index (s_ctx s) v) -> Z.abs z < 2 ^ 64 ->
  exists p c', get_data_float E r col i s = Ok (p, mk_st c' (s_tr s)) /\ 0 <= p < 2 ^ 32 /\ nearest z p
    /\ changes_only (s_ctx s) c' (fun l => l = LErr /\ bad_index (s_ctx s) v)
    /\ (bad_index (s_ctx s) v -> z = 0 /\ peek c' LErr = Some (VErr E_OUTOFRANGE)).
Proof.
  intros E s n r col i v z H1 H2 H3 H4 H5. destruct (f32_of_int_nearest z H5) as (N1 & N2).
  rewrite (float_counts E s n r col i v z) by auto. exists (f32_of_int z), (if unchecked (v_type v) then s_ctx s else mark (s_ctx s) v).
  split; [reflexivity|]. split; auto. split; auto. destruct (unchecked (v_type v)) eqn:U.
  - specialize (H4 eq_refl). split; [intros l Hl; auto|tauto].
  - assert (R : reads (s_ctx s) v z) by (unfold counts in H3; destruct (v_type v); try discriminate; exact H3).
    destruct (C23_read_l E s n r col i v z H1 H2 R) as (c' & A & B & C).
    rewrite (get_data_value_reads E s n r col i v z H1 H2 R) in A. assert (c' = mark (s_ctx s) v) as -> by (injection A; auto).
    split; auto.
Qed.
(** C67: whole numbers up to 2^24 in magnitude are not rounded at all. *)
Lemma C67_exact_l : forall z p, Z.abs z <= 2 ^ 24 -> nearest z p -> exists m e, f32_denotes p m e /\ units m e = units z 0.
Proof. exact nearest_exact. Qed.
(** C67: a real register yields its own pattern, and nothing changes. *)
Lemma C67_float_real_l : forall E s n r col i v u,
  executing (s_ctx s) n r col -> operand_at (s_ctx s) n r col i v -> v_type v = R_R -> ~ bad_index (s_ctx s) v ->
  holds (s_ctx s) (LReg B_R (ix (v_raw v))) u -> get_data_float E r col i s = Ok (u, s).
Proof.
  intros E s n r col i v u H1 H2 T H3 R. set (c := s_ctx s) in *. unfold get_data_float. begin_read c H1 H2. rewrite T.
  apply lift_ok. apply holds_get; auto. eapply (not_bad_nn c v); auto. rewrite T; auto.
Qed.
(** C67: an operand beyond the cell's operand count reads as 0 and changes nothing. *)
Lemma C67_no_operand_l : forall E s n r col i b k d,
  executing (s_ctx s) n r col -> peek (s_ctx s) (LCell n r col) = Some (VCell b k d) -> (d <= i)%nat ->
  get_data_int32 E r col i s = Ok (0, s) /\ get_data_float E r col i s = Ok (0, s).
Proof.
  intros E s n r col i b k d H1 H2 H3. pose proof (operand_none _ _ _ _ _ _ _ _ H1 H2 H3) as O1.
  split; [unfold get_data_int32|unfold get_data_float]; rewrite bind_getc, (bind_ok _ _ _ _ _ (lift_ok _ _ s O1)); reflexivity.
Qed.
(** C67, finding: the typed accessors do not check the index of a counter, a timer, a data or a real register; outside the array
    they read out of bounds, where the accessor of the instructions reports an error. *)
Lemma C67_index_undefined_l : forall E s n r col i v,
  executing (s_ctx s) n r col -> operand_at (s_ctx s) n r col i v ->
  (match v_type v with
   | R_C => exists len, peek (s_ctx s) (LRegLen B_C) = Some (VN len) /\ ~ in_qty (v_raw v) len
   | R_D => exists len, peek (s_ctx s) (LRegLen B_D) = Some (VN len) /\ ~ in_qty (v_raw v) len
   | R_R => exists len, peek (s_ctx s) (LRegLen B_R) = Some (VN len) /\ ~ in_qty (v_raw v) len
   | R_T => exists l, x_tm (s_ctx s) = Some l /\ ~ in_qty (v_raw v) (length l)
   | _ => False
   end) ->
  get_data_int32 E r col i s = Bad UB_oob /\ get_data_float E r col i s = Bad UB_oob.
Proof.
  intros E s n r col i v H1 H2 H3. set (c := s_ctx s) in *.
  assert (G : forall b, (exists len, peek c (LRegLen b) = Some (VN len) /\ ~ in_qty (v_raw v) len) -> bk_get b (v_raw v) c = Bad UB_oob).
  { intros b (len & A & B). simpl in A. unfold bk_get. rewrite arr_of_bank. destruct (bank_arr b c) as [l|]; simpl in A; [|discriminate].
    inversion A; subst. unfold pget, lget, idx_ok, in_qty in *. destruct ((0 <=? v_raw v) && (v_raw v <? Z.of_nat (length l))) eqn:X; auto. lia. }
  unfold get_data_int32, get_data_float. split; begin_read c H1 H2;
    (destruct (v_type v) eqn:T; try contradiction;
      [unfold lift, bind; rewrite (G _ H3); reflexivity| |unfold lift, bind; rewrite (G _ H3); reflexivity|unfold lift, bind; rewrite (G _ H3); reflexivity]);
    destruct H3 as (l & A & B); unfold lift, bind; rewrite A; unfold pget, lget, idx_ok, in_qty in *;
    destruct ((0 <=? v_raw v) && (v_raw v <? Z.of_nat (length l))) eqn:X; auto; lia.
Qed.

(*EX
(* A machine whose counter 1 holds 3000000000 and counter 2 holds 7, with a data register of 2147483647. *)
Definition rd_ctx (v : value) : ctx :=
  set_x_regs (mk_regs (Some [0; 3000000000; 7; 0]) (Some [10; -3; 2147483647; 0]) (Some [1069547520; 0; 0; 0]))
    (demo [[cellv I_NO [v]]]).
Definition rd_int (v : value) : res Z := match get_data_int32 quiet_env 0 0 0 (start (rd_ctx v)) with Ok (z, _) => Ok z | Bad u => Bad u | NoFuel => NoFuel end.
Definition rd_float (v : value) : res Z := match get_data_float quiet_env 0 0 0 (start (rd_ctx v)) with Ok (z, _) => Ok z | Bad u => Bad u | NoFuel => NoFuel end.
Definition rd_val (v : value) : res Z := match get_data_value quiet_env 0 0 0 (start (rd_ctx v)) with Ok (z, _) => Ok z | Bad u => Bad u | NoFuel => NoFuel end.
Example C67_int_case :
  executing (rd_ctx (V R_C 2)) 0 0 0 /\ operand_at (rd_ctx (V R_C 2)) 0 0 0 0 (V R_C 2) /\ reads (rd_ctx (V R_C 2)) (V R_C 2) 7
  /\ small (rd_ctx (V R_C 2)) (V R_C 2) /\ rd_int (V R_C 2) = Ok 7 /\ rd_val (V R_C 2) = Ok 7
  /\ reads (rd_ctx (V R_M 9)) (V R_M 9) 0 /\ bad_index (rd_ctx (V R_M 9)) (V R_M 9) /\ rd_int (V R_M 9) = Ok 0.
Proof.
  split; [decide_exec|]. split; [decide_op|]. split; [decide_reads|].
  split; [exists 7; split; [reflexivity|lia]|]. split; [reflexivity|]. split; [reflexivity|]. split; [decide_reads|].
  split; [vm_compute; intros (_ & H); discriminate|reflexivity].
Qed.
Example C67_overflow_case :
  executing (rd_ctx (V R_C 1)) 0 0 0 /\ operand_at (rd_ctx (V R_C 1)) 0 0 0 0 (V R_C 1) /\ too_big (rd_ctx (V R_C 1)) (V R_C 1)
  /\ ~ bad_index (rd_ctx (V R_C 1)) (V R_C 1) /\ rd_int (V R_C 1) = Ok 0 /\ rd_val (V R_C 1) = Ok (-1294967296).
Proof.
  split; [decide_exec|]. split; [decide_op|]. split; [exists 3000000000; split; [reflexivity|lia]|].
  split; [intros H; apply H; vm_compute; split; [discriminate|reflexivity]|]. split; reflexivity.
Qed.
(* 3000000000 is 11718750 times 2^8 and needs no rounding; 2147483647 becomes 2^31; the constants 16777217 and
   16777219 lie half way between two singles and go to the even one. *)
Example C67_float_case :
  executing (rd_ctx (V R_C 1)) 0 0 0 /\ operand_at (rd_ctx (V R_C 1)) 0 0 0 0 (V R_C 1) /\ counts (rd_ctx (V R_C 1)) (V R_C 1) 3000000000
  /\ rd_float (V R_C 1) = Ok 1328730206 /\ f32_denotes 1328730206 11718750 8 /\ units 11718750 8 = units 3000000000 0
  /\ rd_float (V R_D 2) = Ok 1325400064 /\ f32_denotes 1325400064 8388608 8
  /\ rd_float (V R_NONE 16777217) = Ok 1266679808 /\ f32_denotes 1266679808 8388608 1
  /\ rd_float (V R_NONE 16777219) = Ok 1266679810 /\ f32_denotes 1266679810 8388610 1
  /\ rd_float (V R_NONE (-3)) = Ok 3225419776 /\ rd_float (V R_R 0) = Ok 1069547520.
Proof.
  split; [decide_exec|]. split; [decide_op|]. repeat match goal with |- _ /\ _ => split end; try reflexivity; vm_compute; repeat split; discriminate.
Qed.
Example C67_index_undefined_case :
  executing (rd_ctx (V R_C 4)) 0 0 0 /\ operand_at (rd_ctx (V R_C 4)) 0 0 0 0 (V R_C 4)
  /\ peek (rd_ctx (V R_C 4)) (LRegLen B_C) = Some (VN 4) /\ ~ in_qty 4 4
  /\ rd_int (V R_C 4) = Bad UB_oob /\ rd_float (V R_C 4) = Bad UB_oob /\ rd_val (V R_C 4) = Ok 0
  /\ rd_int (V R_T 99) = Bad UB_oob /\ rd_int (V R_D (-1)) = Bad UB_oob.
Proof.
  split; [decide_exec|]. split; [decide_op|]. split; [reflexivity|]. split; [unfold in_qty; lia|]. repeat split.
Qed.
Example C67_no_operand_case :
  executing (rd_ctx (V R_C 4)) 0 0 0 /\ peek (rd_ctx (V R_C 4)) (LCell 0 0 0) = Some (VCell false I_NO 1)
  /\ get_data_float quiet_env 0 0 1 (start (rd_ctx (V R_C 4))) = Ok (0, start (rd_ctx (V R_C 4))).
Proof. split; [decide_exec|]. split; reflexivity. Qed.
EX*)
