(** moves and foreign calls (C20, C21, C22). *)
From Verif Require Export Demo.

(** ** MOVE *)
Lemma operand_cell c n r col i v : executing c n r col -> operand_at c n r col i v ->
  exists x, ex_cell r col c = Ok x /\ is_null (c_data x) = false /\ (i < c_dq x)%nat.
Proof.
  intros He (H1 & b & k & d & H2 & H3). destruct (executing_cell _ _ _ _ He) as (nt & x & Hx & Hn & Hr & Hc & Hce & Hnc).
  exists x. split; [eapply ex_cell_ok; eauto|]. cbn [peek] in H1, H2. rewrite Hce in H1, H2. simpl in H1, H2. inversion H2; subst.
  split; auto. destruct (c_data x); [auto|discriminate].
Qed.
Section Move.
Context (E : env) (s : st) (n r col : nat).
Notation c := (s_ctx s).
Hypothesis He : executing c n r col.
Lemma move_start v0 v1 : operand_at c n r col 0 v0 -> operand_at c n r col 1 v1 ->
  fn_MOVE E col r s =
  (src <- move_src E v0 col r ;;
  match src with
  | inl e => ret e
  | inr (z, isf) =>
      if (if isf : bool then negb (move_float_dest (v_type v1)) else negb (move_int_dest (v_type v1)))
      then ret E_TYPEMISMATCH
      else
        e <- set_data r col 1 z ;;
        l <- mleft col r ;;
        mput col r l ;;;
        ret (if is_ok e then E_OK else E_SETDATAVAL)
  end) s.
Proof.
  intros H0 H1. unfold fn_MOVE. rewrite bind_getc. destruct (operand_cell _ _ _ _ _ _ He H1) as (x & Hx & Hd & Hq).
  rewrite (bind_ok _ _ _ _ _ (lift_ok _ _ _ Hx)). rewrite Hd. replace (c_dq x <? 2)%nat with false by lia. change (false || false) with false. cbv iota.
  rewrite (bind_ok _ _ _ _ _ (lift_ok _ _ _ (ex_data_ok _ _ _ _ _ _ He (data_of _ _ _ _ _ _ H0)))).
  rewrite (bind_ok _ _ _ _ _ (lift_ok _ _ _ (ex_data_ok _ _ _ _ _ _ He (data_of _ _ _ _ _ _ H1)))). reflexivity.
Qed.
Lemma src_word v0 z : operand_at c n r col 0 v0 -> reads c v0 z -> is_word (v_type v0) ->
  move_src E v0 col r s = Ok (inr (z, false), inc s (mark c v0)).
Proof.
  intros H1 H2 H3. unfold move_src. destruct (v_type v0) eqn:Ht; try contradiction; run get_data_value_reads; reflexivity.
Qed.
Lemma src_real v0 u : v_type v0 = R_R -> fits (v_raw v0) -> ~ bad_index c v0 -> holds c (LReg B_R (ix (v_raw v0))) u ->
  move_src E v0 col r s = Ok (inr (u, true), s).
Proof.
  intros Ht Hf Hb Hh. unfold move_src. rewrite Ht, bind_getc. unfold bad_index in Hb; rewrite Ht in Hb; simpl in Hb.
  unfold in_qty, fits in *. assert (u32 (v_raw v0) = v_raw v0) as -> by (apply Z.mod_small; lia).
  replace (Z.of_nat (q_r (x_q c)) <=? v_raw v0) with false by lia.
  erewrite bind_ok; [|apply lift_ok; eapply holds_get; [lia|exact Hh]]. reflexivity.
Qed.
Lemma move_write v1 w e0 l c0 : executing c0 n r col -> peek c0 (LData n r col 1) = Some (VVal v1) -> stores_ok c0 -> left_powered c0 n r col l ->
  (e <- set_data r col 1 w ;; l0 <- mleft col r ;; mput col r l0 ;;; ret (if is_ok e then E_OK else e0)) (inc s c0)
  = Ok (if is_ok (write_err c0 v1) then E_OK else e0, inc s (put_pow n r col l (wr v1 w c0))).
Proof.
  intros Hx Hd Hs Hl. erewrite bind_ok; [|eapply (set_data_wr (inc s c0)); [exact Hx|exact Hd|exact Hs]]. simpl inc.
  assert (Hx' : executing (wr v1 w c0) n r col) by (eapply executing_same; [apply prog_wr|auto]).
  assert (Hl' : left_powered (wr v1 w c0) n r col l) by (apply left_wr; auto).
  run mleft_ok. run mput_ok. reflexivity.
Qed.
End Move.

Lemma write_err_same c c' v : same_store c c' -> write_err c' v = write_err c v.
Proof.
  intros H. unfold write_err. rewrite (target_same c c' v H). rewrite (H LOutCount I), (H LInCount I). auto.
Qed.
Lemma write_err_ok c v : is_ok (write_err c v) = match target c v with Some _ => true | None => false end.
Proof.
  unfold write_err. destruct (target c v); auto. destruct (v_type v); auto;
    match goal with |- context [match ?x with _ => _ end] => destruct x; auto end.
Qed.
Lemma effect_wr_pow a b n r col q v w u : same_store a b -> effect a b [] None u ->
  effect a (put_pow n r col q (wr v w b)) [(n, r, col)] (Some v) u.
Proof. intros H1 H2. apply (effect_then_pow a (wr v w b) n r col q [] (Some v) u). apply effect_then_wr; auto. Qed.

(** ** Table accesses *)
Lemma div_lt p rows cols : (p < rows * cols)%nat -> (cols <> 0)%nat /\ (p / cols < rows)%nat /\ (p mod cols < cols)%nat.
Proof.
  intros H. assert (cols <> 0)%nat by (intros ->; lia). repeat split; auto.
  - apply Nat.div_lt_upper_bound; lia.
  - apply Nat.mod_upper_bound; auto.
Qed.
Lemma div_inj p p' cols : (cols <> 0)%nat -> (p / cols = p' / cols)%nat -> (p mod cols = p' mod cols)%nat -> p = p'.
Proof. intros H H1 H2. rewrite (Nat.div_mod p cols), (Nat.div_mod p' cols) by auto. congruence. Qed.
Lemma pos_nat p cols : (cols <> 0)%nat ->
  Z.to_nat (Z.of_nat p / Z.of_nat cols) = (p / cols)%nat /\ Z.to_nat (Z.of_nat p mod Z.of_nat cols) = (p mod cols)%nat.
Proof. intros H. rewrite <- Nat2Z.inj_div, <- Nat2Z.inj_mod, !Nat2Z.id. auto. Qed.
Lemma net_peek c n en rows cols : peek c (LNet n) = Some (VNet en rows cols) ->
  exists nt, net_of c n = Some nt /\ n_en nt = en /\ n_rows nt = rows /\ n_cols nt = cols.
Proof. cbn [peek]. destruct (net_of c n); simpl; [|discriminate]. intros [= <- <- <-]. eauto. Qed.
Lemma cell_peek c n r col bar code dq : peek c (LCell n r col) = Some (VCell bar code dq) ->
  exists x, cell_of c n r col = Some x /\ c_dq x = dq.
Proof. cbn [peek]. destruct (cell_of c n r col); simpl; [|discriminate]. intros [= <- <- <-]. eauto. Qed.

Section Slot.
Context (c : ctx) (n rows cols : nat) (en : bool).
Hypothesis Hq : (n < q_nets (x_q c))%nat.
Hypothesis Hn : peek c (LNet n) = Some (VNet en rows cols).
Hypothesis Hs : Z.of_nat (rows * cols) < 2 ^ 32.
Lemma slot_start p : (p < rows * cols)%nat -> exists nt x0, net_of c n = Some nt /\ x0 = cell_in nt (p / cols) (p mod cols) /\
  table_slot (Z.of_nat n) (Z.of_nat p) c =
  (let? x := x0 in
   if (c_dq x <? 1)%nat then Ok (inl E_OUTOFRANGE) else
   let? v := pget (c_data x) 0 in
   if is_table_type (v_type v) then Ok (inr ((p / cols)%nat, (p mod cols)%nat, v)) else Ok (inl E_TYPEMISMATCH)).
Proof.
  intros Hp. destruct (net_peek _ _ _ _ _ Hn) as (nt & Hnt & He & Hr & Hc). destruct (div_lt _ _ _ Hp) as (D1 & D2 & D3).
  exists nt. eexists; split; [auto|split; [reflexivity|]]. unfold table_slot.
  replace (Z.of_nat (q_nets (x_q c)) <=? Z.of_nat n) with false by lia.
  rewrite (pget_nat _ _ _ Hnt). cbn [rbind]. unfold net_size. rewrite Hr, Hc.
  unfold u32. rewrite Z.mod_small by lia. replace (Z.of_nat rows * Z.of_nat cols <=? Z.of_nat p) with false by lia.
  replace (cols =? 0)%nat with false by lia. destruct (pos_nat p cols D1) as (-> & ->).
  replace (rows <=? p / cols)%nat with false by lia. replace (cols <=? p mod cols)%nat with false by lia. reflexivity.
Qed.
Lemma slot_ok p v : table_entry c n p v -> table_slot (Z.of_nat n) (Z.of_nat p) c = Ok (inr ((p / cols)%nat, (p mod cols)%nat, v)).
Proof.
  intros (en' & rows' & cols' & bar & code & dq & H1 & H2 & H3 & H4 & H5 & H6).
  rewrite Hn in H1; inversion H1; subst en' rows' cols'.
  destruct (slot_start p H2) as (nt & x0 & Hnt & -> & ->). destruct (cell_peek _ _ _ _ _ _ _ H3) as (x & Hx & Hd).
  rewrite (cell_of_net _ _ _ _ _ Hnt) in Hx. rewrite (cell_in_of _ _ _ _ Hx). cbn [rbind].
  replace (c_dq x <? 1)%nat with false by lia. cbn [peek] in H5. rewrite (cell_of_net _ _ _ _ _ Hnt), Hx in H5. simpl in H5.
  destruct (elem (c_data x) 0) eqn:Hv; [|discriminate]. inversion H5; subst. change 0 with (Z.of_nat 0).
  rewrite (pget_nat _ _ _ Hv). cbn [rbind]. destruct (v_type v); simpl; auto; contradiction.
Qed.
Lemma slot_bad p : not_entry c n p -> exists e, table_slot (Z.of_nat n) (Z.of_nat p) c = Ok (inl e) /\ e <> E_OK.
Proof.
  intros (en' & rows' & cols' & bar & code & dq & H1 & H2 & H3 & H4).
  rewrite Hn in H1; inversion H1; subst en' rows' cols'.
  destruct (slot_start p H2) as (nt & x0 & Hnt & -> & ->). destruct (cell_peek _ _ _ _ _ _ _ H3) as (x & Hx & Hd).
  rewrite (cell_of_net _ _ _ _ _ Hnt) in Hx. rewrite (cell_in_of _ _ _ _ Hx). cbn [rbind].
  destruct H4 as [->|(H4 & v & H5 & H6)].
  - replace (c_dq x <? 1)%nat with true by lia. eexists; split; [reflexivity|discriminate].
  - replace (c_dq x <? 1)%nat with false by lia. cbn [peek] in H5. rewrite (cell_of_net _ _ _ _ _ Hnt), Hx in H5. simpl in H5.
    destruct (elem (c_data x) 0) eqn:Hv; [|discriminate]. inversion H5; subst. change 0 with (Z.of_nat 0).
    rewrite (pget_nat _ _ _ Hv). cbn [rbind].
    replace (is_table_type (v_type v)) with false by (destruct (v_type v); simpl in *; tauto).
    eexists; split; [reflexivity|discriminate].
Qed.
Lemma read_table_ok q : forall p f, (p + q <= rows * cols)%nat ->
  (forall i, (i < q)%nat -> exists v, table_entry c n (p + i) v /\ v_raw v = f i) ->
  read_table q (Z.of_nat n) (Z.of_nat p) c = Ok (inr (map f (seq 0 q))).
Proof.
  induction q as [|q IH]; intros p f Hp H; auto. cbn [read_table].
  destruct (H 0%nat) as (v & Hv & Hf); [lia|]. rewrite Nat.add_0_r in Hv. unfold get_table. rewrite (slot_ok _ _ Hv). cbn [rbind].
  replace (u32 (Z.of_nat p + 1)) with (Z.of_nat (S p)) by (unfold u32; rewrite Z.mod_small; lia).
  rewrite (IH (S p) (fun i => f (S i))).
  - cbn [rbind seq map]. rewrite <- seq_shift, map_map, Hf. auto.
  - lia.
  - intros i Hi. destruct (H (S i)) as (w & Hw & Hfw); [lia|]. exists w. split; auto.
    replace (S p + i)%nat with (p + S i)%nat by lia. auto.
Qed.
Lemma read_table_bad q : forall p j, (p + q <= rows * cols)%nat -> (j < q)%nat ->
  (forall i, (i < j)%nat -> exists v, table_entry c n (p + i) v) -> not_entry c n (p + j) ->
  exists e, read_table q (Z.of_nat n) (Z.of_nat p) c = Ok (inl e) /\ e <> E_OK.
Proof.
  induction q as [|q IH]; intros p j Hp Hj H Hb; [lia|]. cbn [read_table]. unfold get_table.
  destruct j as [|j].
  - rewrite Nat.add_0_r in Hb. destruct (slot_bad _ Hb) as (e & He & Hne). rewrite He. cbn [rbind]. eauto.
  - destruct (H 0%nat) as (v & Hv); [lia|]. rewrite Nat.add_0_r in Hv. rewrite (slot_ok _ _ Hv). cbn [rbind].
    replace (u32 (Z.of_nat p + 1)) with (Z.of_nat (S p)) by (unfold u32; rewrite Z.mod_small; lia).
    destruct (IH (S p) j) as (e & He & Hne); try lia.
    + intros i Hi. destruct (H (S i)) as (w & Hw); [lia|]. exists w. replace (S p + i)%nat with (p + S i)%nat by lia. auto.
    + replace (S p + j)%nat with (p + S j)%nat by lia. auto.
    + rewrite He. cbn [rbind]. eauto.
Qed.
End Slot.

Lemma put_data0 c n r col v z x : cell_of c n r col = Some x -> peek c (LData n r col 0) = Some (VVal v) ->
  peek (put_cell n r col (set_data0 z x) c) (LData n r col 0) = Some (VVal (mk_value (v_type v) z (v_str v)))
  /\ changes_only c (put_cell n r col (set_data0 z x) c) (eq (LData n r col 0)).
Proof.
  intros Hx Hv. cbn [peek] in Hv. rewrite Hx in Hv. simpl in Hv. unfold set_data0.
  destruct (c_data x) as [[|v' t]|] eqn:Hd; simpl in Hv; try discriminate. inversion Hv; subst v'. split.
  - cbn [peek]. rewrite (put_cell_same _ _ _ _ _ _ Hx). simpl. destruct v; reflexivity.
  - intros l Hl.
    destruct (loc_eq_dec l (LPow n r col)) as [->|H1].
    { cbn [peek]. rewrite (put_cell_same _ _ _ _ _ _ Hx), Hx; auto. }
    destruct (loc_eq_dec l (LCell n r col)) as [->|H2].
    { cbn [peek]. rewrite (put_cell_same _ _ _ _ _ _ Hx), Hx; auto. }
    destruct (loc_eq_dec l (LDataLen n r col)) as [->|H3].
    { cbn [peek]. rewrite (put_cell_same _ _ _ _ _ _ Hx), Hx; simpl. rewrite Hd; auto. }
    destruct l; try (apply put_cell_frame; unfold of_cell; intros [?|[?|[?|[? ?]]]]; congruence).
    destruct (loc_eq_dec (LPow n r col) (LPow n0 r0 col0)) as [[= <- <- <-]|H4].
    + cbn [peek]. rewrite (put_cell_same _ _ _ _ _ _ Hx), Hx; simpl. rewrite Hd. destruct i; [congruence|reflexivity].
    + apply put_cell_frame; unfold of_cell; intros [?|[?|[?|[? ?]]]]; congruence.
Qed.
Lemma entry_same c c' n p v : (forall l, l = LNet n \/ (exists r col, l = LCell n r col) -> peek c' l = peek c l) ->
  (forall rows cols en, peek c (LNet n) = Some (VNet en rows cols) ->
     peek c' (LData n (p / cols) (p mod cols) 0) = peek c (LData n (p / cols) (p mod cols) 0)) ->
  table_entry c n p v -> table_entry c' n p v.
Proof.
  intros H1 H2 (en & rows & cols & bar & code & dq & A1 & A2 & A3 & A4 & A5 & A6). specialize (H2 _ _ _ A1).
  exists en, rows, cols, bar, code, dq. rewrite H2, !H1 by eauto. repeat (split; auto).
Qed.
Lemma write_table_ok n en rows cols : forall zs p c, (n < q_nets (x_q c))%nat -> peek c (LNet n) = Some (VNet en rows cols) ->
  Z.of_nat (rows * cols) < 2 ^ 32 -> (p + length zs <= rows * cols)%nat ->
  (forall i, (i < length zs)%nat -> exists v, table_entry c n (p + i) v) ->
  exists c', write_table zs (Z.of_nat n) (Z.of_nat p) c = Ok (E_OK, c')
    /\ (forall i z, nth_error zs i = Some z -> exists v, table_entry c n (p + i) v /\ table_entry c' n (p + i) (mk_value (v_type v) z (v_str v)))
    /\ changes_only c c' (fun l => exists i, (i < length zs)%nat /\ l = LData n ((p + i) / cols) ((p + i) mod cols) 0).
Proof.
  induction zs as [|z zs IH]; intros p c Hq Hn Hs Hp H.
  { exists c. split; [auto|split]; [intros [|i] z [=]|apply changes_refl]. }
  cbn [length] in *. destruct (H 0%nat) as (v & Hv); [lia|]. rewrite Nat.add_0_r in Hv.
  assert (D0 : (p < rows * cols)%nat) by lia. destruct (div_lt _ _ _ D0) as (D1 & D2 & D3).
  pose proof Hv as (en' & rows' & cols' & bar & code & dq & A1 & A2 & A3 & A4 & A5 & A6).
  rewrite Hn in A1; inversion A1; subst en' rows' cols'.
  destruct (cell_peek _ _ _ _ _ _ _ A3) as (x & Hx & Hd).
  destruct (put_data0 _ _ _ _ _ z _ Hx A5) as (P1 & P2). set (c1 := put_cell n (p / cols) (p mod cols) (set_data0 z x) c) in *.
  assert (HN : peek c1 (LNet n) = Some (VNet en rows cols)) by (rewrite P2; auto; discriminate).
  assert (HD : forall j, j <> p -> peek c1 (LData n (j / cols) (j mod cols) 0) = peek c (LData n (j / cols) (j mod cols) 0)).
  { intros j Hj. apply P2. intros [= E1 E2]. apply Hj. apply (div_inj _ _ cols D1); auto. }
  assert (HE : forall j w, j <> p -> table_entry c n j w <-> table_entry c1 n j w).
  { intros j w Hj. split; apply entry_same.
    - intros l [->|(r' & c' & ->)]; apply P2; discriminate.
    - intros rows' cols' en' E1. rewrite Hn in E1; inversion E1; subst. auto.
    - intros l [->|(r' & c' & ->)]; symmetry; apply P2; discriminate.
    - intros rows' cols' en' E1. rewrite HN in E1; inversion E1; subst. symmetry; auto. }
  destruct (IH (S p) c1) as (c' & W1 & W2 & W3); auto; try lia.
  { intros i Hi. destruct (H (S i)) as (w & Hw); [lia|]. replace (p + S i)%nat with (S p + i)%nat in Hw by lia.
    exists w. apply HE; auto; lia. }
  exists c'. split; [|split].
  - cbn [write_table]. unfold set_table. rewrite (slot_ok c n rows cols en Hq Hn Hs p v Hv). cbn [rbind].
    rewrite Nat2Z.id, (upd_cell_ok _ _ _ _ _ _ Hx). cbn [rbind is_ok]. fold c1.
    replace (u32 (Z.of_nat p + 1)) with (Z.of_nat (S p)) by (unfold u32; rewrite Z.mod_small; lia). apply W1.
  - intros [|i] z0 Hz.
    + inversion Hz; subst z0. exists v. rewrite Nat.add_0_r. split; auto.
      exists en, rows, cols, bar, code, dq.
      assert (HF : forall l, l = LNet n \/ (exists r c, l = LCell n r c) \/ l = LData n (p / cols) (p mod cols) 0 -> peek c' l = peek c1 l).
      { intros l Hl. apply W3. intros (i & Hi & ->). destruct Hl as [?|[(?&?&?)|[= E1 E2]]]; try discriminate.
        assert (S p + i = p)%nat by (apply (div_inj _ _ cols D1); auto). lia. }
      rewrite !HF by eauto. rewrite HN, P1. rewrite (P2 (LCell n (p / cols) (p mod cols))) by discriminate.
      repeat split; auto.
    + destruct (W2 i z0 Hz) as (w & X1 & X2). exists w. replace (p + S i)%nat with (S p + i)%nat by lia.
      split; auto. apply HE; auto; lia.
  - intros l Hl. rewrite W3, P2; auto.
    + intros <-. apply Hl. exists 0%nat. rewrite Nat.add_0_r. split; [lia|auto].
    + intros (i & Hi & ->). apply Hl. exists (S i). replace (p + S i)%nat with (S p + i)%nat by lia. split; [lia|auto].
Qed.

(** ** TMOVE *)
Definition five (c : ctx) (v0 v1 v2 v3 v4 : value) : ctx := mark (mark (mark (mark (mark c v0) v1) v2) v3) v4.
Lemma effect_mark_then a b v k u : same_store a b -> effect a b k None u -> effect a (mark b v) k None (u ++ [v]).
Proof.
  intros Hs H. replace k with (k ++ []) by apply app_nil_r. apply (effect_seq a b); auto using keeps_mk, effect_mark.
Qed.
Lemma effect_five c v0 v1 v2 v3 v4 : effect c (five c v0 v1 v2 v3 v4) [] None [v0; v1; v2; v3; v4].
Proof.
  unfold five. pose proof (store_mark c v0). pose proof (store_trans _ _ _ H (store_mark _ v1)).
  pose proof (store_trans _ _ _ H0 (store_mark _ v2)). pose proof (store_trans _ _ _ H1 (store_mark _ v3)).
  apply (effect_mark_then _ _ v4 [] [v0; v1; v2; v3]); auto.
  apply (effect_mark_then _ _ v3 [] [v0; v1; v2]); auto.
  apply (effect_mark_then _ _ v2 [] [v0; v1]); auto.
  apply (effect_mark_then _ _ v1 [] [v0]); auto. apply effect_mark.
Qed.
Section Tmove.
Context (E : env) (s : st) (n r col : nat).
Notation c := (s_ctx s).
Hypothesis He : executing c n r col.
Context (v0 v1 v2 v3 v4 : value) (dn dp sn sp qr : Z).
Hypothesis O0 : operand_at c n r col 0 v0.
Hypothesis O1 : operand_at c n r col 1 v1.
Hypothesis O2 : operand_at c n r col 2 v2.
Hypothesis O3 : operand_at c n r col 3 v3.
Hypothesis O4 : operand_at c n r col 4 v4.
Hypothesis R0 : reads c v0 dn.
Hypothesis R1 : reads c v1 dp.
Hypothesis R2 : reads c v2 sn.
Hypothesis R3 : reads c v3 sp.
Hypothesis R4 : reads c v4 qr.
Notation c5 := (five c v0 v1 v2 v3 v4).
Definition tmove_rest : M err :=
  let q := if (qr <? 0) || (max_move <? qr) then 0 else qr in
  if q =? 0 then l <- mleft col r ;; mput col r l ;;; ret E_OK
  else
    c <- getc ;;
    dnet <- lift (pget (x_net c) dn) ;;
    en <- (if n_en dnet then ret true else snet <- lift (pget (x_net c) sn) ;; ret (n_en snet)) ;;
    if en : bool then mput col r false ;;; ret E_NOTABLE
    else
      snet <- lift (pget (x_net c) sn) ;;
      if (net_size dnet <? u32 (dp + q)) || (net_size snet <? u32 (sp + q))
      then mput col r false ;;; ret E_OUTOFRANGE
      else
        rd <- lift (read_table (Z.to_nat q) (u32 sn) (u32 sp) c) ;;
        match rd with
        | inl e => mput col r false ;;; ret e
        | inr zs =>
            x <- lift (write_table zs (u32 dn) (u32 dp) c) ;;
            let (e, c') := x in
            modc (fun _ => c') ;;;
            if is_ok e then l <- mleft col r ;; mput col r l ;;; ret E_OK
            else mput col r false ;;; ret e
        end.
Lemma tmove_start : fn_TMOVE E col r s = tmove_rest (inc s c5).
Proof.
  unfold fn_TMOVE. run get_data_value_reads. run get_data_value_reads. run get_data_value_reads. run get_data_value_reads.
  run get_data_value_reads. reflexivity.
Qed.
Lemma five_prog : same_prog c c5.
Proof. intros l Hl. unfold five. rewrite !mark_frame; auto; intros ->; destruct Hl. Qed.
Lemma five_store : same_store c c5.
Proof. intros l Hl. unfold five. rewrite !mark_frame; auto; intros ->; destruct Hl. Qed.
Lemma five_exec : executing c5 n r col.
Proof. eapply executing_same; [apply five_prog|auto]. Qed.
Lemma five_left b : left_powered c n r col b -> left_powered c5 n r col b.
Proof. intros H. unfold five. fr. Qed.
End Tmove.

(** ** C20 *)
(** C20: MOVE between integer registers stores the 32-bit number read from the source at the place of the destination,
    copies the power, and changes nothing else; it faults when the destination addresses no place. It does so whatever
    the power on its left is. *)
Lemma C20_move_word_l : forall E s n r col b v0 v1 z,
  executing (s_ctx s) n r col -> left_powered (s_ctx s) n r col b ->
  operand_at (s_ctx s) n r col 0 v0 -> operand_at (s_ctx s) n r col 1 v1 -> stores_ok (s_ctx s) ->
  is_word (v_type v0) -> is_word (v_type v1) -> reads (s_ctx s) v0 z ->
  exists c', runs E I_MOVE r col s (match target (s_ctx s) v1 with Some _ => E_OK | None => E_SETDATAVAL end) c'
    /\ stores (s_ctx s) v1 z c' /\ powered c' n r col b
    /\ effect (s_ctx s) c' [(n, r, col)] (Some v1) [v0].
Proof.
  intros E s n r col b v0 v1 z He Hl H0 H1 Hs W0 W1 R0. set (c := s_ctx s) in *.
  exists (put_pow n r col b (wr v1 z (mark c v0))). split; [|split; [|split]].
  - eapply runs_intro; [reflexivity|]. rewrite (move_start E s n r col He v0 v1) by auto.
    rewrite (bind_ok _ _ _ _ _ (src_word E s n r col He v0 z H0 R0 W0)). cbv iota beta.
    replace (negb (move_int_dest (v_type v1))) with false by (destruct (v_type v1); simpl in *; tauto).
    fold c. rewrite (move_write s n r col v1 z E_SETDATAVAL b); try (unfold c; fr; fail); [|apply data_of; fr].
    rewrite write_err_ok. rewrite (target_same c (mark c v0) v1) by apply store_mark. destruct (target c v1); reflexivity.
  - intros l Hl1. unfold holds. rewrite put_pow_frame; [|intros ->; apply target_shape in Hl1; destruct Hl1].
    apply (stores_wr c (mark c v0) v1 z); auto; [apply store_mark|fr].
  - apply powered_pow_here. apply has_same with c; [|apply (executing_has c n r col He)].
    rewrite wr_frame, mark_frame by (try discriminate; intros Ht; apply target_shape in Ht; destruct Ht). auto.
  - apply effect_wr_pow; [apply store_mark|apply effect_mark].
Qed.
(** C20: MOVE between real registers copies the pattern. *)
Lemma C20_move_real_l : forall E s n r col b v0 v1 u,
  executing (s_ctx s) n r col -> left_powered (s_ctx s) n r col b ->
  operand_at (s_ctx s) n r col 0 v0 -> operand_at (s_ctx s) n r col 1 v1 -> stores_ok (s_ctx s) ->
  v_type v0 = R_R -> v_type v1 = R_R -> fits (v_raw v0) -> ~ bad_index (s_ctx s) v0 ->
  holds (s_ctx s) (LReg B_R (ix (v_raw v0))) u ->
  exists c', runs E I_MOVE r col s (match target (s_ctx s) v1 with Some _ => E_OK | None => E_SETDATAVAL end) c'
    /\ stores (s_ctx s) v1 u c' /\ powered c' n r col b
    /\ effect (s_ctx s) c' [(n, r, col)] (Some v1) [].
Proof.
  intros E s n r col b v0 v1 u He Hl H0 H1 Hs T0 T1 Hf Hb Hh. set (c := s_ctx s) in *.
  exists (put_pow n r col b (wr v1 u c)). split; [|split; [|split]].
  - eapply runs_intro; [reflexivity|]. rewrite (move_start E s n r col He v0 v1) by auto.
    rewrite (bind_ok _ _ _ _ _ (src_real E s r col v0 u T0 Hf Hb Hh)). cbv iota beta. rewrite T1. simpl negb. cbv iota.
    rewrite <- (inc_self s) at 1. fold c.
    rewrite (move_write s n r col v1 u E_SETDATAVAL b); try (unfold c; fr; fail); [|apply (data_of _ _ _ _ _ _ H1)].
    rewrite write_err_ok. destruct (target c v1); reflexivity.
  - intros l Hl1. unfold holds. rewrite put_pow_frame; [|intros ->; apply target_shape in Hl1; destruct Hl1].
    apply (wr_here v1 u c l); auto.
  - apply powered_pow_here. apply has_same with c; [|apply (executing_has c n r col He)].
    rewrite wr_frame by (try discriminate; intros Ht; apply target_shape in Ht; destruct Ht). auto.
  - apply effect_wr_pow; [intros l _; auto|apply effect_refl].
Qed.
(** C20: what a word register keeps of a number has the same 32 bits. *)
Lemma C20_bits_l : forall t z, is_word t \/ t = R_R -> t <> R_T -> (kept t z) mod 2 ^ 32 = z mod 2 ^ 32.
Proof.
  assert (HZ : forall z, ((z + 2 ^ 31) mod 2 ^ 32 - 2 ^ 31) mod 2 ^ 32 = z mod 2 ^ 32).
  { intros z. rewrite Zminus_mod_idemp_l. f_equal. lia. }
  intros t z [H| ->] Ht; [destruct t; simpl in H; try contradiction; try congruence|]; unfold kept; try apply HZ;
    apply Z.mod_mod; lia.
Qed.
(** C20: incompatible operand types fault the program with a type error and change at most the error mark. *)
Lemma C20_mismatch_l : forall E s n r col v0 v1 z,
  executing (s_ctx s) n r col -> operand_at (s_ctx s) n r col 0 v0 -> operand_at (s_ctx s) n r col 1 v1 ->
  match v_type v0 with
  | R_R => v_type v1 <> R_R /\ fits (v_raw v0) /\ ~ bad_index (s_ctx s) v0 /\ holds (s_ctx s) (LReg B_R (ix (v_raw v0))) z
  | _ => is_word (v_type v0) -> ~ is_word (v_type v1) /\ reads (s_ctx s) v0 z
  end ->
  exists c', runs E I_MOVE r col s E_TYPEMISMATCH c' /\ changes_only (s_ctx s) c' (eq LErr).
Proof.
  intros E s n r col v0 v1 z He H0 H1 H. set (c := s_ctx s) in *.
  assert (is_word (v_type v0) \/ v_type v0 = R_R \/ (~ is_word (v_type v0) /\ v_type v0 <> R_R)) as [W|[W|(W & W')]].
  { destruct (v_type v0); simpl; auto; right; right; split; auto; discriminate. }
  - assert (HH : ~ is_word (v_type v1) /\ reads c v0 z) by (destruct (v_type v0); simpl in W; try contradiction; auto).
    destruct HH as (W1 & R0). exists (mark c v0). split; [|intros l Hl; apply mark_frame; auto].
    eapply runs_intro; [reflexivity|]. rewrite (move_start E s n r col He v0 v1) by auto.
    rewrite (bind_ok _ _ _ _ _ (src_word E s n r col He v0 z H0 R0 W)). cbv iota beta.
    replace (negb (move_int_dest (v_type v1))) with true by (destruct (v_type v1); simpl in *; tauto). reflexivity.
  - rewrite W in H. destruct H as (W1 & Hf & Hb & Hh). exists c. split; [|apply changes_refl].
    eapply runs_intro; [reflexivity|]. rewrite (move_start E s n r col He v0 v1) by auto.
    rewrite (bind_ok _ _ _ _ _ (src_real E s r col v0 z W Hf Hb Hh)). cbv iota beta.
    replace (negb (move_float_dest (v_type v1))) with true by (destruct (v_type v1); simpl in *; tauto). unfold c; rewrite inc_self. reflexivity.
  - exists c. split; [|apply changes_refl].
    eapply runs_intro; [reflexivity|]. rewrite (move_start E s n r col He v0 v1) by auto.
    unfold move_src. unfold c; rewrite inc_self. destruct (v_type v0); simpl in W; try tauto; try congruence; reflexivity.
Qed.
(** C20: a real source with an index out of range faults with a range error and changes nothing. *)
Lemma C20_real_range_l : forall E s n r col v0 v1,
  executing (s_ctx s) n r col -> operand_at (s_ctx s) n r col 0 v0 -> operand_at (s_ctx s) n r col 1 v1 ->
  v_type v0 = R_R -> fits (v_raw v0) -> bad_index (s_ctx s) v0 -> Z.of_nat (q_r (x_q (s_ctx s))) <= 2 ^ 31 ->
  runs E I_MOVE r col s E_OUTOFRANGE (s_ctx s).
Proof.
  intros E s n r col v0 v1 He H0 H1 Ht Hf Hb Hq. eapply runs_intro; [reflexivity|].
  rewrite (move_start E s n r col He v0 v1) by auto. rewrite inc_self.
  unfold move_src. rewrite Ht, bind_bind, bind_getc. unfold bad_index in Hb; rewrite Ht in Hb; simpl in Hb. unfold in_qty, fits in *.
  replace (Z.of_nat (q_r (x_q (s_ctx s))) <=? u32 (v_raw v0)) with true; [reflexivity|]. symmetry. apply Z.leb_le. unfold u32.
  destruct (Z_lt_le_dec (v_raw v0) 0).
  - rewrite <- (Z_mod_plus_full _ 1), Z.mod_small; lia.
  - rewrite Z.mod_small; lia.
Qed.
(** C20: a cell without both operands faults with a range error and changes nothing. *)
Lemma C20_no_operands_l : forall E s n r col b k d,
  executing (s_ctx s) n r col -> peek (s_ctx s) (LCell n r col) = Some (VCell b k d) -> (d < 2)%nat ->
  runs E I_MOVE r col s E_OUTOFRANGE (s_ctx s).
Proof.
  intros E s n r col b k d He Hc Hd. eapply runs_intro; [reflexivity|]. rewrite inc_self. unfold fn_MOVE. rewrite bind_getc.
  destruct (executing_cell _ _ _ _ He) as (nt & x & Hx & Hn & Hr & Hcl & Hce & Hnc).
  rewrite (bind_ok _ _ _ _ _ (lift_ok _ _ _ (ex_cell_ok _ _ _ _ _ Hx Hce))).
  cbn [peek] in Hc. rewrite Hce in Hc. simpl in Hc. inversion Hc; subst.
  replace (c_dq x <? 2)%nat with true by lia. rewrite orb_true_r. reflexivity.
Qed.
(** C20, finding: "it moves only when powered" is false; an unpowered MOVE stores too. *)
Lemma C20_power_refuted_l : exists E s n r col v0 v1 z l c',
  executing (s_ctx s) n r col /\ left_powered (s_ctx s) n r col false /\ stores_ok (s_ctx s)
  /\ operand_at (s_ctx s) n r col 0 v0 /\ operand_at (s_ctx s) n r col 1 v1 /\ reads (s_ctx s) v0 z
  /\ target (s_ctx s) v1 = Some l /\ runs E I_MOVE r col s E_OK c' /\ peek c' l <> peek (s_ctx s) l.
Proof.
  set (s := start (demo [[cellv I_NO [V R_M 1]; cellv I_MOVE [V R_D 0; V R_D 3]]])).
  exists quiet_env, s, 0%nat, 0%nat, 1%nat, (V R_D 0), (V R_D 3), 10, (LReg B_D 3), (after quiet_env I_MOVE 0 1 (s_ctx s)).
  demo_case.
Qed.
(*EX
(* D2 = 2147483647 moved to the analog output 0.1; R0 = 1.5 moved to R3; a move from an input word to a flag. *)
Example C20_case :
  let c := demo [[on (cellv I_NO [V R_M 0]); cellv I_MOVE [V R_D 2; V R_QW 256]];
                 [cellv I_MOVE [V R_R 0; V R_R 3]; cellv I_MOVE [V R_IW 0; V R_M 1]]] in
  executing c 0 0 1 /\ left_powered c 0 0 1 true /\ operand_at c 0 0 1 0 (V R_D 2) /\ operand_at c 0 0 1 1 (V R_QW 256)
  /\ stores_ok c /\ reads c (V R_D 2) 2147483647 /\ target c (V R_QW 256) = Some (LOut 0 K_QW 1)
  /\ executing c 0 1 0 /\ operand_at c 0 1 0 0 (V R_R 0) /\ operand_at c 0 1 0 1 (V R_R 3) /\ ~ bad_index c (V R_R 0)
  /\ holds c (LReg B_R 0) 1069547520 /\ target c (V R_R 3) = Some (LReg B_R 3)
  /\ executing c 0 1 1 /\ operand_at c 0 1 1 0 (V R_IW 0) /\ operand_at c 0 1 1 1 (V R_M 1) /\ reads c (V R_IW 0) 300.
Proof. demo_case. Qed.
Example C20_faults_case :
  let c := demo [[cellv I_MOVE [V R_R (-1); V R_R 3]; cellv I_MOVE [V R_D 0]; cellv I_MOVE [V R_D 0; V R_D 44]]] in
  executing c 0 0 0 /\ operand_at c 0 0 0 0 (V R_R (-1)) /\ operand_at c 0 0 0 1 (V R_R 3) /\ bad_index c (V R_R (-1))
  /\ executing c 0 0 1 /\ peek c (LCell 0 0 1) = Some (VCell false I_MOVE 1)
  /\ executing c 0 0 2 /\ target c (V R_D 44) = None.
Proof. demo_case. Qed.
EX*)

(** ** C21 *)
(** C21: a table move whose quantity is between 1 and 1024 and whose two blocks lie inside disabled networks copies
    the whole source block, as it was before, onto the destination block, copies the power, and changes nothing
    else. The blocks may overlap. *)
Lemma C21_copy_l : forall E s n r col b v0 v1 v2 v3 v4 dn dp sn sp q dcells scells f,
  executing (s_ctx s) n r col -> left_powered (s_ctx s) n r col b ->
  operand_at (s_ctx s) n r col 0 v0 -> operand_at (s_ctx s) n r col 1 v1 -> operand_at (s_ctx s) n r col 2 v2 ->
  operand_at (s_ctx s) n r col 3 v3 -> operand_at (s_ctx s) n r col 4 v4 ->
  reads (s_ctx s) v0 (Z.of_nat dn) -> reads (s_ctx s) v1 (Z.of_nat dp) -> reads (s_ctx s) v2 (Z.of_nat sn) ->
  reads (s_ctx s) v3 (Z.of_nat sp) -> reads (s_ctx s) v4 (Z.of_nat q) ->
  (1 <= q <= 1024)%nat -> fits (Z.of_nat dn) -> fits (Z.of_nat sn) ->
  is_table (s_ctx s) dn dcells -> is_table (s_ctx s) sn scells -> Z.of_nat dcells < 2 ^ 32 -> Z.of_nat scells < 2 ^ 32 ->
  (dp + q <= dcells)%nat -> (sp + q <= scells)%nat ->
  (forall i, (i < q)%nat -> exists v, table_entry (s_ctx s) sn (sp + i) v /\ v_raw v = f i) ->
  (forall i, (i < q)%nat -> exists v, table_entry (s_ctx s) dn (dp + i) v) ->
  exists c', runs E I_TMOVE r col s E_OK c' /\ powered c' n r col b
    /\ (forall i, (i < q)%nat -> exists v, table_entry (s_ctx s) dn (dp + i) v
          /\ table_entry c' dn (dp + i) (mk_value (v_type v) (f i) (v_str v)))
    /\ changes_only (s_ctx s) c' (fun l => l = LPow n r col
          \/ (exists i, (i < q)%nat /\ is_entry_place (s_ctx s) dn (dp + i) l)
          \/ (l = LErr /\ exists v, In v [v0; v1; v2; v3; v4] /\ bad_index (s_ctx s) v)).
Proof.
  intros E s n r col b v0 v1 v2 v3 v4 dn dp sn sp q dcells scells f He Hl O0 O1 O2 O3 O4 R0 R1 R2 R3 R4 Hq F0 F1
    (Q0 & rows0 & cols0 & N0 & ->) (Q1 & rows1 & cols1 & N1 & ->) S0 S1 B0 B1 HS HD.
  pose proof (five_prog s v0 v1 v2 v3 v4) as HP. pose proof (five_store s v0 v1 v2 v3 v4) as HT.
  pose proof (five_exec s n r col He v0 v1 v2 v3 v4) as HX. pose proof (five_left s n r col v0 v1 v2 v3 v4 b Hl) as HL.
  destruct (effect_five (s_ctx s) v0 v1 v2 v3 v4) as (HF & _).
  set (c := s_ctx s) in *. set (c5 := five c v0 v1 v2 v3 v4) in *.
  assert (HE : forall m p v, table_entry c m p v -> table_entry c5 m p v).
  { intros m p v. apply entry_same; intros; apply HP; [|exact I]. destruct H as [->|(? & ? & ->)]; exact I. }
  assert (HQ : x_q c5 = x_q c) by (apply peek_qty, HT; exact I).
  assert (M0 : peek c5 (LNet dn) = Some (VNet false rows0 cols0)) by (rewrite (HP (LNet dn) I); auto).
  assert (M1 : peek c5 (LNet sn) = Some (VNet false rows1 cols1)) by (rewrite (HP (LNet sn) I); auto).
  rewrite <- HQ in Q0, Q1.
  pose proof (read_table_ok c5 sn rows1 cols1 false Q1 M1 S1 q sp f B1) as HR.
  destruct (write_table_ok dn false rows0 cols0 (map f (seq 0 q)) dp c5) as (c6 & W1 & W2 & W3); auto.
  { rewrite map_length, seq_length; auto. }
  { rewrite map_length, seq_length. intros i Hi. destruct (HD i Hi) as (v & Hv). eauto. }
  rewrite map_length, seq_length in W3.
  assert (HX6 : executing c6 n r col).
  { destruct HX as (E1 & E2 & E3). unfold executing.
    rewrite !W3 by (intros (? & _ & ?); discriminate). auto. }
  assert (HL6 : left_powered c6 n r col b).
  { revert HL. apply left_same. intros. apply W3. intros (? & _ & ?); discriminate. }
  exists (put_pow n r col b c6). split; [|split; [|split]].
  - eapply runs_intro; [reflexivity|].
    rewrite (tmove_start E s n r col He v0 v1 v2 v3 v4 _ _ _ _ _ O0 O1 O2 O3 O4 R0 R1 R2 R3 R4). fold c. fold c5.
    unfold tmove_rest, max_move. replace ((Z.of_nat q <? 0) || (1024 <? Z.of_nat q)) with false by lia.
    cbv zeta. replace (Z.of_nat q =? 0) with false by lia. rewrite bind_getc. simpl s_ctx.
    destruct (net_peek _ _ _ _ _ M0) as (dnet & Dn & D1 & D2 & D3). destruct (net_peek _ _ _ _ _ M1) as (snet & Sn & E1 & E2 & E3).
    rewrite (bind_ok _ _ _ _ _ (lift_ok _ _ _ (pget_nat _ _ _ Dn))). rewrite D1. cbv iota. rewrite bind_bind.
    rewrite (bind_ok _ _ _ _ _ (lift_ok _ _ _ (pget_nat _ _ _ Sn))). rewrite bind_ret, E1. cbv iota.
    rewrite (bind_ok _ _ _ _ _ (lift_ok _ _ _ (pget_nat _ _ _ Sn))).
    unfold net_size. rewrite D2, D3, E2, E3. unfold fits in *.
    assert (Hu : forall z, 0 <= z < 2 ^ 32 -> u32 z = z) by (intros; apply Z.mod_small; auto).
    rewrite !Hu by lia. replace ((Z.of_nat rows0 * Z.of_nat cols0 <? Z.of_nat dp + Z.of_nat q) || (Z.of_nat rows1 * Z.of_nat cols1 <? Z.of_nat sp + Z.of_nat q)) with false by lia.
    rewrite Nat2Z.id.
    assert (HR' : read_table q (Z.of_nat sn) (Z.of_nat sp) c5 = Ok (inr (map f (seq 0 q)))).
    { apply HR. intros i Hi. destruct (HS i Hi) as (v & Hv & Hf). eauto. }
    rewrite (bind_ok _ _ _ _ _ (lift_ok _ _ _ HR')). cbv iota. rewrite (bind_ok _ _ _ _ _ (lift_ok _ _ _ W1)). cbv iota beta.
    unfold modc. erewrite bind_ok; [|reflexivity]. change (is_ok E_OK) with true. cbv iota.
    change (mk_st c6 (s_tr (inc s c5))) with (inc s c6). run mleft_ok. run mput_ok. reflexivity.
  - apply powered_pow_here. fr.
  - intros i Hi. destruct (W2 i (f i)) as (v & X1 & X2).
    { rewrite nth_error_map, nth_error_nth' with (d := 0%nat) by (rewrite seq_length; auto). rewrite seq_nth by auto. reflexivity. }
    exists v. split.
    + revert X1. apply entry_same; intros; symmetry; apply HP; [|exact I]. destruct H as [->|(? & ? & ->)]; exact I.
    + revert X2. apply entry_same; intros; apply put_pow_frame; [|discriminate]. destruct H as [->|(? & ? & ->)]; discriminate.
  - intros l Hl'. rewrite put_pow_frame, W3, HF; auto.
    + intros [(n' & r' & col' & [] & _)|[(w & [=] & _)|H]]. apply Hl'; auto.
    + intros (i & Hi & ->). apply Hl'. right; left. exists i. split; auto. exists false, rows0, cols0. auto.
Qed.
(** C21: a quantity outside 1 .. 1024 moves nothing. *)
Lemma C21_quantity_l : forall E s n r col b v0 v1 v2 v3 v4 dn dp sn sp q,
  executing (s_ctx s) n r col -> left_powered (s_ctx s) n r col b ->
  operand_at (s_ctx s) n r col 0 v0 -> operand_at (s_ctx s) n r col 1 v1 -> operand_at (s_ctx s) n r col 2 v2 ->
  operand_at (s_ctx s) n r col 3 v3 -> operand_at (s_ctx s) n r col 4 v4 ->
  reads (s_ctx s) v0 dn -> reads (s_ctx s) v1 dp -> reads (s_ctx s) v2 sn -> reads (s_ctx s) v3 sp -> reads (s_ctx s) v4 q ->
  q < 1 \/ q > 1024 ->
  exists c', runs E I_TMOVE r col s E_OK c' /\ powered c' n r col b
    /\ effect (s_ctx s) c' [(n, r, col)] None [v0; v1; v2; v3; v4].
Proof.
  intros E s n r col b v0 v1 v2 v3 v4 dn dp sn sp q He Hl O0 O1 O2 O3 O4 R0 R1 R2 R3 R4 Hq.
  pose proof (five_exec s n r col He v0 v1 v2 v3 v4) as HX. pose proof (five_left s n r col v0 v1 v2 v3 v4 b Hl) as HL.
  eexists; split; [|split].
  - eapply runs_intro; [reflexivity|].
    rewrite (tmove_start E s n r col He v0 v1 v2 v3 v4 _ _ _ _ _ O0 O1 O2 O3 O4 R0 R1 R2 R3 R4).
    unfold tmove_rest, max_move. cbv zeta.
    replace ((if (q <? 0) || (1024 <? q) then 0 else q) =? 0) with true by (destruct ((q <? 0) || (1024 <? q)) eqn:?; lia).
    run mleft_ok. run mput_ok. reflexivity.
  - apply powered_pow_here. fr.
  - apply (effect_then_pow _ _ n r col b [] None), effect_five.
Qed.
(** C21: a rejected move (a network of the move is scanned, a block leaves its table, a source cell holds no table
    value) faults, is off, and moves nothing. *)
Lemma C21_rejected_l : forall E s n r col v0 v1 v2 v3 v4 dn dp sn sp q en0 en1 rows0 cols0 rows1 cols1,
  executing (s_ctx s) n r col ->
  operand_at (s_ctx s) n r col 0 v0 -> operand_at (s_ctx s) n r col 1 v1 -> operand_at (s_ctx s) n r col 2 v2 ->
  operand_at (s_ctx s) n r col 3 v3 -> operand_at (s_ctx s) n r col 4 v4 ->
  reads (s_ctx s) v0 (Z.of_nat dn) -> reads (s_ctx s) v1 (Z.of_nat dp) -> reads (s_ctx s) v2 (Z.of_nat sn) ->
  reads (s_ctx s) v3 (Z.of_nat sp) -> reads (s_ctx s) v4 (Z.of_nat q) ->
  (1 <= q <= 1024)%nat -> fits (Z.of_nat dn) -> fits (Z.of_nat sn) -> fits (Z.of_nat dp) -> fits (Z.of_nat sp) ->
  (sn < q_nets (x_q (s_ctx s)))%nat ->
  peek (s_ctx s) (LNet dn) = Some (VNet en0 rows0 cols0) -> peek (s_ctx s) (LNet sn) = Some (VNet en1 rows1 cols1) ->
  Z.of_nat (rows0 * cols0) < 2 ^ 32 -> Z.of_nat (rows1 * cols1) < 2 ^ 32 ->
  en0 = true \/ en1 = true \/ (rows0 * cols0 < dp + q)%nat \/ (rows1 * cols1 < sp + q)%nat
  \/ (exists j, (j < q)%nat /\ (forall i, (i < j)%nat -> exists v, table_entry (s_ctx s) sn (sp + i) v)
        /\ not_entry (s_ctx s) sn (sp + j)) ->
  exists e c', runs E I_TMOVE r col s e c' /\ e <> E_OK /\ powered c' n r col false
    /\ effect (s_ctx s) c' [(n, r, col)] None [v0; v1; v2; v3; v4].
Proof.
  intros E s n r col v0 v1 v2 v3 v4 dn dp sn sp q en0 en1 rows0 cols0 rows1 cols1
    He O0 O1 O2 O3 O4 R0 R1 R2 R3 R4 Hq F0 F1 F2 F3 Q1 N0 N1 S0 S1 H.
  pose proof (five_prog s v0 v1 v2 v3 v4) as HP. pose proof (five_store s v0 v1 v2 v3 v4) as HT.
  pose proof (five_exec s n r col He v0 v1 v2 v3 v4) as HX.
  pose proof (effect_five (s_ctx s) v0 v1 v2 v3 v4) as HF.
  pose proof (tmove_start E s n r col He v0 v1 v2 v3 v4 _ _ _ _ _ O0 O1 O2 O3 O4 R0 R1 R2 R3 R4) as HS.
  set (c := s_ctx s) in *. set (c5 := five c v0 v1 v2 v3 v4) in *.
  assert (HQ : x_q c5 = x_q c) by (apply peek_qty, HT; exact I).
  assert (M0 : peek c5 (LNet dn) = Some (VNet en0 rows0 cols0)) by (rewrite (HP (LNet dn) I); auto).
  assert (M1 : peek c5 (LNet sn) = Some (VNet en1 rows1 cols1)) by (rewrite (HP (LNet sn) I); auto).
  rewrite <- HQ in Q1.
  enough (exists e, tmove_rest r col (Z.of_nat dn) (Z.of_nat dp) (Z.of_nat sn) (Z.of_nat sp) (Z.of_nat q) (inc s c5)
     = Ok (e, inc s (put_pow n r col false c5)) /\ e <> E_OK) as (e & Hrun & Hne).
  { exists e, (put_pow n r col false c5). split; [|split; [auto|split]].
    - eapply runs_intro; [reflexivity|]. rewrite HS. exact Hrun.
    - apply powered_pow_here. fr.
    - apply (effect_then_pow _ _ n r col false [] None). auto. }
  unfold tmove_rest, max_move. replace ((Z.of_nat q <? 0) || (1024 <? Z.of_nat q)) with false by lia.
  cbv zeta. replace (Z.of_nat q =? 0) with false by lia. rewrite bind_getc. simpl s_ctx.
  destruct (net_peek _ _ _ _ _ M0) as (dnet & Dn & D1 & D2 & D3). destruct (net_peek _ _ _ _ _ M1) as (snet & Sn & E1 & E2 & E3).
  rewrite (bind_ok _ _ _ _ _ (lift_ok _ _ _ (pget_nat _ _ _ Dn))). rewrite D1.
  destruct en0. { rewrite bind_ret. run mput_ok. eexists; split; [reflexivity|discriminate]. }
  rewrite bind_bind.
  rewrite (bind_ok _ _ _ _ _ (lift_ok _ _ _ (pget_nat _ _ _ Sn))). rewrite bind_ret, E1.
  destruct en1. { run mput_ok. eexists; split; [reflexivity|discriminate]. }
  rewrite (bind_ok _ _ _ _ _ (lift_ok _ _ _ (pget_nat _ _ _ Sn))).
  unfold net_size. rewrite D2, D3, E2, E3. unfold fits in *.
  assert (Hu : forall z, 0 <= z < 2 ^ 32 -> u32 z = z) by (intros; apply Z.mod_small; auto).
  rewrite !Hu by lia.
  destruct ((Z.of_nat rows0 * Z.of_nat cols0 <? Z.of_nat dp + Z.of_nat q) || (Z.of_nat rows1 * Z.of_nat cols1 <? Z.of_nat sp + Z.of_nat q)) eqn:HB.
  { run mput_ok. eexists; split; [reflexivity|discriminate]. }
  destruct H as [?|[?|[?|[?|(j & Hj & HE & HN)]]]]; try discriminate; try lia.
  rewrite Nat2Z.id.
  destruct (read_table_bad c5 sn rows1 cols1 false Q1 M1 S1 q sp j) as (e & Hr & Hne); auto; try lia.
  { intros i Hi. destruct (HE i Hi) as (v & Hv). exists v. revert Hv. apply entry_same; intros; apply HP; [|exact I].
    destruct H as [->|(? & ? & ->)]; exact I. }
  { destruct HN as (en' & rows' & cols' & bar & code & dq & A). exists en', rows', cols', bar, code, dq.
    rewrite (HP (LNet sn) I), (HP (LCell _ _ _) I), (HP (LData _ _ _ _) I). auto. }
  rewrite (bind_ok _ _ _ _ _ (lift_ok _ _ _ Hr)). cbv iota. run mput_ok. exists e. auto.
Qed.
(** C21, finding: a destination cell of the wrong type stops the move half way. Part of the block has been written
    although the instruction reports an error. *)
Lemma C21_atomic_refuted_l : exists E s n r col e c' p,
  executing (s_ctx s) n r col /\ runs E I_TMOVE r col s e c' /\ e <> E_OK
  /\ is_entry_place (s_ctx s) 1 0 p /\ peek c' p <> peek (s_ctx s) p.
Proof.
  set (c := set_x_q (set_q_nets 3 (x_q (demo []))) (set_x_net (Some [
     mk_network true 1 1 (Some [[cellv I_TMOVE [V R_NONE 1; V R_NONE 0; V R_NONE 2; V R_NONE 0; V R_NONE 2]]]);
     mk_network false 1 2 (Some [[cellv I_NOP [V R_D 5]; cellv I_NOP [V R_M 6]]]);
     mk_network false 1 2 (Some [[cellv I_NOP [V R_D 7]; cellv I_NOP [V R_D 8]]])]) (demo []))).
  exists quiet_env, (start c), 0%nat, 0%nat, 0%nat, E_TYPEMISMATCH, (after quiet_env I_TMOVE 0 0 c), (LData 1 0 0 0).
  split; [decide_exec|]. split; [vm_compute; reflexivity|]. split; [discriminate|].
  split; [do 3 eexists; split; reflexivity|vm_compute; discriminate].
Qed.
(** C21, finding: network numbers are used before they are checked; one beyond the networks is undefined. *)
Lemma C21_no_network_undefined_l : forall E s n r col v0 v1 v2 v3 v4 dn dp sn sp q,
  executing (s_ctx s) n r col ->
  operand_at (s_ctx s) n r col 0 v0 -> operand_at (s_ctx s) n r col 1 v1 -> operand_at (s_ctx s) n r col 2 v2 ->
  operand_at (s_ctx s) n r col 3 v3 -> operand_at (s_ctx s) n r col 4 v4 ->
  reads (s_ctx s) v0 dn -> reads (s_ctx s) v1 dp -> reads (s_ctx s) v2 sn -> reads (s_ctx s) v3 sp -> reads (s_ctx s) v4 q ->
  1 <= q <= 1024 -> dn < 0 \/ peek (s_ctx s) (LNet (ix dn)) = None ->
  exists u, undefined E I_TMOVE r col s u.
Proof.
  intros E s n r col v0 v1 v2 v3 v4 dn dp sn sp q He O0 O1 O2 O3 O4 R0 R1 R2 R3 R4 Hq Hd.
  pose proof (five_prog s v0 v1 v2 v3 v4 (LNet (ix dn)) I) as HN.
  assert (exists u, pget (x_net (five (s_ctx s) v0 v1 v2 v3 v4)) dn = Bad u) as (u & Hu).
  { destruct (pget (x_net (five (s_ctx s) v0 v1 v2 v3 v4)) dn) as [x|u|] eqn:Hp; [|eauto|]; exfalso.
    2:{ unfold pget, lget in Hp. destruct (x_net _) as [nl|]; [|discriminate]. destruct (idx_ok nl dn); [|discriminate].
        destruct (nth_error nl (Z.to_nat dn)); discriminate. }
    apply pget_ok in Hp as (H1 & H2). destruct Hd as [Hd|Hd]; [lia|]. rewrite Hd in HN. cbn [peek] in HN.
    unfold net_of in HN. rewrite H2 in HN. discriminate. }
  exists u. eapply undef_intro; [reflexivity|].
  rewrite (tmove_start E s n r col He v0 v1 v2 v3 v4 _ _ _ _ _ O0 O1 O2 O3 O4 R0 R1 R2 R3 R4).
  unfold tmove_rest, max_move. replace ((q <? 0) || (1024 <? q)) with false by lia.
  cbv zeta. replace (q =? 0) with false by lia. rewrite bind_getc. simpl s_ctx. unfold bind at 1, lift at 1. rewrite Hu. auto.
Qed.
(*EX
(* Two values of network 1 are shifted one place inside network 1 (overlapping blocks). *)
Definition C21_demo : ctx :=
  set_x_q (set_q_nets 2 (x_q (demo []))) (set_x_net (Some [
     mk_network true 1 2 (Some [[on (cellv I_CONN []);
        cellv I_TMOVE [V R_NONE 1; V R_NONE 1; V R_NONE 1; V R_NONE 0; V R_NONE 2]]]);
     mk_network false 2 2 (Some [[cellv I_NOP [V R_D 5]; cellv I_NOP [V R_D 6]];
                                 [cellv I_NOP [V R_IW 7]; cellv I_NOP [V R_M 8]]])]) (demo [])).
Ltac entry := do 6 eexists; repeat match goal with |- _ /\ _ => split end; [reflexivity|simpl; lia|reflexivity|simpl; lia|reflexivity|exact I].
Example C21_case :
  let c := C21_demo in
  executing c 0 0 1 /\ left_powered c 0 0 1 true /\ operand_at c 0 0 1 4 (V R_NONE 2) /\ reads c (V R_NONE 2) 2
  /\ is_table c 1 4 /\ table_entry c 1 0 (V R_D 5) /\ table_entry c 1 1 (V R_D 6) /\ table_entry c 1 2 (V R_IW 7)
  /\ not_entry c 1 3.
Proof.
  intros c. repeat match goal with |- _ /\ _ => split end; try entry.
  1-4: demo_case.
  - split; [apply Nat.ltb_lt; vm_compute; reflexivity|do 2 eexists; split; reflexivity].
  - do 6 eexists; repeat match goal with |- _ /\ _ => split end; [reflexivity|simpl; lia|reflexivity|].
    right; split; [simpl; lia|]. eexists; split; [reflexivity|exact I].
Qed.
EX*)

(** ** C22 *)
Lemma foreign_read E s n r col v z : executing (s_ctx s) n r col -> operand_at (s_ctx s) n r col 0 v -> reads (s_ctx s) v z ->
  ~ bad_index (s_ctx s) v -> get_data_value E r col 0 s = Ok (z, s).
Proof.
  intros He Ho Hr Hb. rewrite (get_data_value_reads E s n r col 0 v z He Ho Hr), mark_good, inc_self by auto. auto.
Qed.
(** C22: with the identifier 0 or 1 of a registered function, FOREIGN calls exactly that function once, with its own
    position, and returns what it returns. *)
Lemma C22_call_partial_l : forall E s n r col v z f,
  executing (s_ctx s) n r col -> operand_at (s_ctx s) n r col 0 v -> reads (s_ctx s) v z -> ~ bad_index (s_ctx s) v ->
  z = 0 \/ z = 1 -> z < Z.of_nat (fo_qty (x_for (s_ctx s))) -> elem (fo_fn (x_for (s_ctx s))) (ix z) = Some f ->
  let (e, c') := fexec E (length (s_tr s)) (ix z) col r (s_ctx s) in
  outcome E I_FOREIGN r col s = Some (Ok (e, mk_st c' (EvForeign (ix z) col r :: s_tr s))).
Proof.
  intros E s n r col v z f He Ho Hr Hb Hz Hq Hf. destruct (fexec _ _ _ _ _ _) as (e & c') eqn:Hx.
  unfold outcome, ladder_function, option_map. f_equal. unfold fn_FOREIGN.
  rewrite (bind_ok _ _ _ _ _ (foreign_read E s n r col v z He Ho Hr Hb)), bind_getc.
  assert (Ht : to_integer z = z) by (destruct Hz as [-> | ->]; reflexivity). rewrite Ht.
  replace (Z.of_nat (fo_qty (x_for (s_ctx s))) <=? z) with false by lia.
  rewrite (bind_ok _ _ _ _ _ (foreign_read E s n r col v z He Ho Hr Hb)), bind_getc, Ht.
  erewrite bind_ok; [|apply lift_ok, pget_elem; [lia|exact Hf]].
  unfold call_foreign. change (Z.to_nat z) with (ix z). rewrite Hx. auto.
Qed.
(** C22: the identifiers 0 and 1, when nothing is registered under them, fault without calling anything. *)
Lemma C22_unregistered_partial_l : forall E s n r col v z,
  executing (s_ctx s) n r col -> operand_at (s_ctx s) n r col 0 v -> reads (s_ctx s) v z -> ~ bad_index (s_ctx s) v ->
  z = 0 \/ z = 1 -> Z.of_nat (fo_qty (x_for (s_ctx s))) <= z ->
  runs E I_FOREIGN r col s E_NOFOREIGN (s_ctx s).
Proof.
  intros E s n r col v z He Ho Hr Hb Hz Hq. eapply runs_intro; [reflexivity|]. unfold fn_FOREIGN.
  rewrite (bind_ok _ _ _ _ _ (foreign_read E s n r col v z He Ho Hr Hb)), bind_getc.
  assert (Ht : to_integer z = z) by (destruct Hz as [-> | ->]; reflexivity). rewrite Ht.
  replace (Z.of_nat (fo_qty (x_for (s_ctx s))) <=? z) with true by lia. rewrite inc_self. reflexivity.
Qed.
(** C22, finding: every other identifier calls function 0. *)
Lemma C22_other_ids_actual_l : forall E s n r col v z f,
  executing (s_ctx s) n r col -> operand_at (s_ctx s) n r col 0 v -> reads (s_ctx s) v z -> ~ bad_index (s_ctx s) v ->
  z <> 1 -> (0 < fo_qty (x_for (s_ctx s)))%nat -> elem (fo_fn (x_for (s_ctx s))) 0 = Some f ->
  let (e, c') := fexec E (length (s_tr s)) 0 col r (s_ctx s) in
  outcome E I_FOREIGN r col s = Some (Ok (e, mk_st c' (EvForeign 0 col r :: s_tr s))).
Proof.
  intros E s n r col v z f He Ho Hr Hb Hz Hq Hf. destruct (fexec _ _ _ _ _ _) as (e & c') eqn:Hx.
  unfold outcome, ladder_function, option_map. f_equal. unfold fn_FOREIGN.
  rewrite (bind_ok _ _ _ _ _ (foreign_read E s n r col v z He Ho Hr Hb)), bind_getc.
  assert (Ht : to_integer z = 0) by (unfold to_integer; replace (z =? 1) with false by lia; destruct (z =? 0); auto). rewrite Ht.
  replace (Z.of_nat (fo_qty (x_for (s_ctx s))) <=? 0) with false by lia.
  rewrite (bind_ok _ _ _ _ _ (foreign_read E s n r col v z He Ho Hr Hb)), bind_getc, Ht.
  erewrite bind_ok; [|apply lift_ok, pget_elem; [lia|exact Hf]].
  unfold call_foreign. change (Z.to_nat 0) with 0%nat. rewrite Hx. auto.
Qed.
(** C22, finding: so "the identifier selects the function, unknown ones fault" is false. *)
Lemma C22_refuted_l : exists E s n r col v z e s',
  executing (s_ctx s) n r col /\ operand_at (s_ctx s) n r col 0 v /\ reads (s_ctx s) v z
  /\ Z.of_nat (fo_qty (x_for (s_ctx s))) <= z
  /\ outcome E I_FOREIGN r col s = Some (Ok (e, s')) /\ In (EvForeign 0 col r) (s_tr s').
Proof.
  set (c := set_x_for (mk_foreign 1 (Some [mk_fdesc 7 (mk_iocd 1 1 1 1) false])) (demo [[cellv I_FOREIGN [V R_NONE 5]]])).
  exists quiet_env, (start c), 0%nat, 0%nat, 0%nat, (V R_NONE 5), 5, E_OK, (mk_st c [EvForeign 0 0 0]).
  repeat match goal with |- _ /\ _ => split end; try demo_goal; try (vm_compute; reflexivity). simpl; auto.
Qed.
(*EX
Example C22_case :
  let c := set_x_for (mk_foreign 2 (Some [mk_fdesc 7 (mk_iocd 1 1 1 1) false; mk_fdesc 9 (mk_iocd 1 1 1 1) false])) (demo [[cellv I_FOREIGN [V R_NONE 1]]]) in
  executing c 0 0 0 /\ operand_at c 0 0 0 0 (V R_NONE 1) /\ reads c (V R_NONE 1) 1 /\ ~ bad_index c (V R_NONE 1)
  /\ elem (fo_fn (x_for c)) 1 = Some (mk_fdesc 9 (mk_iocd 1 1 1 1) false).
Proof. demo_case. Qed.
EX*)
