(** Exact effect of each instruction on the context. *)
From Verif Require Export Ops.



(** ** Frames *)
Definition is_prog (l : loc) : Prop :=
  match l with
  | LCell _ _ _ | LData _ _ _ _ | LDataLen _ _ _ | LRowLen _ _ | LRows _ | LNet _ | LNets | LExec => True
  | _ => False
  end.
Definition same_prog (c c' : ctx) : Prop := forall l, is_prog l -> peek c' l = peek c l.
Lemma executing_same c c' n r col : same_prog c c' -> executing c n r col -> executing c' n r col.
Proof.
  intros H (H1 & H2 & H3). unfold executing. rewrite (H LExec I), (H (LNet n) I), (H (LCell n r col) I). auto.
Qed.
Lemma operand_same c c' n r col i v : same_prog c c' -> operand_at c n r col i v -> operand_at c' n r col i v.
Proof. intros H (H1 & H2). unfold operand_at. rewrite (H (LData n r col i) I), (H (LCell n r col) I). auto. Qed.
Lemma store_pow n r col b c : same_store c (put_pow n r col b c).
Proof. intros l Hl. apply put_pow_frame. intros ->; destruct Hl. Qed.
Lemma prog_pow n r col b c : same_prog c (put_pow n r col b c).
Proof. intros l Hl. apply put_pow_frame. intros ->; destruct Hl. Qed.
Lemma store_mark c v : same_store c (mark c v).
Proof. intros l Hl. apply mark_frame. intros ->; destruct Hl. Qed.
Lemma prog_mark c v : same_prog c (mark c v).
Proof. intros l Hl. apply mark_frame. intros ->; destruct Hl. Qed.
Lemma store_trans a b c : same_store a b -> same_store b c -> same_store a c.
Proof. intros H1 H2 l Hl. rewrite H2, H1; auto. Qed.
Lemma prog_trans a b c : same_prog a b -> same_prog b c -> same_prog a c.
Proof. intros H1 H2 l Hl. rewrite H2, H1; auto. Qed.
Lemma prog_poke l z c : match l with LReg _ _ | LOut _ _ _ | LIn _ _ _ => True | _ => False end -> same_prog c (poke l z c).
Proof. intros H l' Hl. apply poke_frame. intros ->. destruct l; simpl in *; tauto. Qed.

(** ** Stores stay well formed *)
Lemma arr_ok_size p p' n : size p = size p' -> arr_ok p n -> arr_ok p' n.
Proof. intros H (l & -> & Hl). destruct p'; simpl in H; [|discriminate]. inversion H. exists l0; split; auto; lia. Qed.
Lemma size_list {A} (p p' : option (list A)) n : size p = size p' ->
  (exists l, p = Some l /\ (n <= length l)%nat) -> exists l, p' = Some l /\ (n <= length l)%nat.
Proof. intros H (l & -> & Hl). destruct p'; simpl in H; [|discriminate]. inversion H. exists l0; split; auto; lia. Qed.
(** Enough to keep [stores_ok]: sizes, quantities and metadata stay, flags stay 0/1. *)
Definition is_shape (l : loc) : Prop :=
  match l with
  | LRegLen _ | LTmLen | LInLen _ _ | LInMeta _ | LInCount | LOutLen _ _ | LOutMeta _ | LOutCount | LQty | LIo => True
  | _ => False
  end.
Lemma stores_shape c c' :
  (forall l, is_shape l -> peek c' l = peek c l) ->
  stores_ok c -> stores_ok c'.
Proof.
  intros H (Hk & Hm). pose proof (peek_qty c c' (H LQty I)) as HQ. pose proof (peek_io c c' (H LIo I)) as HIO.
  split.
  - constructor; auto.
    + intros b. rewrite HQ. eapply arr_ok_size; [|apply Hk]. symmetry; apply (H (LRegLen b) I).
    + rewrite HQ. eapply size_list; [|apply Hk]. symmetry; apply (H LTmLen I).
  - assert (HI : forall m im, elem (x_in c') m = Some im -> exists im0, elem (x_in c) m = Some im0 /\
       i_iq im = i_iq im0 /\ i_iwq im = i_iwq im0 /\ forall k, size (in_arr k im) = size (in_arr k im0)).
    { intros m im He. pose proof (H (LInMeta m) I) as H1. simpl in H1. rewrite He in H1. simpl in H1.
      destruct (elem (x_in c) m) as [im0|] eqn:E0; simpl in H1; [|discriminate]. inversion H1.
      exists im0; repeat split; auto. intros k. pose proof (H (LInLen m k) I) as H9; simpl in H9.
      rewrite He, E0 in H9; exact H9. }
    assert (HO : forall m om, elem (x_out c') m = Some om -> exists om0, elem (x_out c) m = Some om0 /\
       o_qq om = o_qq om0 /\ o_qwq om = o_qwq om0 /\ forall k, size (out_arr k om) = size (out_arr k om0)).
    { intros m im He. pose proof (H (LOutMeta m) I) as H1. simpl in H1. rewrite He in H1. simpl in H1.
      destruct (elem (x_out c) m) as [im0|] eqn:E0; simpl in H1; [|discriminate]. inversion H1.
      exists im0; repeat split; auto. intros k. pose proof (H (LOutLen m k) I) as H9; simpl in H9.
      rewrite He, E0 in H9; exact H9. }
    constructor; rewrite HIO.
    + destruct (mo_in c Hm) as [?|?]; auto. right. eapply size_list; [symmetry; apply (H LInCount I)|eauto].
    + destruct (mo_out c Hm) as [?|?]; auto. right. eapply size_list; [symmetry; apply (H LOutCount I)|eauto].
    + intros m im Hlt He. destruct (HI _ _ He) as (im0 & E0 & -> & -> & HS).
      destruct (mo_ia c Hm _ _ Hlt E0) as (A & B). split.
      * destruct A as [?|A]; auto. right. eapply arr_ok_size; [|exact A]. symmetry; apply (HS K_I).
      * destruct B as [?|B]; auto. right. eapply arr_ok_size; [|exact B]. symmetry; apply (HS K_IW).
    + intros m im Hlt He. destruct (HO _ _ He) as (im0 & E0 & -> & -> & HS).
      destruct (mo_oa c Hm _ _ Hlt E0) as (A & B). split.
      * destruct A as [?|A]; auto. right. eapply arr_ok_size; [|exact A]. symmetry; apply (HS K_Q).
      * destruct B as [?|B]; auto. right. eapply arr_ok_size; [|exact B]. symmetry; apply (HS K_QW).
Qed.
Lemma stores_same c c' : same_store c c' -> stores_ok c -> stores_ok c'.
Proof.
  intros H Hs. apply (stores_shape c c'); auto. intros l Hl. apply H. destruct l; simpl in *; tauto.
Qed.

(** ** Power *)
Lemma exec_of c n r col : executing c n r col -> x_exec c = Some n.
Proof. intros (H & _); simpl in H; congruence. Qed.
Lemma mstate_ok s n r col b : x_exec (s_ctx s) = Some n -> powered (s_ctx s) n r col b -> mstate col r s = Ok (b, s).
Proof.
  intros H1 H2. unfold mstate. rewrite bind_getc. unfold powered in H2; simpl in H2.
  destruct (cell_of (s_ctx s) n r col) as [x|] eqn:Hx; simpl in H2; [|discriminate]. inversion H2; subst.
  apply lift_ok. unfold cstate. rewrite (ex_cell_ok _ _ _ _ _ H1 Hx). auto.
Qed.
Lemma mleft_ok s n r col b : x_exec (s_ctx s) = Some n -> left_powered (s_ctx s) n r col b -> mleft col r s = Ok (b, s).
Proof.
  intros H1 H2. destruct col as [|p]; simpl in H2; [subst; auto|]. exact (mstate_ok _ _ _ _ _ H1 H2).
Qed.
Definition has_cell (c : ctx) (n r col : nat) : Prop := exists x, cell_of c n r col = Some x.
Lemma executing_has c n r col : executing c n r col -> has_cell c n r col.
Proof. intros H. destruct (executing_cell _ _ _ _ H) as (nt & x & _ & _ & _ & _ & Hx & _). exists x; auto. Qed.
Lemma mput_ok s n r col b : x_exec (s_ctx s) = Some n -> has_cell (s_ctx s) n r col ->
  mput col r b s = Ok (tt, inc s (put_pow n r col b (s_ctx s))).
Proof.
  intros H1 (x & Hx). unfold mput. apply updc_ok. unfold put_state. rewrite H1.
  rewrite (upd_cell_ok _ _ _ _ _ _ Hx). unfold put_pow; rewrite Hx; auto.
Qed.
Lemma has_same c c' n r col : peek c' (LCell n r col) = peek c (LCell n r col) -> has_cell c n r col -> has_cell c' n r col.
Proof.
  intros H (x & Hx). simpl in H. rewrite Hx in H; simpl in H.
  destruct (cell_of c' n r col) as [y|] eqn:E; [exists y; auto|discriminate].
Qed.
Lemma powered_pow_here n r col b c : has_cell c n r col -> powered (put_pow n r col b c) n r col b.
Proof. intros (x & Hx). eapply put_pow_here; eauto. Qed.
Lemma powered_pow_other n r col b c n' r' col' b' : (n, r, col) <> (n', r', col') ->
  powered c n' r' col' b' -> powered (put_pow n r col b c) n' r' col' b'.
Proof. intros H1 H2. unfold powered. rewrite put_pow_frame; auto. intros [= -> -> ->]; congruence. Qed.
Lemma left_pow n r col b c r' b' : left_powered c n r' col b' -> left_powered (put_pow n r col b c) n r' col b'.
Proof. destruct col; simpl; auto. intros H. apply powered_pow_other; auto. intros [= ? ?]; lia. Qed.
Lemma left_same c c' n r col b : (forall n r col, peek c' (LPow n r col) = peek c (LPow n r col)) ->
  left_powered c n r col b -> left_powered c' n r col b.
Proof. intros H. destruct col; auto. cbn [left_powered]. unfold powered. rewrite H; auto. Qed.
Lemma left_mark c v n r col b : left_powered c n r col b -> left_powered (mark c v) n r col b.
Proof. apply left_same. intros; apply mark_frame; discriminate. Qed.


(** Side conditions: everything a step needs survives marks and power changes. *)
Lemma ex_mark c v n r col : executing c n r col -> executing (mark c v) n r col.
Proof. apply executing_same, prog_mark. Qed.
Lemma ex_pow c n r col n' r' col' b : executing c n r col -> executing (put_pow n' r' col' b c) n r col.
Proof. apply executing_same, prog_pow. Qed.
Lemma op_mark c w n r col i v : operand_at c n r col i v -> operand_at (mark c w) n r col i v.
Proof. apply operand_same, prog_mark. Qed.
Lemma op_pow c n r col i v n' r' col' b : operand_at c n r col i v -> operand_at (put_pow n' r' col' b c) n r col i v.
Proof. apply operand_same, prog_pow. Qed.
Lemma rd_mark c w v z : reads c v z -> reads (mark c w) v z.
Proof. apply reads_same, store_mark. Qed.
Lemma rd_pow c v z n' r' col' b : reads c v z -> reads (put_pow n' r' col' b c) v z.
Proof. apply reads_same, store_pow. Qed.
Lemma st_mark c w : stores_ok c -> stores_ok (mark c w).
Proof. apply stores_same, store_mark. Qed.
Lemma st_pow c n' r' col' b : stores_ok c -> stores_ok (put_pow n' r' col' b c).
Proof. apply stores_same, store_pow. Qed.
Lemma has_mark c w n r col : has_cell c n r col -> has_cell (mark c w) n r col.
Proof. apply has_same, mark_frame; discriminate. Qed.
Lemma has_pow c n r col n' r' col' b : has_cell c n r col -> has_cell (put_pow n' r' col' b c) n r col.
Proof. apply has_same, put_pow_frame; discriminate. Qed.
Lemma xe_pow c n r col b m : x_exec c = m -> x_exec (put_pow n r col b c) = m.
Proof. rewrite put_pow_exec; auto. Qed.
Lemma xe_mark c w m : x_exec c = m -> x_exec (mark c w) = m.
Proof. unfold mark; destruct (bad_b c w); auto. Qed.
Lemma data_of c n r col i v : operand_at c n r col i v -> peek c (LData n r col i) = Some (VVal v).
Proof. intros (H & _); auto. Qed.
Ltac fr1 :=
  match goal with
  | |- executing (mark _ _) _ _ _ => apply ex_mark
  | |- executing (put_pow _ _ _ _ _) _ _ _ => apply ex_pow
  | |- operand_at (mark _ _) _ _ _ _ _ => apply op_mark
  | |- operand_at (put_pow _ _ _ _ _) _ _ _ _ _ => apply op_pow
  | |- reads (mark _ _) _ _ => apply rd_mark
  | |- reads (put_pow _ _ _ _ _) _ _ => apply rd_pow
  | |- stores_ok (mark _ _) => apply st_mark
  | |- stores_ok (put_pow _ _ _ _ _) => apply st_pow
  | |- left_powered (mark _ _) _ _ _ _ => apply left_mark
  | |- left_powered (put_pow _ _ _ _ _) _ _ _ _ => apply left_pow
  | |- has_cell (mark _ _) _ _ _ => apply has_mark
  | |- has_cell (put_pow _ _ _ _ _) _ _ _ => apply has_pow
  | |- x_exec (mark _ _) = _ => apply xe_mark
  | |- x_exec (put_pow _ _ _ _ _) = _ => apply xe_pow
  | H : executing ?c ?n _ _ |- x_exec ?c = _ => exact (exec_of _ _ _ _ H)
  | H : executing ?c _ ?r ?col |- has_cell ?c _ ?r ?col => exact (executing_has _ _ _ _ H)
  | |- _ => eassumption
  end.
Ltac fr := simpl s_ctx; simpl s_tr; repeat (first [eassumption | fr1]).
(** Run one step of a bind. *)
Ltac run L := erewrite bind_ok; [|eapply L; fr; fail].

(** ** Previous values *)
Lemma prev_reads_same c c' v z : same_store c c' -> prev_reads c v z -> prev_reads c' v z.
Proof.
  intros H R. unfold prev_reads in *. rewrite (peek_io c c') by (apply H; simpl; auto).
  unfold holds_flag, holds in *.
  destruct (v_type v); rewrite ?(H (LReg _ _) I), ?(H (LAcc _) I); auto;
    destruct (_ <? _); rewrite ?(H (LOut _ _ _) I), ?(H (LIn _ _ _) I), ?(H (LOutMeta _) I), ?(H (LInMeta _) I),
      ?(H (LOutLen _ _) I), ?(H (LInLen _ _) I); auto.
Qed.
Lemma prev_ok c v z : prev_reads c v z -> prev_of v c = Ok z.
Proof.
  intros R. pose proof (v_module_nn v) as HM. pose proof (v_port_nn v) as HP. unfold prev_reads in R; unfold prev_of.
  destruct (v_type v); subst; auto; try (destruct R as (Hz & R)).
  all: try (destruct (holds_bool _ _ _ _ Hz R) as (HB1 & HB2); rewrite HB1; simpl; rewrite HB2; reflexivity).
  all: try (rewrite (holds_get _ _ _ _ Hz R); reflexivity).
  all: try (destruct R as (u & R & R3)).
  all: try (rewrite (holds_get _ _ _ _ Hz R); simpl; subst; auto; fail).
  all: try (match goal with |- context [?a <=? ?b] => replace (a <=? b) with (negb (b <? a)) by lia end;
    destruct (v_module v <? _) eqn:Hm; simpl; subst; auto).
  - destruct R as (id & qd & qa & H1 & H2). simpl in H1.
    destruct (elem (x_out c) (ix (v_module v))) as [om|] eqn:E; simpl in H1; [|discriminate]. inversion H1; subst.
    rewrite (pget_elem _ _ _ (proj1 HM) E); simpl.
    replace (Z.of_nat (o_qq om) <=? v_port v) with (negb (v_port v <? Z.of_nat (o_qq om))) by lia.
    destruct (v_port v <? Z.of_nat (o_qq om)); simpl; subst; [|destruct (is_null _); auto].
    unfold holds in H2; simpl in H2. rewrite E in H2; simpl in H2.
    destruct (o_Qh om) as [l|]; simpl in *; destruct H2 as [(H2 & H3)|H2]; try discriminate; subst; auto.
    unfold elem, obind in H2. destruct (nth_error l (ix (v_port v))) eqn:E2; simpl in H2; [|discriminate]. inversion H2; subst.
    exact (pget_elem (Some l) _ _ (proj1 HP) E2).
  - destruct R as (id & qd & qa & H1 & H2). simpl in H1.
    destruct (elem (x_in c) (ix (v_module v))) as [om|] eqn:E; simpl in H1; [|discriminate]. inversion H1; subst.
    rewrite (pget_elem _ _ _ (proj1 HM) E); simpl.
    replace (Z.of_nat (i_iq om) <=? v_port v) with (negb (v_port v <? Z.of_nat (i_iq om))) by lia.
    destruct (v_port v <? Z.of_nat (i_iq om)); simpl; subst; [|destruct (is_null _); auto].
    unfold holds in H2; simpl in H2. rewrite E in H2; simpl in H2.
    destruct (i_Ih om) as [l|]; simpl in *; destruct H2 as [(H2 & H3)|H2]; try discriminate; subst; auto.
    unfold elem, obind in H2. destruct (nth_error l (ix (v_port v))) eqn:E2; simpl in H2; [|discriminate]. inversion H2; subst.
    exact (pget_elem (Some l) _ _ (proj1 HP) E2).
  - apply holds_in; auto; lia.
  - apply holds_out; auto; lia.
  - unfold holds in R; simpl in R. destruct (elem (x_tm c) (ix (v_raw v))) as [t|] eqn:Ht; simpl in R; [|discriminate].
    inversion R; subst. rewrite (pget_elem _ _ _ Hz Ht); auto.
Qed.
Lemma mprev_ok s n r col i v z : executing (s_ctx s) n r col -> operand_at (s_ctx s) n r col i v ->
  prev_reads (s_ctx s) v z -> mprev col r i s = Ok (z, s).
Proof.
  intros H1 H2 H3. unfold mprev. rewrite bind_getc. apply lift_ok. unfold get_previous_value.
  rewrite (operand_ok _ _ _ _ _ _ H1 H2); simpl. apply prev_ok; auto.
Qed.
Lemma pv_mark c w v z : prev_reads c v z -> prev_reads (mark c w) v z.
Proof. apply prev_reads_same, store_mark. Qed.
Lemma pv_pow c v z n' r' col' b : prev_reads c v z -> prev_reads (put_pow n' r' col' b c) v z.
Proof. apply prev_reads_same, store_pow. Qed.

Ltac bb := cbv iota; rewrite bind_bind.
Section Instr.
Context (E : env) (s : st) (n r col : nat).
Notation c := (s_ctx s).
Hypothesis He : executing c n r col.

Lemma conn_ok b : left_powered c n r col b -> fn_CONN E col r s = Ok (E_OK, inc s (put_pow n r col b c)).
Proof. intros H. unfold fn_CONN. run mleft_ok. run mput_ok. auto. Qed.
Lemma neg_ok b : left_powered c n r col b -> fn_NEG E col r s = Ok (E_OK, inc s (put_pow n r col (negb b) c)).
Proof. intros H. unfold fn_NEG. run mleft_ok. run mput_ok. auto. Qed.
Lemma no_ok v z b : left_powered c n r col b -> operand_at c n r col 0 v -> reads c v z ->
  fn_NO E col r s = Ok (E_OK, inc s (put_pow n r col (negb (z =? 0) && b) (mark c v))).
Proof.
  intros H1 H2 H3. unfold fn_NO. run get_data_value_reads.
  destruct (z =? 0); simpl; [rewrite bind_ret|run mleft_ok]; run mput_ok; auto.
Qed.
Lemma nc_ok v z b : left_powered c n r col b -> operand_at c n r col 0 v -> reads c v z ->
  fn_NC E col r s = Ok (E_OK, inc s (put_pow n r col ((z =? 0) && b) (mark c v))).
Proof.
  intros H1 H2 H3. unfold fn_NC. run get_data_value_reads.
  destruct (z =? 0); simpl; [run mleft_ok|rewrite bind_ret]; run mput_ok; auto.
Qed.
Lemma re_ok v z p b : left_powered c n r col b -> operand_at c n r col 0 v -> reads c v z -> prev_reads c v p ->
  fn_RE E col r s = Ok (E_OK, inc s (put_pow n r col (negb (z =? 0) && (p =? 0) && b) (mark c v))).
Proof.
  intros H1 H2 H3 H4. apply (pv_mark _ v) in H4. unfold fn_RE. run get_data_value_reads.
  destruct (z =? 0); simpl; rewrite ?bind_ret. { run mput_ok; auto. }
  bb. run mprev_ok. rewrite bind_ret. destruct (p =? 0); [run mleft_ok|rewrite bind_ret]; run mput_ok; auto.
Qed.
Lemma fe_ok v z p b : left_powered c n r col b -> operand_at c n r col 0 v -> reads c v z -> prev_reads c v p ->
  fn_FE E col r s = Ok (E_OK, inc s (put_pow n r col ((z =? 0) && negb (p =? 0) && b) (mark c v))).
Proof.
  intros H1 H2 H3 H4. apply (pv_mark _ v) in H4. unfold fn_FE. run get_data_value_reads.
  destruct (z =? 0); simpl; rewrite ?bind_ret; [|run mput_ok; auto].
  bb. run mprev_ok. rewrite bind_ret. destruct (p =? 0); simpl; [rewrite bind_ret|run mleft_ok]; run mput_ok; auto.
Qed.

Lemma pow_here b : powered (put_pow n r col b c) n r col b.
Proof. apply powered_pow_here. fr. Qed.
Lemma coil_ok v b : left_powered c n r col b -> peek c (LData n r col 0) = Some (VVal v) -> stores_ok c ->
  fn_COIL E col r s = Ok (E_OK, inc s (wr v (b2z b) (put_pow n r col b c))).
Proof.
  intros H1 H2 H3. unfold fn_COIL. run mleft_ok. run mput_ok.
  pose proof (pow_here b). run mstate_ok.
  erewrite bind_ok; [reflexivity|]. erewrite set_data_wr; fr; [reflexivity|].
  rewrite put_pow_frame by discriminate; auto.
Qed.
Lemma coill_ok v p b : left_powered c n r col b -> operand_at c n r col 0 v -> prev_reads c v p -> stores_ok c ->
  fn_COILL E col r s = Ok (E_OK, inc s (wr v (b2z (negb (p =? 0) || b)) (put_pow n r col (negb (p =? 0) || b) c))).
Proof.
  intros H1 H2 H3 H4. unfold fn_COILL. run mleft_ok. run mprev_ok. cbv zeta. run mput_ok.
  erewrite bind_ok; [reflexivity|]. erewrite set_data_wr; fr; [reflexivity|]. apply data_of; fr.
Qed.
Lemma coilu_ok v p b : left_powered c n r col b -> operand_at c n r col 0 v -> prev_reads c v p -> stores_ok c ->
  fn_COILU E col r s = Ok (E_OK, inc s (wr v (b2z (negb (p =? 0) && negb b)) (put_pow n r col (negb (p =? 0) && negb b) c))).
Proof.
  intros H1 H2 H3 H4. unfold fn_COILU. run mleft_ok. run mprev_ok. cbv zeta. run mput_ok.
  erewrite bind_ok; [reflexivity|]. erewrite set_data_wr; fr; [reflexivity|]. apply data_of; fr.
Qed.

(** ** Arithmetic and logic *)
Definition two (c0 : ctx) (v0 v1 : value) : ctx := mark (mark c0 v0) v1.
Lemma binop_off op : left_powered c n r col false -> binop E op col r s = Ok (E_OK, inc s (put_pow n r col false c)).
Proof. intros H. unfold binop. run mleft_ok. run mput_ok. run mleft_ok. auto. Qed.
Lemma binop_ok op v0 v1 v2 a b w :
  left_powered c n r col true -> operand_at c n r col 0 v0 -> operand_at c n r col 1 v1 ->
  peek c (LData n r col 2) = Some (VVal v2) -> stores_ok c -> reads c v0 a -> reads c v1 b ->
  (forall s', op a b s' = Ok (w, s')) ->
  binop E op col r s = Ok (E_OK, inc s (wr v2 w (two (put_pow n r col true c) v0 v1))).
Proof.
  intros H1 H2 H3 H4 H5 H6 H7 H8. unfold binop. run mleft_ok. run mput_ok. run mleft_ok.
  bb. run get_data_value_reads. bb. run get_data_value_reads.
  bb. erewrite (bind_ok _ _ _ _ _ (H8 _)). bb.
  erewrite bind_ok; [reflexivity|]. erewrite set_data_wr; fr; [reflexivity|].
  rewrite 2mark_frame, put_pow_frame by discriminate; auto.
Qed.
Lemma binop_bad op v0 v1 a b u :
  left_powered c n r col true -> operand_at c n r col 0 v0 -> operand_at c n r col 1 v1 -> reads c v0 a -> reads c v1 b ->
  (forall s', op a b s' = Bad u) -> binop E op col r s = Bad u.
Proof.
  intros H1 H2 H3 H6 H7 H8. unfold binop. run mleft_ok. run mput_ok. run mleft_ok.
  bb. run get_data_value_reads. bb. run get_data_value_reads.
  bb. unfold bind at 1. rewrite H8; auto.
Qed.
Lemma div_off : left_powered c n r col false -> fn_DIV E col r s = Ok (E_OK, inc s (put_pow n r col false c)).
Proof. intros H. unfold fn_DIV. run mleft_ok. run mput_ok. run mleft_ok. auto. Qed.
Lemma div_zero v1 v2 :
  left_powered c n r col true -> operand_at c n r col 1 v1 ->
  peek c (LData n r col 2) = Some (VVal v2) -> stores_ok c -> reads c v1 0 ->
  fn_DIV E col r s = Ok (E_OK, inc s (wr v2 0 (mark (put_pow n r col true c) v1))).
Proof.
  intros H1 H3 H4 H5 H7. unfold fn_DIV. run mleft_ok. run mput_ok. run mleft_ok.
  bb. run get_data_value_reads. simpl Z.eqb; cbv iota. bb.
  erewrite bind_ok; [reflexivity|]. erewrite set_data_wr; fr; [reflexivity|].
  rewrite mark_frame, put_pow_frame by discriminate; auto.
Qed.
Lemma chk_ok z s' : in_i32 z = true -> chk z s' = Ok (z, s').
Proof. unfold chk; intros ->; auto. Qed.
Lemma chk_bad z s' : in_i32 z = false -> chk z s' = Bad UB_overflow.
Proof. unfold chk; intros ->; auto. Qed.
Lemma div_ok v0 v1 v2 a b :
  left_powered c n r col true -> operand_at c n r col 0 v0 -> operand_at c n r col 1 v1 ->
  peek c (LData n r col 2) = Some (VVal v2) -> stores_ok c -> reads c v0 a -> reads c v1 b -> b <> 0 -> in_i32 (Z.quot a b) = true ->
  fn_DIV E col r s = Ok (E_OK, inc s (wr v2 (Z.quot a b) (two (put_pow n r col true c) v1 v0))).
Proof.
  intros H1 H2 H3 H4 H5 H6 H7 H8 H9. unfold fn_DIV. run mleft_ok. run mput_ok. run mleft_ok.
  bb. run get_data_value_reads. replace (b =? 0) with false by lia. bb. run get_data_value_reads.
  bb. erewrite (bind_ok _ _ _ _ _ (chk_ok _ _ H9)). bb.
  erewrite bind_ok; [reflexivity|]. erewrite set_data_wr; fr; [reflexivity|].
  rewrite 2mark_frame, put_pow_frame by discriminate; auto.
Qed.
Lemma div_bad v0 v1 a b :
  left_powered c n r col true -> operand_at c n r col 0 v0 -> operand_at c n r col 1 v1 ->
  reads c v0 a -> reads c v1 b -> b <> 0 -> in_i32 (Z.quot a b) = false -> fn_DIV E col r s = Bad UB_overflow.
Proof.
  intros H1 H2 H3 H6 H7 H8 H9. unfold fn_DIV. run mleft_ok. run mput_ok. run mleft_ok.
  bb. run get_data_value_reads. replace (b =? 0) with false by lia. bb. run get_data_value_reads.
  bb. unfold bind at 1. rewrite (chk_bad _ _ H9). auto.
Qed.
Lemma sub_off v0 v1 a b :
  left_powered c n r col false -> operand_at c n r col 0 v0 -> operand_at c n r col 1 v1 -> reads c v0 a -> reads c v1 b ->
  fn_SUB E col r s = Ok (E_OK, inc s (two (put_pow n r col false c) v0 v1)).
Proof.
  intros H1 H2 H3 H6 H7. unfold fn_SUB. run mleft_ok. run mput_ok. run get_data_value_reads. run get_data_value_reads.
  run mleft_ok. auto.
Qed.
(** The row whose output a subtraction raises. *)
Definition sub_row (a b : Z) : nat := if b <? a then r else if a =? b then r + 1 else r + 2.
Lemma sub_ok v0 v1 v2 a b :
  left_powered c n r col true -> operand_at c n r col 0 v0 -> operand_at c n r col 1 v1 ->
  peek c (LData n r col 2) = Some (VVal v2) -> stores_ok c -> reads c v0 a -> reads c v1 b -> in_i32 (a - b) = true ->
  has_cell c n (sub_row a b) col ->
  fn_SUB E col r s = Ok (E_OK, inc s (wr v2 (a - b) (put_pow n (sub_row a b) col true (two (put_pow n r col true c) v0 v1)))).
Proof.
  intros H1 H2 H3 H4 H5 H6 H7 H8 H9. unfold fn_SUB. run mleft_ok. run mput_ok. run get_data_value_reads. run get_data_value_reads.
  run mleft_ok. bb.
  erewrite bind_ok.
  2:{ unfold sub_row in *. instantiate (2 := tt). instantiate (1 := inc s (put_pow n (sub_row a b) col true (two (put_pow n r col true c) v0 v1))).
      unfold sub_row, two. destruct (b <? a); [|destruct (a =? b)]; erewrite mput_ok; fr; reflexivity. }
  bb. erewrite (bind_ok _ _ _ _ _ (chk_ok _ _ H8)). bb.
  erewrite bind_ok; [reflexivity|]. unfold two. erewrite set_data_wr; fr; [reflexivity|].
  rewrite put_pow_frame, 2mark_frame, put_pow_frame by discriminate; auto.
Qed.
Lemma sub_bad v0 v1 a b :
  left_powered c n r col true -> operand_at c n r col 0 v0 -> operand_at c n r col 1 v1 ->
  reads c v0 a -> reads c v1 b -> in_i32 (a - b) = false -> has_cell c n (sub_row a b) col -> fn_SUB E col r s = Bad UB_overflow.
Proof.
  intros H1 H2 H3 H6 H7 H8 H9. unfold fn_SUB. run mleft_ok. run mput_ok. run get_data_value_reads. run get_data_value_reads.
  run mleft_ok. bb.
  erewrite bind_ok.
  2:{ unfold sub_row in *. instantiate (2 := tt). instantiate (1 := inc s (put_pow n (sub_row a b) col true (two (put_pow n r col true c) v0 v1))).
      unfold sub_row, two. destruct (b <? a); [|destruct (a =? b)]; erewrite mput_ok; fr; reflexivity. }
  bb. unfold bind at 1. rewrite (chk_bad _ _ H8). auto.
Qed.
Lemma not_off : left_powered c n r col false -> fn_NOT E col r s = Ok (E_OK, inc s (put_pow n r col false c)).
Proof. intros H. unfold fn_NOT. run mleft_ok. run mput_ok. run mleft_ok. auto. Qed.
Lemma not_ok v0 v1 a : left_powered c n r col true -> operand_at c n r col 0 v0 ->
  peek c (LData n r col 1) = Some (VVal v1) -> stores_ok c -> reads c v0 a ->
  fn_NOT E col r s = Ok (E_OK, inc s (wr v1 (Z.lnot a) (mark (put_pow n r col true c) v0))).
Proof.
  intros H1 H2 H4 H5 H6. unfold fn_NOT. run mleft_ok. run mput_ok. run mleft_ok.
  bb. run get_data_value_reads. bb.
  erewrite bind_ok; [reflexivity|]. erewrite set_data_wr; fr; [reflexivity|].
  rewrite mark_frame, put_pow_frame by discriminate; auto.
Qed.

(** ** Comparisons *)
Lemma cmp_off op : left_powered c n r col false -> cmpop E op col r s = Ok (E_OK, inc s (put_pow n r col false c)).
Proof. intros H. unfold cmpop. run mleft_ok. cbv iota; rewrite bind_ret. run mput_ok. auto. Qed.
Lemma cmp_ok op v0 v1 a b : left_powered c n r col true -> operand_at c n r col 0 v0 -> operand_at c n r col 1 v1 ->
  reads c v0 a -> reads c v1 b ->
  cmpop E op col r s = Ok (E_OK, inc s (put_pow n r col (op a b) (two c v0 v1))).
Proof.
  intros H1 H2 H3 H6 H7. unfold cmpop. run mleft_ok. bb. run get_data_value_reads.
  bb. run get_data_value_reads. rewrite bind_ret. run mput_ok. auto.
Qed.

(** ** Shifts *)
Lemma left_poke l z c0 r' b : match l with LReg _ _ | LOut _ _ _ | LIn _ _ _ => True | _ => False end ->
  left_powered c0 n r' col b -> left_powered (poke l z c0) n r' col b.
Proof. intros Hl. apply left_same. intros; apply poke_frame. intros <-; destruct Hl. Qed.
Lemma target_shape c0 v l : target c0 v = Some l -> match l with LReg _ _ | LOut _ _ _ | LIn _ _ _ => True | _ => False end.
Proof.
  unfold target. destruct (bank_of (v_type v)) eqn:Hb; destruct (v_type v); simpl in *; try discriminate;
    repeat match goal with |- context [if ?x then _ else _] => destruct x | |- context [match ?x with _ => _ end] => destruct x end;
    intros [= <-]; auto.
Qed.
Lemma prog_wr c0 v w : same_prog c0 (wr v w c0).
Proof. unfold wr. destruct (target c0 v) eqn:Ht; [apply prog_poke; eapply target_shape; eauto|intros l _; auto]. Qed.
Lemma left_wr c0 v w r' b : left_powered c0 n r' col b -> left_powered (wr v w c0) n r' col b.
Proof. unfold wr. destruct (target c0 v) eqn:Ht; auto. apply left_poke; eapply target_shape; eauto. Qed.
Lemma shift_ok op v0 v1 a b w l :
  left_powered c n r col l -> operand_at c n r col 0 v0 -> operand_at c n r col 1 v1 -> stores_ok c ->
  reads c v0 a -> reads c v1 b -> op (u32 a) (norm_amount b) = Ok w ->
  shiftop E op col r s = Ok (write_err c v0, inc s (put_pow n r col l (wr v0 (i32 w) (two c v0 v1)))).
Proof.
  intros H1 H2 H3 H5 H6 H7 H8. unfold shiftop. run get_data_value_reads. run get_data_value_reads.
  rewrite (bind_ok _ _ _ _ _ (lift_ok _ _ _ H8)). fold (two c v0 v1).
  assert (HW : write_err (two c v0 v1) v0 = write_err c v0).
  { unfold write_err. rewrite (target_same c (two c v0 v1)) by (eapply store_trans; apply store_mark).
    unfold two. rewrite !mark_frame by discriminate. auto. }
  erewrite bind_ok; [|erewrite set_data_wr; unfold two; fr; [reflexivity|apply data_of; fr]].
  fold (two c v0 v1). simpl inc.
  assert (Hx : executing (wr v0 (i32 w) (two c v0 v1)) n r col).
  { eapply executing_same; [apply prog_wr|]. unfold two; fr. }
  assert (Hl : left_powered (wr v0 (i32 w) (two c v0 v1)) n r col l) by (apply left_wr; unfold two; fr).
  run mleft_ok. run mput_ok. rewrite HW. auto.
Qed.
Lemma shift_bad op v0 v1 a b u :
  operand_at c n r col 0 v0 -> operand_at c n r col 1 v1 ->
  reads c v0 a -> reads c v1 b -> op (u32 a) (norm_amount b) = Bad u -> shiftop E op col r s = Bad u.
Proof.
  intros H2 H3 H6 H7 H8. unfold shiftop. run get_data_value_reads. run get_data_value_reads.
  unfold bind at 1, lift. rewrite H8. auto.
Qed.
End Instr.
