(** Basic updates of a context and what they do to its places. *)
From Verif Require Export Lib Instr.

(** Two contexts equal on all places are equal: the view leaves nothing out. *)
Lemma peek_ext c c' : (forall l, peek c l = peek c' l) -> c = c'.
Proof.
  intros H.
  assert (HB : forall b, bank_arr b c = bank_arr b c').
  { intros b. apply elem_size.
    - intros i. specialize (H (LReg b i)); simpl in H.
      destruct (elem (bank_arr b c) i), (elem (bank_arr b c') i); simpl in H; congruence.
    - exact (H (LRegLen b)). }
  assert (HT : x_tm c = x_tm c').
  { apply elem_size; [|exact (H LTmLen)]. intros i.
    pose proof (H (LTs i)) as H1; pose proof (H (LAcc i)) as H2; simpl in H1, H2.
    destruct (elem (x_tm c) i) as [[a b]|], (elem (x_tm c') i) as [[a' b']|]; simpl in *; congruence. }
  assert (HI : x_in c = x_in c').
  { apply elem_size; [|exact (H LInCount)]. intros m.
    pose proof (H (LInMeta m)) as H1; simpl in H1.
    pose proof (fun k i => H (LIn m k i)) as H2; pose proof (fun k => H (LInLen m k)) as H3; simpl in H2, H3.
    destruct (elem (x_in c) m) as [a|], (elem (x_in c') m) as [b|]; simpl in *; try congruence.
    assert (HA : forall k, in_arr k a = in_arr k b).
    { intros k; apply elem_size; auto. intros i. specialize (H2 k i).
      destruct (elem (in_arr k a) i), (elem (in_arr k b) i); simpl in *; congruence. }
    pose proof (HA K_I); pose proof (HA K_IW); pose proof (HA K_Ih); pose proof (HA K_IWh).
    destruct a, b; simpl in *; congruence. }
  assert (HO : x_out c = x_out c').
  { apply elem_size; [|exact (H LOutCount)]. intros m.
    pose proof (H (LOutMeta m)) as H1; simpl in H1.
    pose proof (fun k i => H (LOut m k i)) as H2; pose proof (fun k => H (LOutLen m k)) as H3; simpl in H2, H3.
    destruct (elem (x_out c) m) as [a|], (elem (x_out c') m) as [b|]; simpl in *; try congruence.
    assert (HA : forall k, out_arr k a = out_arr k b).
    { intros k; apply elem_size; auto. intros i. specialize (H2 k i).
      destruct (elem (out_arr k a) i), (elem (out_arr k b) i); simpl in *; congruence. }
    pose proof (HA K_Q); pose proof (HA K_QW); pose proof (HA K_Qh); pose proof (HA K_QWh).
    destruct a, b; simpl in *; congruence. }
  assert (HC : forall n r col, cell_of c n r col = cell_of c' n r col).
  { intros n r col.
    pose proof (H (LPow n r col)) as H1; pose proof (H (LCell n r col)) as H2;
      pose proof (fun i => H (LData n r col i)) as H3; pose proof (H (LDataLen n r col)) as H4; simpl in *.
    destruct (cell_of c n r col) as [a|], (cell_of c' n r col) as [b|]; simpl in *; try congruence.
    assert (c_data a = c_data b).
    { apply elem_size; auto. intros i; specialize (H3 i).
      destruct (elem (c_data a) i), (elem (c_data b) i); simpl in *; congruence. }
    destruct a, b; simpl in *; congruence. }
  assert (HR : forall n r, row_of c n r = row_of c' n r).
  { intros n r. pose proof (H (LRowLen n r)) as H1; simpl in H1.
    pose proof (HC n r) as H2; unfold cell_of in H2.
    destruct (row_of c n r) as [a|], (row_of c' n r) as [b|]; simpl in *; try congruence.
    f_equal; apply nth_error_ext; auto. }
  assert (HN : x_net c = x_net c').
  { apply elem_size; [|exact (H LNets)]. intros n.
    pose proof (H (LNet n)) as H1; pose proof (H (LRows n)) as H2; simpl in *.
    pose proof (HR n) as H3; unfold row_of in H3. change (elem (x_net c) n) with (net_of c n);
      change (elem (x_net c') n) with (net_of c' n).
    destruct (net_of c n) as [a|], (net_of c' n) as [b|]; simpl in *; try congruence.
    assert (n_cells a = n_cells b) by (apply elem_size; auto).
    destruct a, b; simpl in *; congruence. }
  pose proof (HB B_M); pose proof (HB B_Cr); pose proof (HB B_Cd); pose proof (HB B_Tr); pose proof (HB B_Td);
  pose proof (HB B_Mh); pose proof (HB B_Crh); pose proof (HB B_Cdh); pose proof (HB B_Trh); pose proof (HB B_Tdh);
  pose proof (HB B_C); pose proof (HB B_D); pose proof (HB B_R).
  pose proof (H LState); pose proof (H LWof); pose proof (H LErr); pose proof (H LLast); pose proof (H LQty);
  pose proof (H LIo); pose proof (H LHooks); pose proof (H LStats); pose proof (H LExec); pose proof (H LForeign);
  pose proof (H LCron). clear H HB HC HR.
  destruct c as [a1 a2 a3 a4 a5 a6 a7 a8 a9 a10 a11 a12 a13 a14 a15 a16 a17],
    c' as [b1 b2 b3 b4 b5 b6 b7 b8 b9 b10 b11 b12 b13 b14 b15 b16 b17].
  destruct a7, b7, a8, b8, a11, b11, a3, b3; simpl in *. congruence.
Qed.

(** ** Cells *)
Definition put_cell (n r col : nat) (y : cell) (c : ctx) : ctx :=
  set_x_net (option_map (fun l => match nth_error l n with
                                  | Some nt => lset l n (set_cell_in nt r col y)
                                  | None => l end) (x_net c)) c.
Lemma net_at_of n c nt : net_of c n = Some nt -> net_at n c = Ok nt.
Proof. unfold net_of, net_at, elem, nth_res. destruct (x_net c); simpl; [|discriminate]. intros ->; auto. Qed.
Lemma net_at_inv n c nt : net_at n c = Ok nt -> net_of c n = Some nt.
Proof. unfold net_of, net_at, elem, nth_res. destruct (x_net c); simpl; [|discriminate]. destruct (nth_error l n); congruence. Qed.
Definition ncell (nt : network) (r col : nat) : option cell := obind (elem (n_cells nt) r) (fun rw => nth_error rw col).
Lemma cell_of_net c n nt r col : net_of c n = Some nt -> cell_of c n r col = ncell nt r col.
Proof. unfold cell_of, row_of, ncell. intros ->; auto. Qed.
Lemma cell_of_inv c n r col x : cell_of c n r col = Some x -> exists nt, net_of c n = Some nt /\ ncell nt r col = Some x.
Proof. unfold cell_of, row_of, ncell. destruct (net_of c n); simpl; [eauto|discriminate]. Qed.
Lemma cell_in_of nt r col x : ncell nt r col = Some x -> cell_in nt r col = Ok x.
Proof.
  unfold ncell, cell_in, elem, nth_res. destruct (n_cells nt) as [rows|]; simpl; [|discriminate].
  destruct (nth_error rows r) as [rw|]; simpl; [|discriminate]. intros ->; auto.
Qed.
Lemma cell_in_inv nt r col x : cell_in nt r col = Ok x -> ncell nt r col = Some x.
Proof.
  unfold ncell, cell_in, elem, nth_res. destruct (n_cells nt) as [rows|]; simpl; [|discriminate].
  destruct (nth_error rows r) as [rw|]; simpl; [|discriminate]. destruct (nth_error rw col); congruence.
Qed.
Lemma upd_cell_ok n r col f c x : cell_of c n r col = Some x -> upd_cell n r col f c = Ok (put_cell n r col (f x) c).
Proof.
  intros H. destruct (cell_of_inv _ _ _ _ _ H) as (nt & Hn & Hx). unfold upd_cell.
  rewrite (net_at_of _ _ _ Hn); simpl. rewrite (cell_in_of _ _ _ _ Hx); simpl.
  unfold put_cell. unfold net_of, elem in Hn. destruct (x_net c) as [l|]; simpl in *; [|discriminate].
  rewrite Hn; auto.
Qed.
Lemma ncell_set_same nt r col x y : ncell nt r col = Some x -> ncell (set_cell_in nt r col y) r col = Some y.
Proof.
  unfold ncell, set_cell_in, elem. destruct (n_cells nt) as [rows|] eqn:Hc; simpl; [|discriminate].
  destruct (nth_error rows r) as [rw|] eqn:Hr; simpl; [|discriminate]. intros H.
  rewrite nth_lset_same by (eapply nth_some_lt; eauto). simpl. apply nth_lset_same. eapply nth_some_lt; eauto.
Qed.
Lemma ncell_set_other nt r col r' col' y : (r, col) <> (r', col') -> ncell (set_cell_in nt r col y) r' col' = ncell nt r' col'.
Proof.
  intros Hne. unfold ncell, set_cell_in, elem. destruct (n_cells nt) as [rows|] eqn:Hc; simpl; [|rewrite Hc; auto].
  destruct (nth_error rows r) as [rw|] eqn:Hr; simpl; [|rewrite Hc; auto].
  destruct (Nat.eq_dec r r') as [<-|Hd].
  - rewrite nth_lset_same by (eapply nth_some_lt; eauto). rewrite Hr; simpl. apply nth_lset_other. congruence.
  - rewrite nth_lset_other; auto.
Qed.
Lemma put_cell_net n r col y c m :
  net_of (put_cell n r col y c) m = if Nat.eq_dec n m then option_map (fun nt => set_cell_in nt r col y) (net_of c m) else net_of c m.
Proof.
  unfold put_cell, net_of, elem; simpl. destruct (x_net c) as [l|]; simpl; [|destruct (Nat.eq_dec n m); auto].
  destruct (nth_error l n) as [nt|] eqn:Hn.
  - destruct (Nat.eq_dec n m) as [<-|Hd].
    + rewrite Hn; simpl. apply nth_lset_same. eapply nth_some_lt; eauto.
    + apply nth_lset_other; auto.
  - destruct (Nat.eq_dec n m) as [<-|Hd]; auto. rewrite Hn; auto.
Qed.
Lemma put_cell_same n r col y c x : cell_of c n r col = Some x -> cell_of (put_cell n r col y c) n r col = Some y.
Proof.
  intros H. destruct (cell_of_inv _ _ _ _ _ H) as (nt & Hn & Hx).
  erewrite cell_of_net; [|rewrite put_cell_net; destruct (Nat.eq_dec n n); [rewrite Hn; reflexivity|congruence]].
  eapply ncell_set_same; eauto.
Qed.
Lemma put_cell_other n r col y c n' r' col' :
  (n, r, col) <> (n', r', col') -> cell_of (put_cell n r col y c) n' r' col' = cell_of c n' r' col'.
Proof.
  intros Hne. destruct (net_of c n') as [nt|] eqn:Hn.
  - rewrite (cell_of_net _ _ _ _ _ Hn). destruct (Nat.eq_dec n n') as [<-|Hd]; simpl.
    + erewrite cell_of_net; [|rewrite put_cell_net, Hn; destruct (Nat.eq_dec n n); [reflexivity|congruence]].
      apply ncell_set_other. congruence.
    + erewrite cell_of_net; [|rewrite put_cell_net, Hn; destruct (Nat.eq_dec n n'); [congruence|reflexivity]]. auto.
  - unfold cell_of, row_of. rewrite put_cell_net, Hn. destruct (Nat.eq_dec n n'); auto.
Qed.

Lemma set_cell_in_meta nt r col y :
  n_en (set_cell_in nt r col y) = n_en nt /\ n_rows (set_cell_in nt r col y) = n_rows nt
  /\ n_cols (set_cell_in nt r col y) = n_cols nt /\ size (n_cells (set_cell_in nt r col y)) = size (n_cells nt).
Proof.
  unfold set_cell_in. destruct (n_cells nt) as [rows|] eqn:Hc; [|rewrite Hc; auto].
  destruct (nth_error rows r); simpl; rewrite ?lset_length, ?Hc; auto.
Qed.
Lemma set_cell_in_row nt r col y r' :
  option_map (@length cell) (elem (n_cells (set_cell_in nt r col y)) r') = option_map (@length cell) (elem (n_cells nt) r').
Proof.
  unfold set_cell_in. destruct (n_cells nt) as [rows|] eqn:Hc; [|rewrite Hc; auto].
  destruct (nth_error rows r) as [rw|] eqn:Hr; simpl; [|rewrite Hc; auto].
  destruct (Nat.eq_dec r r') as [<-|Hd].
  - rewrite nth_lset_same by (eapply nth_some_lt; eauto). rewrite Hr; simpl. rewrite lset_length; auto.
  - rewrite nth_lset_other; auto.
Qed.
(** Places of a cell. *)
Definition of_cell (n r col : nat) (l : loc) : Prop :=
  l = LPow n r col \/ l = LCell n r col \/ l = LDataLen n r col \/ exists i, l = LData n r col i.
Lemma put_cell_frame n r col y c l : ~ of_cell n r col l -> peek (put_cell n r col y c) l = peek c l.
Proof.
  unfold of_cell. intros H.
  assert (HC : forall n' r' col', (n, r, col) <> (n', r', col') ->
            cell_of (put_cell n r col y c) n' r' col' = cell_of c n' r' col') by (intros; apply put_cell_other; auto).
  destruct l; simpl; try reflexivity;
    try (rewrite HC; [reflexivity|intros [= <- <- <-]; apply H; eauto 10; fail]).
  - unfold row_of. rewrite put_cell_net. destruct (Nat.eq_dec n n0); auto. destruct (net_of c n0); simpl; auto.
    pose proof (set_cell_in_row n1 r col y r0) as HR.
    destruct (elem (n_cells (set_cell_in n1 r col y)) r0), (elem (n_cells n1) r0); simpl in *; congruence.
  - rewrite put_cell_net. destruct (Nat.eq_dec n n0); auto. destruct (net_of c n0); simpl; auto.
    apply set_cell_in_meta.
  - rewrite put_cell_net. destruct (Nat.eq_dec n n0); auto. destruct (net_of c n0); simpl; auto.
    destruct (set_cell_in_meta n1 r col y) as (-> & -> & -> & _); auto.
  - unfold put_cell; simpl. destruct (x_net c) as [nl|]; simpl; auto. destruct (nth_error nl n); auto.
    simpl; rewrite lset_length; auto.
Qed.

(** *** Power of a cell *)
Definition put_pow (n r col : nat) (b : bool) (c : ctx) : ctx :=
  match cell_of c n r col with Some x => put_cell n r col (set_c_state b x) c | None => c end.
Lemma put_pow_cell n r col b c n' r' col' :
  cell_of (put_pow n r col b c) n' r' col' =
  if loc_eq_dec (LPow n r col) (LPow n' r' col') then option_map (set_c_state b) (cell_of c n' r' col')
  else cell_of c n' r' col'.
Proof.
  unfold put_pow. destruct (loc_eq_dec (LPow n r col) (LPow n' r' col')) as [[= <- <- <-]|Hd].
  - destruct (cell_of c n r col) eqn:Hx; simpl; auto. eapply put_cell_same; eauto.
  - destruct (cell_of c n r col) eqn:Hx; simpl; auto. apply put_cell_other. intros [= -> -> ->]; congruence.
Qed.
Lemma put_pow_frame n r col b c l : l <> LPow n r col -> peek (put_pow n r col b c) l = peek c l.
Proof.
  intros H. unfold put_pow. destruct (cell_of c n r col) as [x|] eqn:Hx; auto.
  destruct (loc_eq_dec l (LCell n r col)) as [->|H1].
  { simpl. rewrite (put_cell_same _ _ _ _ _ _ Hx), Hx; auto. }
  destruct (loc_eq_dec l (LDataLen n r col)) as [->|H2].
  { simpl. rewrite (put_cell_same _ _ _ _ _ _ Hx), Hx; auto. }
  destruct l; try (apply put_cell_frame; unfold of_cell; intros [?|[?|[?|[? ?]]]]; congruence).
  destruct (loc_eq_dec (LPow n r col) (LPow n0 r0 col0)) as [[= <- <- <-]|H3].
  - simpl. rewrite (put_cell_same _ _ _ _ _ _ Hx), Hx; auto.
  - apply put_cell_frame; unfold of_cell; intros [?|[?|[?|[? ?]]]]; congruence.
Qed.
Lemma put_pow_here n r col b c x : cell_of c n r col = Some x -> peek (put_pow n r col b c) (LPow n r col) = Some (VB b).
Proof. intros H. unfold put_pow; rewrite H; simpl. rewrite (put_cell_same _ _ _ _ _ _ H); auto. Qed.
Lemma put_pow_net n r col b c m :
  option_map (fun nt => (n_en nt, n_rows nt, n_cols nt)) (net_of (put_pow n r col b c) m)
  = option_map (fun nt => (n_en nt, n_rows nt, n_cols nt)) (net_of c m).
Proof.
  pose proof (put_pow_frame n r col b c (LNet m) ltac:(discriminate)) as H. simpl in H.
  destruct (net_of (put_pow n r col b c) m), (net_of c m); simpl in *; congruence.
Qed.
Lemma put_pow_exec n r col b c : x_exec (put_pow n r col b c) = x_exec c.
Proof. unfold put_pow; destruct (cell_of c n r col); auto. Qed.

(** ** Banks *)
Definition put_reg (b : bank) (i : nat) (v : Z) (c : ctx) : ctx :=
  set_arr b (option_map (fun l => lset l i v) (bank_arr b c)) c.
Lemma bank_set_arr b a c b' : bank_arr b' (set_arr b a c) = if bank_eq_dec b b' then a else bank_arr b' c.
Proof. destruct b, b'; reflexivity. Qed.
Lemma arr_of_bank b c : arr_of b c = bank_arr b c. Proof. destruct b; auto. Qed.
Lemma bk_put_ok b z v c a : 0 <= z -> elem (bank_arr b c) (ix z) = Some a -> bk_put b z v c = Ok (put_reg b (ix z) v c).
Proof. intros Hz H. unfold bk_put. rewrite arr_of_bank. erewrite pset_elem by eauto. reflexivity. Qed.
Lemma put_reg_frame b i v c l : l <> LReg b i -> peek (put_reg b i v c) l = peek c l.
Proof.
  intros H. destruct l; try (unfold put_reg; destruct b; reflexivity).
  - simpl. unfold put_reg. rewrite bank_set_arr. destruct (bank_eq_dec b b0) as [<-|]; auto.
    rewrite elem_lset_other by congruence. auto.
  - simpl. unfold put_reg. rewrite bank_set_arr. destruct (bank_eq_dec b b0) as [<-|]; auto. apply size_lset.
Qed.
Lemma put_reg_here b i v c a : elem (bank_arr b c) i = Some a -> peek (put_reg b i v c) (LReg b i) = Some (VZ v).
Proof.
  intros H. simpl. unfold put_reg. rewrite bank_set_arr. destruct (bank_eq_dec b b); [|congruence].
  erewrite elem_lset_same by eauto. auto.
Qed.

(** ** Timers *)
Definition put_tm (i : nat) (t : timer) (c : ctx) : ctx := set_x_tm (option_map (fun l => lset l i t) (x_tm c)) c.
Lemma tm_put_ok z f c t : 0 <= z -> elem (x_tm c) (ix z) = Some t -> Instr.tm_put z f c = Ok (put_tm (ix z) (f t) c).
Proof.
  intros Hz H. unfold Instr.tm_put. rewrite (pget_elem _ _ _ Hz H); simpl. erewrite pset_elem by eauto. reflexivity.
Qed.
Lemma put_tm_frame i t c l : l <> LTs i -> l <> LAcc i -> peek (put_tm i t c) l = peek c l.
Proof.
  intros H1 H2. destruct l; try reflexivity; simpl.
  - rewrite elem_lset_other by congruence; auto.
  - rewrite elem_lset_other by congruence; auto.
  - apply size_lset.
Qed.

(** ** I/O modules *)
Definition put_out (k : ok) (m p : nat) (v : Z) (c : ctx) : ctx :=
  set_x_out (option_map (fun l => match nth_error l m with
                                  | Some om => lset l m (set_o_arr k (option_map (fun a => lset a p v) (out_arr k om)) om)
                                  | None => l end) (x_out c)) c.
Definition put_in (k : ik) (m p : nat) (v : Z) (c : ctx) : ctx :=
  set_x_in (option_map (fun l => match nth_error l m with
                                 | Some im => lset l m (set_i_arr k (option_map (fun a => lset a p v) (in_arr k im)) im)
                                 | None => l end) (x_in c)) c.
Lemma o_arr_out k m : o_arr k m = out_arr k m. Proof. destruct k; auto. Qed.
Lemma i_arr_in k m : i_arr k m = in_arr k m. Proof. destruct k; auto. Qed.
Lemma out_set_arr k a m k' : out_arr k' (set_o_arr k a m) = if ok_eq_dec k k' then a else out_arr k' m.
Proof. destruct k, k'; reflexivity. Qed.
Lemma in_set_arr k a m k' : in_arr k' (set_i_arr k a m) = if ik_eq_dec k k' then a else in_arr k' m.
Proof. destruct k, k'; reflexivity. Qed.
Lemma out_put_ok k m p v c om a :
  0 <= m -> 0 <= p -> elem (x_out c) (ix m) = Some om -> elem (out_arr k om) (ix p) = Some a ->
  Commons.out_put k m p v c = Ok (put_out k (ix m) (ix p) v c).
Proof.
  intros Hm Hp H1 H2. unfold Commons.out_put. rewrite (pget_elem _ _ _ Hm H1); simpl. rewrite o_arr_out.
  erewrite pset_elem by eauto; simpl. erewrite pset_elem by eauto; simpl. unfold put_out.
  destruct (x_out c) as [l|]; simpl in *; [|discriminate]. rewrite H1; auto.
Qed.
Lemma in_put_ok k m p v c im a :
  0 <= m -> 0 <= p -> elem (x_in c) (ix m) = Some im -> elem (in_arr k im) (ix p) = Some a ->
  Commons.in_put k m p v c = Ok (put_in k (ix m) (ix p) v c).
Proof.
  intros Hm Hp H1 H2. unfold Commons.in_put. rewrite (pget_elem _ _ _ Hm H1); simpl. rewrite i_arr_in.
  erewrite pset_elem by eauto; simpl. erewrite pset_elem by eauto; simpl. unfold put_in.
  destruct (x_in c) as [l|]; simpl in *; [|discriminate]. rewrite H1; auto.
Qed.
Lemma put_out_elem k m p v c m' :
  elem (x_out (put_out k m p v c)) m' =
  if Nat.eq_dec m m' then option_map (fun om => set_o_arr k (option_map (fun a => lset a p v) (out_arr k om)) om) (elem (x_out c) m')
  else elem (x_out c) m'.
Proof.
  unfold put_out; simpl. destruct (x_out c) as [l|]; simpl; [|destruct (Nat.eq_dec m m'); auto].
  destruct (nth_error l m) as [om|] eqn:Hn.
  - destruct (Nat.eq_dec m m') as [<-|Hd].
    + rewrite Hn. simpl. apply nth_lset_same. eapply nth_some_lt; eauto.
    + apply nth_lset_other; auto.
  - destruct (Nat.eq_dec m m') as [<-|]; auto. rewrite Hn; auto.
Qed.
Lemma put_in_elem k m p v c m' :
  elem (x_in (put_in k m p v c)) m' =
  if Nat.eq_dec m m' then option_map (fun im => set_i_arr k (option_map (fun a => lset a p v) (in_arr k im)) im) (elem (x_in c) m')
  else elem (x_in c) m'.
Proof.
  unfold put_in; simpl. destruct (x_in c) as [l|]; simpl; [|destruct (Nat.eq_dec m m'); auto].
  destruct (nth_error l m) as [im|] eqn:Hn.
  - destruct (Nat.eq_dec m m') as [<-|Hd].
    + rewrite Hn. simpl. apply nth_lset_same. eapply nth_some_lt; eauto.
    + apply nth_lset_other; auto.
  - destruct (Nat.eq_dec m m') as [<-|]; auto. rewrite Hn; auto.
Qed.
Lemma put_out_frame k m p v c l : l <> LOut m k p -> peek (put_out k m p v c) l = peek c l.
Proof.
  intros H. destruct l; try reflexivity; cbn [peek]; rewrite ?put_out_elem.
  - destruct (Nat.eq_dec m m0) as [<-|]; auto. destruct (elem (x_out c) m) as [om|]; simpl; auto.
    rewrite out_set_arr. destruct (ok_eq_dec k k0) as [<-|]; auto. rewrite elem_lset_other by congruence; auto.
  - destruct (Nat.eq_dec m m0) as [<-|]; auto. destruct (elem (x_out c) m) as [om|]; simpl; auto.
    rewrite out_set_arr. destruct (ok_eq_dec k k0) as [<-|]; auto. apply size_lset.
  - destruct (Nat.eq_dec m m0) as [<-|]; auto. destruct (elem (x_out c) m) as [om|]; simpl; auto. destruct k; auto.
  - unfold put_out; simpl. destruct (x_out c) as [l|]; simpl; auto. destruct (nth_error l m); simpl; rewrite ?lset_length; auto.
Qed.
Lemma put_in_frame k m p v c l : l <> LIn m k p -> peek (put_in k m p v c) l = peek c l.
Proof.
  intros H. destruct l; try reflexivity; cbn [peek]; rewrite ?put_in_elem.
  - destruct (Nat.eq_dec m m0) as [<-|]; auto. destruct (elem (x_in c) m) as [om|]; simpl; auto.
    rewrite in_set_arr. destruct (ik_eq_dec k k0) as [<-|]; auto. rewrite elem_lset_other by congruence; auto.
  - destruct (Nat.eq_dec m m0) as [<-|]; auto. destruct (elem (x_in c) m) as [om|]; simpl; auto.
    rewrite in_set_arr. destruct (ik_eq_dec k k0) as [<-|]; auto. apply size_lset.
  - destruct (Nat.eq_dec m m0) as [<-|]; auto. destruct (elem (x_in c) m) as [om|]; simpl; auto. destruct k; auto.
  - unfold put_in; simpl. destruct (x_in c) as [l|]; simpl; auto. destruct (nth_error l m); simpl; rewrite ?lset_length; auto.
Qed.
Lemma put_out_here k m p v c om a :
  elem (x_out c) m = Some om -> elem (out_arr k om) p = Some a -> peek (put_out k m p v c) (LOut m k p) = Some (VZ v).
Proof.
  intros H1 H2; cbn [peek]. rewrite put_out_elem, H1. destruct (Nat.eq_dec m m); [|congruence]. simpl.
  rewrite out_set_arr. destruct (ok_eq_dec k k); [|congruence]. erewrite elem_lset_same by eauto; auto.
Qed.
Lemma put_in_here k m p v c im a :
  elem (x_in c) m = Some im -> elem (in_arr k im) p = Some a -> peek (put_in k m p v c) (LIn m k p) = Some (VZ v).
Proof.
  intros H1 H2; cbn [peek]. rewrite put_in_elem, H1. destruct (Nat.eq_dec m m); [|congruence]. simpl.
  rewrite in_set_arr. destruct (ik_eq_dec k k); [|congruence]. erewrite elem_lset_same by eauto; auto.
Qed.
