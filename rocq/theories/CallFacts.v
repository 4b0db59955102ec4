(** The shape of the machine is kept, and calls are made on machines of that shape. *)
From Verif Require Export SpecCall Lib.

(** ** Arrays *)

Lemma len_lset {A} (l : list A) i v : length (lset l i v) = length l.
Proof. revert i. induction l as [|h t IH]; intros [|i]; simpl; auto. Qed.
Lemma map_lset {A B} (g : A -> B) (l : list A) i v : (forall a, nth_error l i = Some a -> g v = g a) -> map g (lset l i v) = map g l.
Proof. revert i. induction l as [|h t IH]; intros [|i] H; simpl; auto. - now rewrite (H h). - now rewrite IH. Qed.
Lemma pset_len {A} (p p' : option (list A)) i v : pset p i v = Ok p' -> len p' = len p.
Proof. destruct p as [l|]; simpl; [|discriminate]. destruct (idx_ok l i); [|discriminate]. intros K. injection K as <-. simpl. now rewrite len_lset. Qed.
Lemma pset_map {A B} (g : A -> B) (p p' : option (list A)) i v a : pget p i = Ok a -> g v = g a -> pset p i v = Ok p' -> option_map (map g) p' = option_map (map g) p.
Proof.
  destruct p as [l|]; simpl; [|discriminate]. unfold lget. destruct (idx_ok l i); [|discriminate]. destruct (nth_error l (Z.to_nat i)) as [x|] eqn:N; [|discriminate].
  intros K G P. injection K as <-. injection P as <-. simpl. f_equal. apply map_lset. intros a K. congruence.
Qed.
Lemma memset_len (p p' : arr) n : pmemset0 p n = Ok p' -> len p' = len p.
Proof.
  unfold pmemset0. destruct n as [|n]; [intros K; injection K as <-; auto|]. destruct p as [l|]; [|discriminate]. destruct (Nat.leb_spec (S n) (length l)); [|discriminate].
  intros K. assert (p' = Some (repeat 0 (S n) ++ skipn (S n) l)) by congruence. subst p'. unfold len; cbn [option_map]. rewrite app_length, repeat_length, skipn_length. f_equal. lia.
Qed.
Lemma memcpy_len (d s d' : arr) n : pmemcpy d s n = Ok d' -> len d' = len d.
Proof.
  unfold pmemcpy. destruct n as [|n]; [intros K; injection K as <-; auto|]. destruct d as [l|]; [|discriminate]. destruct s as [m|]; [|discriminate].
  destruct (Nat.leb_spec (S n) (length l)); [|discriminate]. destruct (Nat.leb_spec (S n) (length m)); [|discriminate].
  cbn [andb]. intros K. assert (d' = Some (firstn (S n) m ++ skipn (S n) l)) by congruence. subst d'. unfold len; cbn [option_map]. rewrite app_length, firstn_length, skipn_length. f_equal. lia.
Qed.
Lemma copy_if_len (d s d' : arr) n : copy_if d s n = Ok d' -> len d' = len d.
Proof. unfold copy_if. destruct (is_null s || is_null d); [intros K; injection K as <-; auto|]. apply memcpy_len. Qed.
Lemma zero_if_len (p p' : arr) n : zero_if p n = Ok p' -> len p' = len p.
Proof. unfold zero_if. destruct (is_null p); [intros K; injection K as <-; auto|]. apply memset_len. Qed.
Lemma map_first_map {A B} (g : A -> B) f n : (forall a b, f a = Ok b -> g b = g a) -> forall l l', map_first n f l = Ok l' -> map g l' = map g l.
Proof.
  intros F. induction n as [|n IH]; intros l l' K; simpl in K; [injection K as <-; auto|]. destruct l as [|a t]; [discriminate|]. destruct (f a) as [b| |] eqn:FA; simpl in K; try discriminate.
  destruct (map_first n f t) as [t'| |] eqn:M; simpl in K; try discriminate. injection K as <-. simpl. now rewrite (F _ _ FA), (IH _ _ M).
Qed.
Lemma pmap_first_map {A B} (g : A -> B) f n p p' : (forall a b, f a = Ok b -> g b = g a) -> pmap_first n f p = Ok p' -> option_map (map g) p' = option_map (map g) p.
Proof.
  intros F. unfold pmap_first. destruct n as [|n]; [intros K; injection K as <-; auto|]. destruct p as [l|]; [|discriminate]. destruct (map_first (S n) f l) as [l'| |] eqn:M; simpl; try discriminate.
  intros K. injection K as <-. simpl. f_equal. eapply map_first_map; eauto.
Qed.
Lemma option_map_len {A B} (g : A -> B) (p p' : option (list A)) : option_map (map g) p' = option_map (map g) p -> len p' = len p.
Proof. destruct p as [l|], p' as [l'|]; simpl; try discriminate; auto. intros K. injection K as K. f_equal. rewrite <- (map_length g l'), K, map_length. auto. Qed.

(** ** Updates keep the shape *)

Ltac bind1 K x E := match type of K with rbind ?m _ = Ok _ => destruct m as [x| |] eqn:E; cbn [rbind] in K; try discriminate K end.
Definition keeping (f : ctx -> res ctx) : Prop := forall c c', f c = Ok c' -> shape c' = shape c.
Lemma k_bank b i v : keeping (bk_put b i v).
Proof. intros c c' K. unfold bk_put in K. bind1 K a P. injection K as <-. apply pset_len in P. destruct b; cbn [arr_of] in P; unfold shape, mem_shape, prev_shape, regs_shape; cbn; now rewrite P. Qed.
Lemma k_in k m p v : keeping (in_put k m p v).
Proof.
  intros c c' K. unfold in_put in K. bind1 K im P1. bind1 K a P2. bind1 K l P3. injection K as <-. apply pset_len in P2.
  assert (S1 : in_shape (set_i_arr k a im) = in_shape im) by (destruct k; cbn [i_arr] in P2; unfold in_shape; cbn; now rewrite P2).
  apply (pset_map in_shape _ _ _ _ _ P1 S1) in P3. unfold shape. cbn. now rewrite P3.
Qed.
Lemma k_out k m p v : keeping (out_put k m p v).
Proof.
  intros c c' K. unfold out_put in K. bind1 K im P1. bind1 K a P2. bind1 K l P3. injection K as <-. apply pset_len in P2.
  assert (S1 : out_shape (set_o_arr k a im) = out_shape im) by (destruct k; cbn [o_arr] in P2; unfold out_shape; cbn; now rewrite P2).
  apply (pset_map out_shape _ _ _ _ _ P1 S1) in P3. unfold shape. cbn. now rewrite P3.
Qed.
Lemma k_tm i f : keeping (tm_put i f).
Proof. intros c c' K. unfold tm_put in K. bind1 K t P1. bind1 K l P2. injection K as <-. apply pset_len in P2. unfold shape. cbn. now rewrite P2. Qed.
Lemma set_cell_shape nt r col x y : cell_in nt r col = Ok x -> cell_shape y = cell_shape x -> net_shape (set_cell_in nt r col y) = net_shape nt.
Proof.
  unfold cell_in, set_cell_in. destruct (n_cells nt) as [rows|] eqn:N; [|discriminate]. unfold nth_res. intros K S1. destruct (nth_error rows r) as [rw|] eqn:R; cbn [rbind] in K; [|discriminate].
  destruct (nth_error rw col) as [z|] eqn:C; [|discriminate]. injection K as ->. unfold net_shape. cbn [n_en n_rows n_cols n_cells set_n_cells option_map]. rewrite N. cbn [option_map]. f_equal. f_equal.
  apply map_lset. intros a K. assert (a = rw) by congruence. subst a. apply map_lset. intros b K'. congruence.
Qed.
Lemma k_cell n r col f : (forall x, cell_shape (f x) = cell_shape x) -> keeping (upd_cell n r col f).
Proof.
  intros F c c' K. unfold upd_cell in K. bind1 K nt P1. bind1 K x P2. unfold net_at in P1. destruct (x_net c) as [l|] eqn:N; [|discriminate]. injection K as <-.
  unfold nth_res in P1. destruct (nth_error l n) as [z|] eqn:Z1; [|discriminate]. injection P1 as ->. unfold shape. cbn. rewrite N. cbn [option_map]. f_equal. f_equal.
  apply map_lset. intros a K. assert (a = nt) by congruence. subst a. eapply set_cell_shape; eauto.
Qed.
Lemma k_put col row b : keeping (put_state col row b).
Proof. intros c c' K. unfold put_state in K. destruct (x_exec c); [|discriminate]. eapply k_cell; [|exact K]. reflexivity. Qed.
Lemma data0_shape z x : cell_shape (set_data0 z x) = cell_shape x.
Proof. unfold set_data0. destruct (c_data x) as [[|v t]|] eqn:D; auto. unfold cell_shape. cbn. now rewrite D. Qed.
Lemma k_set_table net pos z c e c' : set_table net pos z c = Ok (e, c') -> shape c' = shape c.
Proof.
  unfold set_table. intros K. bind1 K s P. destruct s as [e'|[[r cl] v]]; [injection K as <- <-; auto|]. bind1 K c1 P1. injection K as <- <-. eapply k_cell; [|exact P1]. apply data0_shape.
Qed.
Lemma k_write_table zs : forall net pos c e c', write_table zs net pos c = Ok (e, c') -> shape c' = shape c.
Proof.
  induction zs as [|z t IH]; intros net pos c e c' K; cbn [write_table] in K; [injection K as <- <-; auto|]. bind1 K x P. destruct x as [e1 c1]. apply k_set_table in P.
  destruct (is_ok e1); [apply IH in K; congruence|injection K as <- <-; auto].
Qed.
Lemma k_clear net : keeping (upd_net net clear_states).
Proof.
  intros c c' K. unfold upd_net in K. bind1 K nt P1. bind1 K nt' P2. unfold net_at in P1. destruct (x_net c) as [l|] eqn:N; [|discriminate]. injection K as <-.
  unfold nth_res in P1. destruct (nth_error l net) as [z|] eqn:Z1; [|discriminate]. injection P1 as ->.
  assert (S1 : net_shape nt' = net_shape nt).
  { unfold clear_states in P2. destruct (_ || _); [injection P2 as <-; auto|]. destruct (n_cells nt) as [rows|] eqn:C; [|discriminate]. bind1 P2 rows' P3. injection P2 as <-.
    unfold net_shape. cbn [n_en n_rows n_cols n_cells set_n_cells option_map]. rewrite C. cbn [option_map]. f_equal. f_equal.
    eapply map_first_map; [|exact P3]. intros a b H. eapply map_first_map; [|exact H]. intros x y H'. injection H' as <-. reflexivity. }
  unfold shape. cbn. rewrite N. cbn [option_map]. f_equal. f_equal. apply map_lset. intros a K. congruence.
Qed.
Lemma k_cron_clear js f : forall n, keeping (cron_clear f n js).
Proof.
  induction f as [|f IH]; intros n c c' K; cbn [cron_clear] in K; [injection K as <-; auto|]. bind1 K j P1. bind1 K c1 P2. apply IH in K. rewrite K. destruct (j_en j && j_auto j); [now apply k_bank in P2|injection P2 as <-; auto].
Qed.
Lemma k_cron_eval js t f : forall n, keeping (cron_jobs_eval f n t js).
Proof.
  induction f as [|f IH]; intros n c c' K; cbn [cron_jobs_eval] in K; [injection K as <-; auto|]. bind1 K j P1. bind1 K c1 P2. apply IH in K. rewrite K. destruct (j_en j); [|injection P2 as <-; auto].
  bind1 P2 v P3. destruct v; [|injection P2 as <-; auto]. bind1 P2 b P4. now apply k_bank in P2.
Qed.
Lemma k_upd_in f : (forall m m', f m = Ok m' -> in_shape m' = in_shape m) -> keeping (upd_in f).
Proof. intros F c c' K. unfold upd_in in K. destruct (is_null (x_in c)); [injection K as <-; auto|]. bind1 K l P. injection K as <-. apply (pmap_first_map in_shape) in P; auto. unfold shape. cbn. now rewrite P. Qed.
Lemma k_upd_out f : (forall m m', f m = Ok m' -> out_shape m' = out_shape m) -> keeping (upd_out f).
Proof. intros F c c' K. unfold upd_out in K. destruct (is_null (x_out c)); [injection K as <-; auto|]. bind1 K l P. injection K as <-. apply (pmap_first_map out_shape) in P; auto. unfold shape. cbn. now rewrite P. Qed.
Ltac lens := repeat match goal with
  | H : pmemcpy _ _ _ = Ok _ |- _ => apply memcpy_len in H | H : pmemset0 _ _ = Ok _ |- _ => apply memset_len in H
  | H : copy_if _ _ _ = Ok _ |- _ => apply copy_if_len in H | H : zero_if _ _ = Ok _ |- _ => apply zero_if_len in H end.
Ltac mods K := repeat match type of K with
  | (if ?b then Ok _ else _) = Ok _ => destruct b; [injection K as <-; auto|] end.
Lemma in_hist_shape m m' : in_hist m = Ok m' -> in_shape m' = in_shape m.
Proof.
  unfold in_hist. intros K. mods K. bind1 K h P1. destruct (_ || _) in K; [injection K as <-|bind1 K w P2; injection K as <-]; lens; unfold in_shape; cbn in *; congruence.
Qed.
Lemma out_hist_shape m m' : out_hist m = Ok m' -> out_shape m' = out_shape m.
Proof.
  unfold out_hist. intros K. mods K. bind1 K h P1. destruct (_ || _) in K; [injection K as <-|bind1 K w P2; injection K as <-]; lens; unfold out_shape; cbn in *; congruence.
Qed.
Lemma out_revert_shape m m' : out_revert m = Ok m' -> out_shape m' = out_shape m.
Proof.
  unfold out_revert. intros K. mods K. bind1 K h P1. destruct (_ || _) in K; [injection K as <-|bind1 K w P2; injection K as <-]; lens; unfold out_shape; cbn in *; congruence.
Qed.
Lemma out_clear_shape m m' : out_clear m = Ok m' -> out_shape m' = out_shape m.
Proof.
  unfold out_clear. intros K. mods K. bind1 K h P1. destruct (_ || _) in K; [injection K as <-|bind1 K w P2; bind1 K qh P3; bind1 K wh P4; injection K as <-]; lens; unfold out_shape; cbn in *; congruence.
Qed.
Lemma out_save_shape m m' : out_save m = Ok m' -> out_shape m' = out_shape m.
Proof. unfold out_save. intros K. bind1 K h P1. bind1 K w P2. injection K as <-. lens. unfold out_shape. cbn in *. congruence. Qed.
Lemma k_save : keeping save_previous.
Proof.
  intros c c' K. unfold save_previous in K. cbv zeta in K. bind1 K a P1. bind1 K d P2. bind1 K r P3. bind1 K td P4. bind1 K tr P5. bind1 K o P6. injection K as <-. lens.
  assert (P7 : option_map (map out_shape) o = option_map (map out_shape) (x_out c)) by (destruct (is_null (x_out c)); [injection P6 as <-; auto|apply (pmap_first_map out_shape) in P6; auto; apply out_save_shape]).
  unfold shape, prev_shape. cbn. congruence.
Qed.
Lemma k_revert : keeping revert_memory.
Proof. intros c c' K. unfold revert_memory in K. cbv zeta in K. bind1 K a P1. bind1 K d P2. bind1 K r P3. bind1 K td P4. bind1 K tr P5. injection K as <-. lens. unfold shape, mem_shape. cbn. congruence. Qed.
Lemma k_reset : keeping reset_registers.
Proof.
  intros c c' K. unfold reset_registers in K. cbv zeta in K. bind1 K a P1. bind1 K t P2. bind1 K d P3. bind1 K r P4. injection K as <-. lens.
  assert (P7 : len t = len (x_tm c)).
  { destruct (is_null (x_tm c)); [injection P2 as <-; auto|]. apply (pmap_first_map (fun _ : timer => tt)) in P2; [now apply option_map_len in P2|auto]. }
  unfold shape, regs_shape. cbn. congruence.
Qed.
Lemma k_set_data_value r col i w c e c' : set_data_value r col i w c = Ok (e, c') -> shape c' = shape c.
Proof.
  unfold set_data_value. intros K. bind1 K v P.
  destruct (v_type v); try (injection K as <- <-; reflexivity);
    repeat first [ match type of K with (if ?b then _ else _) = Ok _ => destruct b end
                 | match type of K with rbind ?m _ = Ok _ => let x := fresh "x" in let P1 := fresh "P" in destruct m as [x| |] eqn:P1; cbn [rbind] in K; try discriminate K end ];
    try discriminate K; injection K as <- <-; auto;
    match goal with H : bk_put _ _ _ _ = Ok _ |- _ => now apply k_bank in H | H : in_put _ _ _ _ _ = Ok _ |- _ => now apply k_in in H | H : out_put _ _ _ _ _ = Ok _ |- _ => now apply k_out in H end.
Qed.

(** ** Two environments alike run alike *)

Local Open Scope m_scope.
Lemma shape_h c c' : shape c = shape c' -> x_h c = x_h c'. Proof. unfold shape. congruence. Qed.
Lemma shape_io c c' : shape c = shape c' -> x_io c = x_io c'. Proof. unfold shape. congruence. Qed.
Lemma shape_q c c' : shape c = shape c' -> x_q c = x_q c'. Proof. unfold shape. congruence. Qed.
Lemma shape_cell c c' n r col : shape c = shape c' -> peek c (LCell n r col) = peek c' (LCell n r col).
Proof.
  intros H. assert (N : option_map (map net_shape) (x_net c) = option_map (map net_shape) (x_net c')) by (unfold shape in H; congruence). clear H.
  cbn [peek]. unfold cell_of, row_of, net_of, elem. destruct (x_net c) as [l|], (x_net c') as [l'|]; try discriminate; [|reflexivity]. cbn [option_map] in N. injection N as N. cbn [obind].
  apply (f_equal (fun l => nth_error l n)) in N. rewrite !nth_error_map in N. destruct (nth_error l n) as [t|], (nth_error l' n) as [t'|]; try discriminate; [|reflexivity]. cbn [option_map obind] in *.
  assert (R : option_map (map (map cell_shape)) (n_cells t) = option_map (map (map cell_shape)) (n_cells t')) by (unfold net_shape in N; congruence). clear N.
  destruct (n_cells t) as [rs|], (n_cells t') as [rs'|]; try discriminate; [|reflexivity]. cbn [option_map obind] in *. injection R as R.
  apply (f_equal (fun l => nth_error l r)) in R. rewrite !nth_error_map in R. destruct (nth_error rs r) as [w|], (nth_error rs' r) as [w'|]; try discriminate; [|reflexivity]. cbn [option_map obind] in *. injection R as R.
  apply (f_equal (fun l => nth_error l col)) in R. rewrite !nth_error_map in R. destruct (nth_error w col) as [x|], (nth_error w' col) as [x'|]; try discriminate; [|reflexivity]. cbn [option_map] in *.
  unfold cell_shape in R. congruence.
Qed.
Lemma shape_for c c' : shape c = shape c' -> x_for c = x_for c'. Proof. unfold shape. congruence. Qed.
Lemma pget_at {A} (p : option (list A)) z a : pget p z = Ok a -> elem p (Z.to_nat z) = Some a.
Proof. unfold pget, elem. destruct p as [l|]; [|discriminate]. unfold lget. destruct (idx_ok l z); [|discriminate]. cbn [obind]. destruct (nth_error l (Z.to_nat z)); congruence. Qed.

Section Alike.
Variables (c0 : ctx) (E E' : env).
Hypothesis AL : alike c0 E E'.
Hypothesis KS : keeps_shape c0 E.
Hypothesis HM : h_millis (x_h c0) = true.
Variable tr0 : list event.
Definition Jc (c : ctx) : Prop := shape c = shape c0.
Definition J (s : st) : Prop := Jc (s_ctx s) /\ exists l, s_tr s = l ++ tr0 /\ Forall (called c0) l.
Lemma j_ctx s c : J s -> Jc c -> J (mk_st c (s_tr s)).
Proof. intros [_ H] K. split; auto. Qed.
Lemma j_call s ev c : J s -> due (s_ctx s) ev -> Jc c -> J (mk_st c (ev :: s_tr s)).
Proof. intros [H (l & L1 & L2)] D K. split; auto. exists (ev :: l). cbn [s_tr app]. rewrite L1. split; auto. constructor; auto. exists (s_ctx s). auto. Qed.
Definition agat {A} (s : st) (m m' : M A) : Prop := m s = m' s /\ forall a s', m s = Ok (a, s') -> J s'.
Definition ag {A} (m m' : M A) : Prop := forall s, J s -> agat s m m'.

Lemma a_ret {A} (a : A) s : J s -> agat s (ret a) (ret a).
Proof. intros H. split; auto. intros b s' K. injection K as <- <-. auto. Qed.
Lemma a_bad {A} u s : agat s (@bad A u) (bad u).
Proof. split; auto. intros a s' K. discriminate. Qed.
Lemma a_nofuel {A} s : agat s (@nofuel A) nofuel.
Proof. split; auto. intros a s' K. discriminate. Qed.
Lemma a_bind {A B} (m m' : M A) (k k' : A -> M B) s : agat s m m' -> (forall a s', J s' -> agat s' (k a) (k' a)) -> agat s (bind m k) (bind m' k').
Proof.
  intros [H1 H2] K. unfold agat, bind. rewrite <- H1. destruct (m s) as [[a s1]|u|] eqn:M1.
  - apply (K a s1). eapply H2. reflexivity.
  - split; auto. intros b s' Q. discriminate.
  - split; auto. intros b s' Q. discriminate.
Qed.
Lemma a_getc {B} (k k' : ctx -> M B) s : agat s (k (s_ctx s)) (k' (s_ctx s)) -> agat s (bind getc k) (bind getc k').
Proof. intros H. exact H. Qed.
Lemma a_lift {A B} (r : res A) (k k' : A -> M B) s : (forall a, r = Ok a -> agat s (k a) (k' a)) -> agat s (bind (lift r) k) (bind (lift r) k').
Proof. intros H. unfold agat, bind, lift. destruct r as [a|u|]; [now apply (H a)| |]; split; auto; intros a s' K; discriminate. Qed.
Lemma a_lift1 {A} (r : res A) s : J s -> agat s (lift r) (lift r).
Proof. intros H. split; auto. intros a s' K. unfold lift in K. destruct r; try discriminate. injection K as <- <-. auto. Qed.
Lemma a_getc1 s : J s -> agat s getc getc.
Proof. intros H. split; auto. intros a s' K. injection K as <- <-. auto. Qed.
Lemma a_modc f s : J s -> (Jc (s_ctx s) -> Jc (f (s_ctx s))) -> agat s (modc f) (modc f).
Proof. intros H K. split; auto. intros a s' Q. injection Q as <- <-. apply j_ctx; auto. apply K, H. Qed.
Lemma a_updc f s : keeping f -> J s -> agat s (updc f) (updc f).
Proof. intros F H. split; auto. intros a s' Q. unfold updc in Q. destruct (f (s_ctx s)) as [c| |] eqn:FC; try discriminate. injection Q as <- <-. apply j_ctx; auto. apply F in FC. destruct H. unfold Jc in *. congruence. Qed.
Lemma a_emit ev s : J s -> due (s_ctx s) ev -> agat s (emit E ev) (emit E' ev).
Proof.
  intros H D. pose proof (proj1 H) as HC. unfold agat, emit. rewrite <- (al_act _ _ _ AL _ _ _ HC D). split; auto. intros a s' Q. injection Q as <- <-. apply j_call; auto.
  now apply (ks_act _ _ KS).
Qed.
Lemma a_millis s : J s -> agat s (millis E) (millis E').
Proof.
  intros H. unfold agat, millis. cbv zeta. rewrite <- (al_clock _ _ _ AL). apply (a_bind (emit E _) (emit E' _)).
  - apply a_emit; auto. simpl. now rewrite (shape_h _ _ (proj1 H)).
  - intros [] s' H'. now apply a_ret.
Qed.
Lemma a_localtime s : J s -> agat s (localtime E) (localtime E').
Proof. intros H. unfold agat, localtime. rewrite <- (al_time _ _ _ AL). split; auto. intros a s' Q. injection Q as <- <-. apply j_call; auto; [exact I|apply H]. Qed.
Lemma a_panic s : J s -> agat s (panic E) (panic E').
Proof. intros H. apply a_getc. destruct (h_panic (x_h (s_ctx s))) eqn:P; [now apply a_emit|now apply a_ret]. Qed.
Lemma a_foreign id col row s : J s -> due (s_ctx s) (EvForeign id col row) -> agat s (call_foreign E id col row) (call_foreign E' id col row).
Proof.
  intros H D. pose proof (proj1 H) as HC. unfold agat, call_foreign. pose proof (ks_foreign _ _ KS (length (s_tr s)) _ _ _ _ HC D) as K. rewrite <- (al_foreign _ _ _ AL _ _ _ _ _ HC D).
  destruct (fexec E (length (s_tr s)) id col row (s_ctx s)) as [e c]. split; auto. intros a s' Q. injection Q as <- <-. apply j_call; auto.
Qed.
Lemma a_set_data r col i w s : J s -> agat s (set_data r col i w) (set_data r col i w).
Proof.
  intros H. split; auto. intros a s' Q. unfold set_data in Q. destruct (set_data_value r col i w (s_ctx s)) as [[e c]| |] eqn:K; try discriminate. injection Q as <- <-.
  apply k_set_data_value in K. apply j_ctx; auto. destruct H. unfold Jc in *. congruence.
Qed.
Lemma a_state x s : J s -> agat s (set_state x) (set_state x).
Proof. intros H. now apply a_modc. Qed.
Lemma a_err e s : J s -> agat s (set_err e) (set_err e).
Proof. intros H. now apply a_modc. Qed.

Hint Resolve k_bank k_in k_out k_tm k_put k_clear k_cron_clear k_cron_eval k_save k_revert k_reset : kee.
Ltac ag1 := first
  [ apply a_ret; assumption | apply a_bad | apply a_nofuel | apply a_millis; assumption | apply a_localtime; assumption | apply a_panic; assumption
  | apply a_set_data; assumption | apply a_state; assumption | apply a_err; assumption | apply a_lift1; assumption | apply a_getc1; assumption
  | apply a_updc; [solve [eauto with kee]|assumption] | apply a_modc; [assumption|solve [intros; assumption]]
  | apply a_getc | apply a_lift; intros ? ? | apply a_bind; [|intros ? ? ?] ].
Ltac ags := repeat (cbv beta; cbv zeta; first
  [ ag1
  | match goal with
    | H : forall _, _ |- agat _ _ _ => solve [apply H; assumption]
    | |- agat _ (if ?b then _ else _) _ => destruct b eqn:?
    | |- agat _ (match ?b with _ => _ end) _ => destruct b eqn:?
    | |- agat _ (let (_, _) := ?b in _) _ => destruct b eqn:? end ]).

Ltac agw L := intros; repeat (cbv beta; cbv zeta; first [ solve [L] | ag1
  | match goal with
    | H : forall _, _ |- agat _ _ _ => solve [apply H; assumption]
    | |- agat _ (if ?b then _ else _) _ => destruct b eqn:?
    | |- agat _ (match ?b with _ => _ end) _ => destruct b eqn:?
    | |- agat _ (let (_, _) := ?b in _) _ => destruct b eqn:? end ]).
Lemma g_gdv r col i s : J s -> agat s (get_data_value E r col i) (get_data_value E' r col i).
Proof. intros H. unfold get_data_value. ags. Qed.
Ltac agi := agw ltac:(apply g_gdv; assumption).
Lemma g_left col row s : J s -> agat s (mleft col row) (mleft col row).
Proof. unfold mleft. agi. Qed.
Lemma g_state col row s : J s -> agat s (mstate col row) (mstate col row).
Proof. unfold mstate. agi. Qed.
Lemma g_put col row b s : J s -> agat s (mput col row b) (mput col row b).
Proof. unfold mput. agi. Qed.
Lemma g_prev col row i s : J s -> agat s (mprev col row i) (mprev col row i).
Proof. unfold mprev. agi. Qed.
Lemma g_idx col row s : J s -> agat s (midx col row) (midx col row).
Proof. unfold midx. agi. Qed.
Lemma g_preset col row s : J s -> agat s (mpreset col row) (mpreset col row).
Proof. unfold mpreset. agi. Qed.
Lemma g_factor col row s : J s -> agat s (mfactor col row) (mfactor col row).
Proof. unfold mfactor. agi. Qed.
Ltac agjs := first [apply g_gdv; assumption | apply g_left; assumption | apply g_state; assumption | apply g_put; assumption | apply g_prev; assumption
  | apply g_idx; assumption | apply g_preset; assumption | apply g_factor; assumption ].
Ltac agj := agw ltac:(agjs).
Lemma g_flag b col row s : J s -> agat s (mflag b col row) (mflag b col row).
Proof. unfold mflag. agj. Qed.
Lemma g_flag_set b col row v s : J s -> agat s (mflag_set b col row v) (mflag_set b col row v).
Proof. unfold mflag_set. agj. Qed.
Lemma g_count col row s : J s -> agat s (mcount col row) (mcount col row).
Proof. unfold mcount. agj. Qed.
Lemma g_count_set col row v s : J s -> agat s (mcount_set col row v) (mcount_set col row v).
Proof. unfold mcount_set. agj. Qed.
Lemma g_ts col row s : J s -> agat s (mts col row) (mts col row).
Proof. unfold mts. agj. Qed.
Lemma g_ts_set col row v s : J s -> agat s (mts_set col row v) (mts_set col row v).
Proof. unfold mts_set. agj. Qed.
Lemma g_acc_set col row v s : J s -> agat s (macc_set col row v) (macc_set col row v).
Proof. unfold macc_set. agj. Qed.
Ltac agks := first [apply g_gdv; assumption | apply g_left; assumption | apply g_state; assumption | apply g_put; assumption | apply g_prev; assumption
  | apply g_idx; assumption | apply g_preset; assumption | apply g_factor; assumption | apply g_flag; assumption | apply g_flag_set; assumption | apply g_count; assumption
  | apply g_count_set; assumption | apply g_ts; assumption | apply g_ts_set; assumption | apply g_acc_set; assumption ].
Ltac agk := agw ltac:(agks).
Lemma g_reset col row s : J s -> agat s (timer_reset col row) (timer_reset col row).
Proof. unfold timer_reset. agk. Qed.
Lemma g_start col row s : J s -> agat s (timer_start E col row) (timer_start E' col row).
Proof. unfold timer_start. agk. Qed.
Lemma g_elapsed col row s : J s -> agat s (timer_elapsed E col row) (timer_elapsed E' col row).
Proof. unfold timer_elapsed. agk. Qed.
Lemma g_run col row s : J s -> agat s (timer_run E col row) (timer_run E' col row).
Proof. unfold timer_run. agw ltac:(first [agks | apply g_elapsed; assumption]). Qed.
Ltac agl := agw ltac:(first [agks | apply g_run; assumption | apply g_start; assumption | apply g_reset; assumption]).
Lemma g_chk z s : J s -> agat s (chk z) (chk z).
Proof. unfold chk. agk. Qed.
Lemma g_binop op col row : (forall a b s, J s -> agat s (op a b) (op a b)) -> forall s, J s -> agat s (binop E op col row) (binop E' op col row).
Proof. intros F. unfold binop. agk. Qed.
Lemma g_shiftop op col row s : J s -> agat s (shiftop E op col row) (shiftop E' op col row).
Proof. unfold shiftop. agk. Qed.
Lemma g_cmpop op col row s : J s -> agat s (cmpop E op col row) (cmpop E' op col row).
Proof. unfold cmpop. agk. Qed.
Lemma g_cond col row s : J s -> agat s (counter_reset_cond col row) (counter_reset_cond col row).
Proof. unfold counter_reset_cond. agk. Qed.
Lemma g_creset col row z s : J s -> agat s (counter_reset col row z) (counter_reset col row z).
Proof. unfold counter_reset. agk. Qed.
Lemma g_ccount col row z s : J s -> agat s (counter_count col row z) (counter_count col row z).
Proof. unfold counter_count. agk. Qed.
Ltac agc := agw ltac:(first [agks | apply g_cond; assumption | apply g_creset; assumption | apply g_ccount; assumption]).
Lemma g_move col row s : J s -> agat s (fn_MOVE E col row) (fn_MOVE E' col row).
Proof. unfold fn_MOVE, move_src. agk. Qed.
Lemma cell_there n nt r col (x : cell) c : net_at n c = Ok nt -> cell_in nt r col = Ok x -> cell_of c n r col = Some x.
Proof.
  unfold net_at, cell_in, cell_of, row_of, net_of, nth_res, elem. destruct (x_net c) as [l|]; [|discriminate]. cbn [obind]. destruct (nth_error l n) as [nt'|]; [|discriminate]. intros K. injection K as ->. cbn [obind].
  destruct (n_cells nt) as [rows|]; [|discriminate]. cbn [obind]. destruct (nth_error rows r) as [rw|]; [|discriminate]. cbn [rbind obind]. destruct (nth_error rw col); [|discriminate]. congruence.
Qed.
Definition at_cell (row col : nat) (n : nat) (c : ctx) : Prop := peek c LExec = Some (VExec (Some n)) /\ peek c (LCell n row col) <> None.
Lemma at_cell_keeps row col n c c' : shape c' = shape c -> peek c' LExec = peek c LExec -> at_cell row col n c -> at_cell row col n c'.
Proof. intros H X [H1 H2]. split; [now rewrite X|]. now rewrite (shape_cell _ _ n row col H). Qed.
Definition kx {A} (m : M A) : Prop := forall s a s', J s -> m s = Ok (a, s') -> J s' /\ peek (s_ctx s') LExec = peek (s_ctx s) LExec.
Lemma kx_ret {A} (a : A) : kx (ret a).
Proof. intros s b s' H K. injection K as <- <-. auto. Qed.
Lemma kx_lift {A} (r : res A) : kx (lift r).
Proof. intros s b s' H K. unfold lift in K. destruct r; try discriminate. injection K as <- <-. auto. Qed.
Lemma kx_getc : kx getc.
Proof. intros s b s' H K. injection K as <- <-. auto. Qed.
Lemma kx_err e : kx (set_err e).
Proof. intros s b s' H K. injection K as <- <-. split; [apply j_ctx; [auto|apply H]|auto]. Qed.
Lemma kx_state u : kx (set_state u).
Proof. intros s b s' H K. injection K as <- <-. split; [apply j_ctx; [auto|apply H]|auto]. Qed.
Lemma kx_panic : kx (panic E).
Proof.
  intros s b s' H K. pose proof (a_panic s H) as [_ G]. split; [eapply G; exact K|]. unfold panic, bind, getc in K. destruct (h_panic (x_h (s_ctx s))) eqn:HP; [|injection K as <- <-; auto].
  unfold emit in K. injection K as <- <-. apply (ks_exec _ _ KS); [apply H|exact HP].
Qed.
Lemma kx_bind {A B} (m : M A) (k : A -> M B) : kx m -> (forall a, kx (k a)) -> kx (bind m k).
Proof.
  intros M1 K1 s b s' H K. unfold bind in K. destruct (m s) as [[a s1]| |] eqn:MS; try discriminate. destruct (M1 _ _ _ H MS) as [H1 X1]. destruct (K1 a _ _ _ H1 K) as [H2 X2]. split; auto. congruence.
Qed.
Lemma kx_gdv r col i : kx (get_data_value E r col i).
Proof.
  unfold get_data_value. repeat (cbv zeta; first [apply kx_ret|apply kx_lift|apply kx_getc|apply kx_err|apply kx_state|apply kx_panic|apply kx_bind; [|intros ?]
    | match goal with |- kx (if ?b then _ else _) => destruct b | |- kx (match ?b with _ => _ end) => destruct b end]).
Qed.
Lemma gdv_at row col n i s z s' : J s -> at_cell row col n (s_ctx s) -> get_data_value E row col i s = Ok (z, s') -> at_cell row col n (s_ctx s').
Proof.
  intros H A K. pose proof (g_gdv row col i s H) as [_ G]. apply G in K as H'. apply (at_cell_keeps row col n (s_ctx s)); auto; [destruct H, H'; unfold Jc in *; congruence|].
  apply (kx_gdv row col i) in K; auto. apply K.
Qed.
Lemma a_bindk {A B} (m m' : M A) (k k' : A -> M B) s : agat s m m' -> (forall a s', m s = Ok (a, s') -> J s' -> agat s' (k a) (k' a)) -> agat s (bind m k) (bind m' k').
Proof.
  intros [H1 H2] K. unfold agat, bind. rewrite <- H1. destruct (m s) as [[a s1]|u|] eqn:M1.
  - apply (K a s1); auto. eapply H2. reflexivity.
  - split; auto. intros b s' Q. discriminate.
  - split; auto. intros b s' Q. discriminate.
Qed.
Lemma g_foreign col row n s : at_cell row col n (s_ctx s) -> J s -> agat s (fn_FOREIGN E col row) (fn_FOREIGN E' col row).
Proof.
  intros A H. unfold fn_FOREIGN. apply a_bindk; [now apply g_gdv|]. intros v s1 G1 H1. apply a_getc. cbv beta. destruct (_ <=? _); [now apply a_ret|]. apply a_bindk; [now apply g_gdv|].
  intros v2 s2 G2 H2. apply a_getc. apply a_lift. intros u P. apply a_foreign; auto. cbn [due]. apply pget_at in P. split; [congruence|]. exists n.
  eapply gdv_at; [exact H1| |exact G2]. eapply gdv_at; [exact H| |exact G1]. exact A.
Qed.
Lemma g_tmove col row s : J s -> agat s (fn_TMOVE E col row) (fn_TMOVE E' col row).
Proof.
  intros H. unfold fn_TMOVE. cbv zeta. do 5 (apply a_bind; [now apply g_gdv|]; intros; cbv beta). match goal with |- agat _ (if ?b then _ else _) _ => destruct b end; [agk|].
  apply a_getc. match goal with HS : J ?s |- agat ?s _ _ => assert (JS : Jc (s_ctx s)) by apply HS; remember (s_ctx s) as c eqn:EC in JS |- *; clear EC end. agk.
  match goal with W : write_table _ _ _ _ = Ok (_, _), J1 : Jc c |- _ => apply k_write_table in W; assert (JN : Jc c1) by (unfold Jc in *; congruence) end. apply a_modc; auto.
Qed.
Lemma g_function i f f' col row n s : ladder_function E i = Some f -> ladder_function E' i = Some f' -> at_cell row col n (s_ctx s) -> J s -> agat s (f col row) (f' col row).
Proof.
  intros F F' AC H. destruct i; try discriminate F; cbn [ladder_function] in F, F'; injection F as <-; injection F' as <-;
    first [ now apply g_move | now apply (g_foreign col row n) | now apply g_tmove | now apply g_shiftop | now apply g_cmpop
          | apply g_binop; [intros; first [now apply g_chk | agk]|assumption]
          | unfold fn_NOP, fn_CONN, fn_NEG, fn_NO, fn_NC, fn_RE, fn_FE, fn_COIL, fn_COILL, fn_COILU, fn_SUB, fn_DIV, fn_NOT; agw ltac:(first [agks | apply g_chk; assumption]); fail
          | unfold fn_TON, fn_TOF, fn_TP; agl; fail | unfold fn_CTU, fn_CTD; agc; fail | idtac ].
Qed.

Lemma g_cell row col s : J s -> agat s (mcell row col) (mcell row col).
Proof. unfold mcell. agk. Qed.
Lemma g_rows s : J s -> agat s mrows mrows.
Proof. unfold mrows. agk. Qed.
Lemma g_cols s : J s -> agat s mcols mcols.
Proof. unfold mcols. agk. Qed.
Lemma g_cycles cc s : J s -> agat s (check_cycles E cc) (check_cycles E' cc).
Proof. unfold check_cycles. agk. Qed.
Lemma g_skip rows col : forall cc s, J s -> agat s (skip_loop E rows col cc) (skip_loop E' rows col cc).
Proof. induction rows as [|gr t IH]; cbn [skip_loop]; [agk|]. intros cc s H. agw ltac:(first [apply g_cycles; assumption|apply g_cell; assumption]). Qed.
Lemma functions_alike i : match ladder_function E i, ladder_function E' i with Some _, Some _ => True | None, None => True | _, _ => False end.
Proof. destruct i; exact I. Qed.
Lemma g_exec net col row s : J s -> agat s (exec_cell E net col row) (exec_cell E' net col row).
Proof.
  intros H. unfold exec_cell. apply a_bindk; [now apply g_cell|]. intros x s1 G1 H1. apply a_bindk; [apply a_modc; auto|]. intros [] s2 G2 H2. destruct (is_multi (c_code x)); [now apply a_ret|].
  assert (AC : exists n, at_cell row col n (s_ctx s2)).
  { unfold modc in G2. injection G2 as <-. unfold mcell, bind, getc, lift in G1. destruct (ex_cell row col (s_ctx s)) as [y| |] eqn:X; try discriminate. injection G1 as -> <-.
    unfold ex_cell in X. destruct (x_exec (s_ctx s)) as [n|] eqn:EX; [|discriminate]. destruct (net_at n (s_ctx s)) as [nt| |] eqn:NT; cbn [rbind] in X; try discriminate. exists n.
    split; cbn [peek s_ctx set_x_last x_exec]; [now rewrite EX|]. change (cell_of (set_x_last (mk_lastinfo (u8 (ins_code (c_code x))) net col row E_OK) (s_ctx s)) n row col) with (cell_of (s_ctx s) n row col).
    rewrite (cell_there _ _ _ _ _ _ NT X). discriminate. }
  destruct AC as [n AC].
  pose proof (functions_alike (c_code x)) as FA. destruct (ladder_function E (c_code x)) as [f|] eqn:F; destruct (ladder_function E' (c_code x)) as [f'|] eqn:F'; try contradiction; [|agk].
  apply a_bind; [eapply g_function; eauto|]. intros e s3 H3. apply a_bind; [now apply a_err|]. intros [] s4 H4. destruct (is_ok e); [|now apply a_ret]. apply a_getc. apply a_bind; [|intros; now apply a_ret].
  destruct (h_instr (x_h (s_ctx s4))) eqn:P; [now apply a_emit|now apply a_ret].
Qed.
Lemma g_exec_rows net col rows : forall s, J s -> agat s (exec_rows E net col rows) (exec_rows E' net col rows).
Proof. induction rows as [|gr t IH]; cbn [exec_rows]; [agk|]. intros s H. agw ltac:(apply g_exec; assumption). Qed.
Lemma g_or col rows : forall acc s, J s -> agat s (or_states col rows acc) (or_states col rows acc).
Proof. induction rows as [|gr t IH]; cbn [or_states]; [agk|]. intros acc s H. agw ltac:(apply g_state; assumption). Qed.
Lemma g_puts col rows b : forall s, J s -> agat s (put_states col rows b) (put_states col rows b).
Proof. induction rows as [|gr t IH]; cbn [put_states]; [agk|]. intros s H. agw ltac:(apply g_put; assumption). Qed.
Lemma g_column net g power col cc s : J s -> agat s (scan_column E net g power col cc) (scan_column E' net g power col cc).
Proof. unfold scan_column. intros H. agw ltac:(first [apply g_skip; assumption|apply g_exec_rows; assumption|apply g_or; assumption|apply g_puts; assumption]). Qed.
Lemma g_columns net g power f : forall col cc s, J s -> agat s (scan_columns E f net g power col cc) (scan_columns E' f net g power col cc).
Proof. induction f as [|f IH]; cbn [scan_columns]; intros col cc s H; agw ltac:(first [apply g_cols; assumption|apply g_column; assumption]). Qed.
Lemma g_rung net row cc s : J s -> agat s (scan_rung E net row cc) (scan_rung E' net row cc).
Proof.
  unfold scan_rung. intros H. apply a_bind; [now apply g_cycles|]. intros go s1 H1. destruct go; [|now apply a_ret]. apply a_bind; [now apply g_cell|]. intros x s2 H2. destruct (is_multi (c_code x)); [now apply a_ret|].
  apply a_getc. apply a_lift. intros nt N. apply a_lift. intros ge G. apply a_lift. intros lo L. apply a_bind; [now apply g_columns|]. intros [cc'|] s3 H3; [|now apply a_ret].
  apply a_getc. apply a_bind; [|intros; now apply a_ret]. destruct (h_scan_end (x_h (s_ctx s3))) eqn:P; [now apply a_emit|now apply a_ret].
Qed.
Lemma g_scan_rows net f : forall row cc s, J s -> agat s (scan_rows E f net row cc) (scan_rows E' f net row cc).
Proof. induction f as [|f IH]; cbn [scan_rows]; intros row cc s H; agw ltac:(first [apply g_rows; assumption|apply g_rung; assumption]). Qed.
Lemma g_network net s : J s -> agat s (scan_network E net) (scan_network E' net).
Proof. unfold scan_network. intros H. agw ltac:(apply g_scan_rows; assumption). Qed.
Lemma g_networks f : forall net s, J s -> agat s (scan_networks E f net) (scan_networks E' f net).
Proof. induction f as [|f IH]; cbn [scan_networks]; intros net s H; agw ltac:(apply g_network; assumption). Qed.
Lemma g_cron s : J s -> agat s (scan_cron E) (scan_cron E').
Proof. unfold scan_cron, cron_eval. agk. Qed.
Lemma g_scan s : J s -> agat s (ladder_scan E) (ladder_scan E').
Proof. unfold ladder_scan. intros H. agw ltac:(first [apply g_cron; assumption|apply g_networks; assumption]). Qed.

Lemma g_hook present ev s : (forall c, present (x_h c) = true -> due c ev) -> J s -> agat s (hook E present ev) (hook E' present ev).
Proof. intros D H. apply a_getc. destruct (present (x_h (s_ctx s))) eqn:P; [apply a_emit; auto|now apply a_ret]. Qed.
Lemma g_stats s : J s -> agat s (scan_time E) (scan_time E').
Proof. unfold scan_time. agk. Qed.
Lemma g_padding s : J s -> agat s (padding E) (padding E').
Proof.
  intros H. apply a_getc. cbv zeta. unfold agat. destruct (0 <? si_target _); cbn [andb]; [|now apply a_ret]. destruct (si_actual _ <? _) eqn:P2; cbn [andb]; [|now apply a_ret].
  destruct (h_delay (x_h (s_ctx s))) eqn:P3; [|now apply a_ret]. apply a_emit; auto. simpl. split; auto. right. apply Z.ltb_lt in P2. lia.
Qed.
Lemma g_read f : forall n s, J s -> agat s (read_loop E f n) (read_loop E' f n).
Proof.
  induction f as [|f IH]; cbn [read_loop]; intros n s H; apply a_getc; destruct (Nat.ltb_spec n (io_rq (x_io (s_ctx s)))); try apply a_nofuel; try now apply a_ret.
  apply a_lift. intros b P. destruct b; [|agk]. apply a_bind; [|intros [] s1 H1; now apply IH]. apply a_emit; auto. simpl. split; auto. apply pget_at in P. now rewrite Nat2Z.id in P.
Qed.
Lemma g_write f : forall n s, J s -> agat s (write_loop E f n) (write_loop E' f n).
Proof.
  induction f as [|f IH]; cbn [write_loop]; intros n s H; apply a_getc; destruct (Nat.ltb_spec n (io_wq (x_io (s_ctx s)))); try apply a_nofuel; try now apply a_ret.
  apply a_lift. intros b P. destruct b; [|agk]. apply a_bind; [|intros [] s1 H1; now apply IH]. apply a_emit; auto. simpl. split; auto. apply pget_at in P. rewrite Nat2Z.id in P. split; auto.
  intros m K. unfold elem in K. unfold handed. destruct (x_out (s_ctx s)) as [l|]; [|discriminate]. cbn [obind] in K. now rewrite K.
Qed.
Lemma g_reads s : J s -> agat s (read_inputs E) (read_inputs E').
Proof. unfold read_inputs. intros H. agw ltac:(apply g_read; assumption). Qed.
Lemma g_writes s : J s -> agat s (write_outputs E) (write_outputs E').
Proof. unfold write_outputs. intros H. agw ltac:(apply g_write; assumption). Qed.
Lemma k_out_revert : keeping (upd_out out_revert). Proof. apply k_upd_out, out_revert_shape. Qed.
Lemma k_out_clear : keeping (upd_out out_clear). Proof. apply k_upd_out, out_clear_shape. Qed.
Lemma k_out_hist : keeping (upd_out out_hist). Proof. apply k_upd_out, out_hist_shape. Qed.
Lemma k_in_hist : keeping (upd_in in_hist). Proof. apply k_upd_in, in_hist_shape. Qed.
Hint Resolve k_out_revert k_out_clear k_out_hist k_in_hist : kee.
Ltac agh := first [apply g_writes; assumption|apply g_reads; assumption|apply g_stats; assumption|apply g_padding; assumption|apply g_scan; assumption
  |apply g_hook; [intros c Hc; exact Hc|assumption]].
Ltac agt := agw ltac:(agh).
Lemma g_fault s : J s -> agat s (fault_path E) (fault_path E').
Proof. unfold fault_path. intros H. agt. Qed.
Lemma g_normal s : J s -> agat s (normal_path E) (normal_path E').
Proof. unfold normal_path. intros H. agt. Qed.
Lemma g_guard n b s : J s -> agat s (null_guard E n b) (null_guard E' n b).
Proof. unfold null_guard. agk. Qed.
Lemma g_cycle s : J s -> agat s (cycle E) (cycle E').
Proof. unfold cycle. intros H. agw ltac:(first [agh|apply g_guard; assumption|apply g_fault; assumption|apply g_normal; assumption]). Qed.
Lemma g_wait n : forall s, J s -> agat s (wait E n) (wait E' n).
Proof.
  induction n as [|n IH]; cbn [wait]; intros s H; apply a_getc; cbv beta; [now apply a_ret|]. destruct (lstate_eqb _ S_RUNNING); [now apply a_ret|]. destruct (lstate_eqb _ _); [now apply a_ret|].
  apply a_bind; [|intros; now apply IH]. apply a_getc. destruct (h_delay (x_h (s_ctx s))) eqn:P; [|agk]. apply a_emit; auto. simpl. auto.
Qed.
Lemma g_timeout b s : J s -> agat s (wait_timeout E b) (wait_timeout E' b).
Proof. unfold wait_timeout. agk. Qed.
Lemma g_loop f : forall s, J s -> agat s (task_loop E f) (task_loop E' f).
Proof.
  induction f as [|f IH]; cbn [task_loop]; intros s H; apply a_getc; cbv beta; destruct (lstate_eqb _ S_EXIT_TSK); try now apply a_ret.
  apply a_bind; [now apply g_wait|]. intros [b|] s1 H1; [|now apply a_ret]. apply a_bind; [now apply g_timeout|]. intros [] s2 H2. apply a_getc. cbv beta.
  destruct (lstate_eqb _ S_RUNNING); [|now apply IH]. apply a_bind; [now apply g_cycle|]. intros [|] s3 H3; [now apply IH|now apply a_ret].
Qed.
Lemma g_task f s : J s -> agat s (ladder_task E f) (ladder_task E' f).
Proof.
  unfold ladder_task. intros H. apply a_getc. apply a_lift. intros g G. destruct g; [agk|]. apply a_bind; [now apply g_loop|]. intros r s1 H1.
  destruct r; try now apply a_ret. apply a_bind; [apply g_hook; auto|]. intros; now apply a_ret.
Qed.
End Alike.
