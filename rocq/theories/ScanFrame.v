(** What a scan may change and that it always ends, for arbitrary contexts. *)
From Verif Require Export FrameInstr.

(** ** Clearing the power of a network *)

Lemma map_first_spec {A} n (f : A -> res A) l l' : map_first n f l = Ok l' ->
  length l' = length l /\ (n <= length l)%nat /\
  forall i x, nth_error l i = Some x ->
    ((i < n)%nat -> exists y, f x = Ok y /\ nth_error l' i = Some y) /\ ((n <= i)%nat -> nth_error l' i = Some x).
Proof.
  revert l l'. induction n as [|n IH]; intros l l' H; simpl in H.
  - injection H as <-. repeat split; [lia|lia|auto].
  - destruct l as [|x t]; [discriminate|]. apply rbind_inv in H as (y & Hy & H). apply rbind_inv in H as (t' & Ht & H).
    injection H as <-. destruct (IH _ _ Ht) as (L & N & S). simpl. split; [lia|]. split; [lia|].
    intros [|i] z Z; simpl in *.
    + injection Z as <-. split; [eauto|lia].
    + destruct (S i z Z) as [S1 S2]. split; intros; [apply S1|apply S2]; lia.
Qed.
Lemma map_first_nf {A} n (f : A -> res A) l : (forall x, f x <> NoFuel) -> map_first n f l <> NoFuel.
Proof.
  intros F. revert l. induction n as [|n IH]; intros l; simpl; [discriminate|]. destruct l; [discriminate|].
  destruct (f a) eqn:K; simpl; try discriminate; [|now apply F in K]. destruct (map_first n f l) eqn:M; simpl; try discriminate.
  now apply IH in M.
Qed.
Lemma map_first_ok {A} n (f : A -> res A) l : (n <= length l)%nat -> (forall x, In x l -> exists y, f x = Ok y) -> exists l', map_first n f l = Ok l'.
Proof.
  revert l. induction n as [|n IH]; intros l L F; simpl; [eauto|]. destruct l as [|x t]; [simpl in L; lia|].
  destruct (F x) as [y Hy]; [simpl; auto|]. rewrite Hy. simpl. destruct (IH t) as [t' Ht]; [simpl in L; lia|intros; apply F; simpl; auto|].
  rewrite Ht. simpl. eauto.
Qed.
Definition in_rect (nt : network) (r col : nat) : bool := ((r <? n_rows nt) && (col <? n_cols nt))%nat.
Definition off_cell (nt : network) (r col : nat) (x : cell) : cell := if in_rect nt r col then set_c_state false x else x.
Lemma clear_states_spec nt nt' : clear_states nt = Ok nt' ->
  n_en nt' = n_en nt /\ n_rows nt' = n_rows nt /\ n_cols nt' = n_cols nt /\ size (n_cells nt') = size (n_cells nt)
  /\ (forall r, option_map (@length cell) (elem (n_cells nt') r) = option_map (@length cell) (elem (n_cells nt) r))
  /\ (forall r col, ncell nt' r col = option_map (off_cell nt r col) (ncell nt r col)).
Proof.
  unfold clear_states. intros H. destruct ((n_rows nt =? 0)%nat || (n_cols nt =? 0)%nat) eqn:Z0.
  - injection H as <-. repeat split; auto. intros r col. unfold off_cell, in_rect.
    replace ((r <? n_rows nt)%nat && (col <? n_cols nt)%nat) with false.
    + destruct (ncell nt r col); auto.
    + symmetry. apply andb_false_iff. apply orb_true_iff in Z0 as [Z0|Z0]; apply Nat.eqb_eq in Z0; rewrite Z0; [left|right]; now rewrite Nat.ltb_irrefl || apply Nat.ltb_ge; lia.
  - destruct (n_cells nt) as [rows|] eqn:C; [|discriminate]. apply rbind_inv in H as (rows' & M & H). injection H as <-.
    apply map_first_spec in M as (L & N & S). destruct nt as [en nr nc cs]; simpl in *. subst cs.
    split; [auto|]. split; [auto|]. split; [auto|]. split; [now rewrite L|]. split.
    + intros r. unfold elem, obind. destruct (nth_error rows r) as [rw|] eqn:R.
      * destruct (S r rw R) as [S1 S2]. destruct (Nat.lt_ge_cases r nr) as [K|K].
        -- destruct (S1 K) as (y & Y & ->). simpl. apply map_first_spec in Y as (Y & _). now rewrite Y.
        -- now rewrite (S2 K).
      * apply nth_error_None in R. rewrite <- L in R. apply nth_error_None in R. now rewrite R.
    + intros r col. unfold ncell, off_cell, in_rect, elem, obind. simpl.
      destruct (nth_error rows r) as [rw|] eqn:R.
      * destruct (S r rw R) as [S1 S2]. destruct (Nat.lt_ge_cases r nr) as [K|K].
        -- destruct (S1 K) as (y & Y & ->). apply map_first_spec in Y as (Y & _ & Y2).
           replace (r <? nr)%nat with true by (symmetry; now apply Nat.ltb_lt). simpl.
           destruct (nth_error rw col) as [x|] eqn:X.
           ++ destruct (Y2 col x X) as [Y3 Y4]. destruct (Nat.lt_ge_cases col nc) as [Q|Q].
              ** destruct (Y3 Q) as (z & Hz & ->). injection Hz as <-. simpl. now replace (col <? nc)%nat with true by (symmetry; now apply Nat.ltb_lt).
              ** rewrite (Y4 Q). simpl. now replace (col <? nc)%nat with false by (symmetry; now apply Nat.ltb_ge).
           ++ apply nth_error_None in X. rewrite <- Y in X. apply nth_error_None in X. now rewrite X.
        -- rewrite (S2 K). replace (r <? nr)%nat with false by (symmetry; now apply Nat.ltb_ge). simpl. now destruct (nth_error rw col).
      * apply nth_error_None in R. rewrite <- L in R. apply nth_error_None in R. now rewrite R.
Qed.
Lemma clear_states_nf nt : clear_states nt <> NoFuel.
Proof. unfold clear_states. destruct (_ || _); [discriminate|]. destruct (n_cells nt); [|discriminate].
  destruct (map_first _ _ l) eqn:M; simpl; try discriminate. apply map_first_nf in M; auto. intros x. apply map_first_nf. discriminate. Qed.

(** All cells of network [n] switched off. *)
Definition cleared (n : nat) (c c' : ctx) : Prop :=
  changes_only c c' (fun l => exists r col, l = LPow n r col)
  /\ forall r col rows cols en, peek c (LNet n) = Some (VNet en rows cols) -> (r < rows)%nat -> (col < cols)%nat ->
       forall b, powered c n r col b -> powered c' n r col false.
Lemma clear_net_ok n c c' : upd_net n clear_states c = Ok c' -> cleared n c c'.
Proof.
  intros H. unfold upd_net in H. apply rbind_inv in H as (nt & N & H). apply net_at_inv in N.
  apply rbind_inv in H as (nt' & K & H). apply clear_states_spec in K as (A1 & A2 & A3 & A4 & A5 & A6).
  unfold net_of, elem, obind in N. destruct (x_net c) as [l|] eqn:X; [|discriminate]. injection H as <-.
  pose proof (nth_some_lt _ _ _ N) as LT.
  assert (NS : forall m, net_of (set_x_net (Some (lset l n nt')) c) m = if (m =? n)%nat then Some nt' else net_of c m).
  { intros m. unfold net_of, elem, obind. simpl. destruct (m =? n)%nat eqn:Q; [apply Nat.eqb_eq in Q as ->; now apply nth_lset_same|].
    apply Nat.eqb_neq in Q. rewrite nth_lset_other by auto. now rewrite X. }
  assert (NN : net_of c n = Some nt) by (unfold net_of, elem, obind; now rewrite X).
  assert (CC : forall m r col, cell_of (set_x_net (Some (lset l n nt')) c) m r col =
            if (m =? n)%nat then option_map (off_cell nt r col) (cell_of c n r col) else cell_of c m r col).
  { intros m r col. destruct (m =? n)%nat eqn:Q.
    - rewrite (cell_of_net _ m nt'); [|rewrite NS, Q; auto]. rewrite A6. now rewrite (cell_of_net _ _ _ _ _ NN).
    - unfold cell_of, row_of. now rewrite NS, Q. }
  assert (OC : forall r col x, c_bar (off_cell nt r col x) = c_bar x /\ c_code (off_cell nt r col x) = c_code x
             /\ c_dq (off_cell nt r col x) = c_dq x /\ c_data (off_cell nt r col x) = c_data x).
  { intros r col x. unfold off_cell. destruct (in_rect _ _ _); auto. }
  split.
  - intros loc L. destruct loc as [| | | | | | | | | | | | |m r col|m r col|m r col i|m r col|m r|m|m| | | | | | | | | | | |];
      try reflexivity; unfold peek.
    + rewrite CC. destruct (m =? n)%nat eqn:Q; [|auto]. apply Nat.eqb_eq in Q as ->. exfalso. eapply L; eauto.
    + rewrite CC. destruct (m =? n)%nat eqn:Q; [apply Nat.eqb_eq in Q as ->|auto].
      destruct (cell_of c n r col) as [x|]; auto. simpl. destruct (OC r col x) as (-> & -> & -> & _). auto.
    + rewrite CC. destruct (m =? n)%nat eqn:Q; [apply Nat.eqb_eq in Q as ->|auto].
      destruct (cell_of c n r col) as [x|]; auto. simpl. destruct (OC r col x) as (_ & _ & _ & ->). auto.
    + rewrite CC. destruct (m =? n)%nat eqn:Q; [apply Nat.eqb_eq in Q as ->|auto].
      destruct (cell_of c n r col) as [x|]; auto. simpl. destruct (OC r col x) as (_ & _ & _ & ->). auto.
    + unfold row_of. rewrite NS. destruct (m =? n)%nat eqn:Q; [apply Nat.eqb_eq in Q as ->|auto]. rewrite NN. simpl.
      specialize (A5 r). destruct (elem (n_cells nt') r), (elem (n_cells nt) r); simpl in *; congruence.
    + rewrite NS. destruct (m =? n)%nat eqn:Q; [apply Nat.eqb_eq in Q as ->|auto]. rewrite NN. simpl. auto.
    + rewrite NS. destruct (m =? n)%nat eqn:Q; [apply Nat.eqb_eq in Q as ->|auto]. rewrite NN. simpl. congruence.
    + simpl. rewrite X. simpl. now rewrite lset_length.
  - intros r col rows cols en P R C b B. unfold powered, peek in *. rewrite NN in P. simpl in P. injection P as _ <- <-.
    rewrite CC, Nat.eqb_refl. destruct (cell_of c n r col) as [x|]; [|discriminate]. simpl. unfold off_cell, in_rect.
    apply Nat.ltb_lt in R, C. now rewrite R, C.
Qed.
Lemma any_clear n c (Q : ctx -> Prop) : (forall c', cleared n c c' -> Q c') -> wpr any (upd_net n clear_states c) Q.
Proof.
  intros H. destruct (upd_net n clear_states c) as [c'|u|] eqn:K; simpl; [|exact I|].
  - apply H, clear_net_ok, K.
  - unfold upd_net in K. unfold net_at in K. destruct (x_net c); [|discriminate]. unfold nth_res in K.
    destruct (nth_error l n) as [nt|]; [|discriminate]. simpl in K. pose proof (clear_states_nf nt).
    destruct (clear_states nt); try discriminate. congruence.
Qed.

Section S.
Variables (E : env) (WE : loc -> Prop) (c0 : ctx).
Hypothesis HE : env_writes E WE.
Hypothesis HL : forall l, WE l -> ~ is_layout l.
Hypothesis HS : forall k, peek c0 LNets = Some (VN k) -> Z.of_nat k <= 2 ^ 32.

Definition WS (l : loc) : Prop := scan_writes c0 l \/ WE l.
Definition J (s : st) : Prop := changes_only c0 (s_ctx s) WS.

Lemma names_place c i n r col l : names c i n r col l -> is_layout l ->
  exists n' r' col' rows cols, peek c (LNet n') = Some (VNet false rows cols) /\ l = LData n' r' col' 0.
Proof.
  intros [(j & v & _ & _ & T)|[(_ & v & _ & _ & T)|[(_ & v & _ & _ & T)|(_ & n' & r' & c' & a & b & A & ->)]]] L.
  - apply target_place in T. destruct l; contradiction.
  - simpl in T. repeat destruct T as [<-|T]; contradiction.
  - simpl in T. repeat destruct T as [<-|T]; contradiction.
  - eauto 10.
Qed.
Lemma WS_layout l : WS l -> is_layout l -> l = LExec \/
  exists n r col rows cols, peek c0 (LNet n) = Some (VNet false rows cols) /\ l = LData n r col 0.
Proof.
  intros [K|K] L; [|exfalso; eapply HL; eauto].
  destruct K as [K|[(n & r & col & a & b & _ & ->)|[(n & r & col & i & _ & N)|(k & js & j & _ & _ & _ & _ & _ & ->)]]]; try contradiction.
  - simpl in K. repeat destruct K as [<-|K]; auto; contradiction.
  - right. eapply names_place; eauto.
Qed.
Lemma J_step s s' : J s -> changes_only (s_ctx s) (s_ctx s') WS -> J s'. Proof. apply changes_trans. Qed.
Lemma J_layout s l : J s -> is_layout l -> l <> LExec ->
  (forall n r col i rows cols, l = LData n r col i -> peek c0 (LNet n) <> Some (VNet false rows cols)) -> peek (s_ctx s) l = peek c0 l.
Proof. intros H L X D. apply H. intros K. destruct (WS_layout l K L) as [K1|(n & r & col & a & b & A & ->)]; [auto|].
  eapply D; eauto. Qed.
Lemma J_meta s l : J s -> match l with LQty | LIo | LOutMeta _ | LInMeta _ | LNet _ | LNets | LCell _ _ _ | LCron | LRegLen _ | LTmLen => True | _ => False end ->
  peek (s_ctx s) l = peek c0 l.
Proof. intros H L. apply J_layout; auto; destruct l; try contradiction; simpl; auto; try discriminate. Qed.
Lemma J_data s n r col i rows cols : J s -> peek c0 (LNet n) = Some (VNet true rows cols) -> peek (s_ctx s) (LData n r col i) = peek c0 (LData n r col i).
Proof. intros H N. apply J_layout; [exact H|exact I|discriminate|]. intros n1 r1 c1 i1 a b K. injection K as <- _ _ _. rewrite N. discriminate. Qed.
Lemma J_target s v : J s -> target (s_ctx s) v = target c0 v.
Proof. intros H. apply target_meta. intros l L. apply J_meta; auto. destruct l; auto. Qed.
Lemma J_names s i n r col l rows cols : J s -> peek c0 (LNet n) = Some (VNet true rows cols) ->
  names (s_ctx s) i n r col l -> names c0 i n r col l.
Proof.
  intros H N [(j & v & A & B & T)|[(A & v & B & C & T)|[(A & v & B & C & T)|(-> & n' & r' & c' & a & b & A & ->)]]].
  - left. rewrite (J_data s n r col j rows cols) in B by auto. rewrite J_target in T by auto. eauto.
  - right; left. rewrite (J_data s n r col 0 rows cols) in B by auto. eauto.
  - right; right; left. rewrite (J_data s n r col 0 rows cols) in B by auto. eauto.
  - right; right; right. rewrite J_meta in A by (simpl; auto). split; eauto 10.
Qed.

Section N.
Variables (n rows cols : nat).
Hypothesis HN : scanned c0 n rows cols.
Definition JX (s : st) : Prop := J s /\ x_exec (s_ctx s) = Some n.

Lemma JX_net s : JX s -> exists nt, net_of (s_ctx s) n = Some nt /\ n_rows nt = rows /\ n_cols nt = cols /\ n_en nt = true.
Proof.
  intros [H X]. pose proof (J_meta s (LNet n) H I) as K. destruct HN as [_ N]. rewrite N in K. simpl in K.
  destruct (net_of (s_ctx s) n) as [nt|]; [|discriminate]. simpl in K. injection K as K1 K2 K3. eauto.
Qed.
Lemma JX_changes s s' W : JX s -> changes_only (s_ctx s) (s_ctx s') W -> (forall l, W l -> WS l) -> ~ W LExec -> JX s'.
Proof.
  intros [H X] C S L. split; [eapply J_step; [exact H|eapply changes_mono; eauto]|].
  pose proof (C LExec L) as K. simpl in K. congruence.
Qed.
Lemma WE_ws l : WE l -> WS l. Proof. right; auto. Qed.
Lemma WE_exec : ~ WE LExec. Proof. intros K. apply (HL _ K). exact I. Qed.
Lemma JX_emit ev (Q : unit -> st -> Prop) s : scan_event ev -> JX s -> (forall s', JX s' -> Q tt s') -> wp any (emit E ev) Q s.
Proof. intros S H K. apply K. apply (JX_changes s _ WE); auto using WE_ws, WE_exec. simpl. apply HE; auto. Qed.
Lemma JX_panic (Q : unit -> st -> Prop) s : JX s -> (forall s', JX s' -> Q tt s') -> wp any (panic E) Q s.
Proof. intros H K. unfold panic. apply wp_bind, wp_getc. destruct (h_panic _); [apply JX_emit; simpl; auto|apply wp_ret; auto]. Qed.
Lemma JX_set_state x (Q : unit -> st -> Prop) s : JX s -> (forall s', JX s' -> Q tt s') -> wp any (set_state x) Q s.
Proof. intros H K. apply wp_modc, K. apply (JX_changes s _ (eq LState)); auto; try discriminate.
  - intros l L. destruct l; simpl; auto. congruence.
  - intros l <-. left; left; simpl; auto. Qed.
Lemma JX_set_err x (Q : unit -> st -> Prop) s : JX s -> (forall s', JX s' -> Q tt s') -> wp any (set_err x) Q s.
Proof. intros H K. apply wp_modc, K. apply (JX_changes s _ (eq LErr)); auto; try discriminate.
  - intros l L. destruct l; simpl; auto. congruence.
  - intros l <-. left; left; simpl; auto. Qed.
Lemma WS_pow k col : WS (LPow n k col). Proof. left; right; left. eauto 10. Qed.
Lemma JX_mput col k b (Q : unit -> st -> Prop) s : JX s -> (forall s', JX s' -> Q tt s') -> wp any (mput col k b) Q s.
Proof.
  intros H K. unfold mput. apply wp_updc. unfold put_state. destruct H as [H X]. rewrite X.
  destruct (cell_of (s_ctx s) n k col) as [x|] eqn:C.
  - rewrite (upd_cell_ok _ _ _ _ _ _ C). simpl. apply K, (JX_changes s _ (eq (LPow n k col))); try discriminate.
    + split; auto.
    + intros l L. simpl. pose proof (put_pow_frame n k col b (s_ctx s) l) as Z. unfold put_pow in Z. rewrite C in Z. apply Z. congruence.
    + intros l <-. apply WS_pow.
  - unfold upd_cell. apply wpr_bind, any_net. intros nt N. apply wpr_bind, any_cell_in. intros x Z.
    rewrite (cell_of_net _ _ _ _ _ N) in C. congruence.
Qed.
Lemma JX_check cc (Q : bool -> st -> Prop) s : JX s -> (forall b s', JX s' -> Q b s') -> wp any (check_cycles E cc) Q s.
Proof.
  intros H K. unfold check_cycles. apply wp_bind, wp_getc, wp_bind.
  assert (A : forall s', JX s' -> wp any (c2 <- getc;; (if si_maxcyc (x_si c2) <? cc
    then set_state S_ERROR;;; set_err E_OVERFLOW;;; panic E;;; ret false else ret true))%m Q s').
  { intros s' H'. apply wp_bind, wp_getc. destruct (_ <? _); [|apply wp_ret; auto].
    apply wp_bind, JX_set_state; auto. intros s1 H1. apply wp_bind, JX_set_err; auto. intros s2 H2.
    apply wp_bind, JX_panic; auto. intros s3 H3. apply wp_ret; auto. }
  destruct (_ <? _); [apply JX_panic; auto|apply wp_ret; auto].
Qed.
Lemma JX_mcell k col (Q : cell -> st -> Prop) s : JX s ->
  (forall x, cell_of (s_ctx s) n k col = Some x -> Q x s) -> wp any (mcell k col) Q s.
Proof. intros [H X] K. unfold mcell. apply wp_bind, wp_getc, wp_lift, any_ex_cell. intros m x M C.
  rewrite X in M. injection M as <-. auto. Qed.
Lemma JX_skip rs col cc (Q : option (Z * bool) -> st -> Prop) s : JX s -> (forall o s', JX s' -> Q o s') -> wp any (skip_loop E rs col cc) Q s.
Proof.
  revert cc s. induction rs as [|g t IH]; intros cc s H K; simpl; [apply wp_ret; auto|].
  apply wp_bind, JX_check; auto. intros b s1 H1. destruct b; [|apply wp_ret; auto].
  apply wp_bind, JX_mcell; auto. intros x X. destruct (is_multi _); [apply wp_ret; auto|].
  apply wp_bind, wp_lift. destruct (has_side_effects_on_false (c_code x)) as [bb|u|] eqn:B; simpl.
  - destruct bb; [apply wp_ret; auto|apply IH; auto].
  - exact I.
  - destruct (c_code x); discriminate.
Qed.
Lemma JX_exec_cell col k (Q : bool -> st -> Prop) s : (k < rows)%nat -> (col < cols)%nat -> JX s ->
  (forall b s', JX s' -> Q b s') -> wp any (exec_cell E n col k) Q s.
Proof.
  intros Hk Hc H K. unfold exec_cell. apply wp_bind, JX_mcell; auto. intros x X. apply wp_bind, wp_modc.
  match goal with |- wp _ _ _ ?st1 => set (s1 := st1) end.
  assert (H1 : JX s1).
  { apply (JX_changes s _ (fun l => l = LErr \/ l = LLast)); auto.
    - intros l L. destruct l; simpl; auto; exfalso; apply L; auto.
    - intros l [-> | ->]; left; left; simpl; auto.
    - intros [L|L]; discriminate. }
  destruct (is_multi _); [apply wp_ret; auto|]. destruct (ladder_function E (c_code x)) as [f|] eqn:Hf.
  2:{ apply wp_bind, JX_set_state; auto. intros s2 H2. apply wp_bind, JX_set_err; auto. intros s3 H3. apply wp_ret; auto. }
  apply wp_bind. destruct H1 as [J1 X1]. pose proof (J_meta s1 (LNet n) J1 I) as N1. destruct HN as [Hq N0]. rewrite N0 in N1.
  apply (wp_mono any _ (fun e s' => changes_only (s_ctx s1) (s_ctx s') (wset WE (s_ctx s1) (c_code x) n k col))).
  2:{ apply (instr_frame E); auto.
      - simpl. simpl in X1. congruence.
      - intros a b Z. congruence.
      - intros m M. apply HS. rewrite <- M. symmetry. now apply J_meta. }
  intros e s2 C2.
  assert (H2 : JX s2).
  { apply (JX_changes s1 _ (wset WE (s_ctx s1) (c_code x) n k col)); auto; [split; auto| |].
    - intros l [W|W]; [|now right].
      destruct W as [-> |[[-> _]|[(k' & _ & ->)|W]]]; [left; left; simpl; auto|left; left; simpl; auto|apply WS_pow|].
      left; right; right; left. exists n, k, col, (c_code x). split.
      + exists rows, cols, (c_bar x), (c_dq x). repeat split; auto.
        rewrite <- (J_meta s (LCell n k col)); [|apply H|exact I]. simpl. rewrite X. reflexivity.
      + eapply J_names; eauto.
    - intros [W|W]; [|now apply WE_exec].
      destruct W as [W|[[W _]|[(k' & _ & W)|W]]]; try discriminate.
      apply names_place in W; [|exact I]. destruct W as (n' & r' & col' & a & b & _ & W). discriminate. }
  apply wp_bind, JX_set_err; auto. intros s3 H3. destruct (is_ok e); [|apply wp_ret; auto].
  apply wp_bind, wp_getc, wp_bind. destruct (h_instr _); [apply JX_emit; simpl; auto|]; intros; apply wp_ret; auto; apply wp_ret; auto.
Qed.
Lemma JX_exec_rows col rs (Q : bool -> st -> Prop) s : (forall k, In k rs -> (k < rows)%nat) -> (col < cols)%nat -> JX s ->
  (forall b s', JX s' -> Q b s') -> wp any (exec_rows E n col rs) Q s.
Proof.
  revert s. induction rs as [|g t IH]; intros s Hr Hc H K; simpl; [apply wp_ret; auto|].
  apply wp_bind, JX_exec_cell; auto with *. intros b s1 H1. destruct b; [|apply wp_ret; auto]. apply IH; auto with *.
Qed.
Lemma JX_or col rs a (Q : bool -> st -> Prop) s : JX s -> (forall b, Q b s) -> wp any (or_states col rs a) Q s.
Proof. revert a. induction rs as [|g t IH]; intros a H K; simpl; [apply wp_ret; auto|]. apply wp_bind, f_mstate. intros b. apply IH; auto. Qed.
Lemma JX_put col rs b (Q : unit -> st -> Prop) s : JX s -> (forall s', JX s' -> Q tt s') -> wp any (put_states col rs b) Q s.
Proof. revert s. induction rs as [|g t IH]; intros s H K; simpl; [apply wp_ret; auto|]. apply wp_bind, JX_mput; auto. Qed.

Lemma bar_run_ok nt f col g (Q : nat -> Prop) : (forall e, (g <= e)%nat -> (e = g \/ (e < n_rows nt)%nat) -> Q e) -> wpr any (bar_run f nt col g) Q.
Proof.
  revert g. induction f as [|f IH]; intros g K; simpl; [apply K; auto|].
  destruct (S g <? n_rows nt)%nat eqn:L; [|apply K; auto]. apply wpr_bind, any_cell_in. intros x _.
  destruct (c_bar x); [|apply K; auto]. apply Nat.ltb_lt in L. apply IH. intros e A B. apply K; lia.
Qed.
Lemma lower_ok nt f r col (Q : bool -> Prop) : (forall b, Q b) -> wpr any (lower_from f nt r col) Q.
Proof.
  revert col. induction f as [|f IH]; intros col K; simpl; [apply K|]. apply wpr_bind, any_cell_in. intros x _.
  destruct (c_bar x); [|apply IH; auto]. apply wpr_bind.
  destruct (_ <? _)%nat; [apply wpr_bind, any_cell_in; intros y _; simpl; destruct (is_multi _)|simpl]; auto; try apply IH; auto; apply K.
Qed.
Lemma exec_net_ok s (Q : network -> Prop) : JX s -> (forall nt, n_rows nt = rows -> n_cols nt = cols -> Q nt) -> wpr any (exec_net (s_ctx s)) Q.
Proof. intros H K. unfold exec_net. destruct (JX_net s H) as (nt & N & A & B & _). destruct H as [_ X]. rewrite X.
  rewrite (net_at_of _ _ _ N). simpl. auto. Qed.

Lemma JX_column g power col cc (Q : option Z -> st -> Prop) s : (g < rows)%nat -> (col < cols)%nat -> JX s ->
  (forall o s', JX s' -> Q o s') -> wp any (scan_column E n g power col cc) Q s.
Proof.
  intros Hg Hc H K. unfold scan_column. apply wp_bind, wp_getc, wp_bind, wp_lift, exec_net_ok; auto. intros nt R C.
  apply wp_bind, wp_lift. unfold group_end. apply bar_run_ok. intros ge G1 G2. cbv zeta.
  assert (IN : forall k, In k (rows_of g ge) -> (k < rows)%nat) by (intros k I0; unfold rows_of in I0; apply in_seq in I0; lia).
  apply wp_bind, JX_skip; auto. intros o s1 H1. destruct o as [[cc' sk]|]; [|apply wp_ret; auto].
  destruct (_ && _); [apply wp_ret; auto|]. apply wp_bind, JX_exec_rows; auto. intros b s2 H2. destruct b.
  - apply wp_bind, JX_or; auto. intros b. apply wp_bind, JX_put; auto. intros s3 H3. apply wp_ret; auto.
  - apply wp_bind, JX_set_state; auto. intros s3 H3. apply wp_ret; auto.
Qed.
Lemma JX_columns f g power col cc (Q : option Z -> st -> Prop) s : (g < rows)%nat -> (cols <= col + f)%nat -> JX s ->
  (forall o s', JX s' -> Q o s') -> wp any (scan_columns E f n g power col cc) Q s.
Proof.
  intros Hg. revert col cc s. induction f as [|f IH]; intros col cc s Hf H K; simpl.
  - apply wp_bind. unfold mcols. apply wp_bind, wp_getc, wp_bind, wp_lift, exec_net_ok; auto. intros nt R C. apply wp_ret.
    replace (col <? n_cols nt)%nat with false by (symmetry; apply Nat.ltb_ge; lia). apply wp_ret; auto.
  - apply wp_bind. unfold mcols. apply wp_bind, wp_getc, wp_bind, wp_lift, exec_net_ok; auto. intros nt R C. apply wp_ret.
    destruct (col <? n_cols nt)%nat eqn:L; [|apply wp_ret; auto]. apply Nat.ltb_lt in L.
    apply wp_bind, JX_column; auto; [lia|]. intros [cc'|] s1 H1; [|apply wp_ret; auto]. apply IH; auto; lia.
Qed.
Lemma JX_rung row cc (Q : option (nat * Z) -> st -> Prop) s : (row < rows)%nat -> JX s ->
  (forall o s', JX s' -> (forall r z, o = Some (r, z) -> (row < r)%nat) -> Q o s') -> wp any (scan_rung E n row cc) Q s.
Proof.
  intros Hr H K. unfold scan_rung. apply wp_bind, JX_check; auto. intros b s1 H1.
  destruct b; [|apply wp_ret, K; auto; discriminate].
  apply wp_bind, JX_mcell; auto. intros x X. destruct (is_multi _).
  { apply wp_ret, K; auto. intros r z Z. injection Z as <- _. lia. }
  apply wp_bind, wp_getc, wp_bind, wp_lift, exec_net_ok; auto. intros nt R C.
  apply wp_bind, wp_lift. unfold group_end. apply bar_run_ok. intros ge G1 G2.
  apply wp_bind, wp_lift. unfold is_lower. apply lower_ok. intros lw.
  apply wp_bind, JX_columns; auto; [lia|]. intros [cc'|] s2 H2; [|apply wp_ret, K; auto; discriminate].
  apply wp_bind, wp_getc, wp_bind.
  destruct (h_scan_end _); [apply JX_emit; simpl; auto; intros s3 H3|apply wp_ret]; apply wp_ret, K; auto;
    intros r z Z; injection Z as <- _; lia.
Qed.
Lemma JX_rows f row cc (Q : bool -> st -> Prop) s : (rows <= row + f)%nat -> JX s ->
  (forall b s', JX s' -> Q b s') -> wp any (scan_rows E f n row cc) Q s.
Proof.
  revert row cc s. induction f as [|f IH]; intros row cc s Hf H K; simpl.
  - apply wp_bind. unfold mrows. apply wp_bind, wp_getc, wp_bind, wp_lift, exec_net_ok; auto. intros nt R C. apply wp_ret.
    replace (row <? n_rows nt)%nat with false by (symmetry; apply Nat.ltb_ge; lia). apply wp_ret; auto.
  - apply wp_bind. unfold mrows. apply wp_bind, wp_getc, wp_bind, wp_lift, exec_net_ok; auto. intros nt R C. apply wp_ret.
    destruct (row <? n_rows nt)%nat eqn:L; [|apply wp_ret; auto]. apply Nat.ltb_lt in L.
    apply wp_bind, JX_rung; auto; [lia|]. intros [[r' cc']|] s1 H1 A; [|apply wp_ret; auto].
    specialize (A _ _ eq_refl). apply IH; auto; lia.
Qed.
End N.

Lemma J_changes s s' W : J s -> changes_only (s_ctx s) (s_ctx s') W -> (forall l, W l -> WS l) -> J s'.
Proof. intros H C S. eapply J_step; [exact H|eapply changes_mono; eauto]. Qed.
Lemma J_emit ev (Q : unit -> st -> Prop) s : scan_event ev -> J s -> (forall s', J s' -> Q tt s') -> wp any (emit E ev) Q s.
Proof. intros S H K. apply K. apply (J_changes s _ WE); auto using WE_ws. simpl. apply HE; auto. Qed.
Lemma J_panic (Q : unit -> st -> Prop) s : J s -> (forall s', J s' -> Q tt s') -> wp any (panic E) Q s.
Proof. intros H K. unfold panic. apply wp_bind, wp_getc. destruct (h_panic _); [apply J_emit; simpl; auto|apply wp_ret; auto]. Qed.
Lemma J_set_state x (Q : unit -> st -> Prop) s : J s -> (forall s', J s' -> Q tt s') -> wp any (set_state x) Q s.
Proof. intros H K. apply wp_modc, K. apply (J_changes s _ (eq LState)); auto.
  - intros l L. destruct l; simpl; auto. congruence.
  - intros l <-. left; left; simpl; auto. Qed.
Lemma J_network net (Q : bool -> st -> Prop) s : (net < q_nets (x_q c0))%nat -> J s -> (forall b s', J s' -> Q b s') -> wp any (scan_network E net) Q s.
Proof.
  intros Hn H K. unfold scan_network. apply wp_bind, wp_getc, wp_bind, wp_lift, any_net. intros nt N.
  destruct (is_null _).
  { apply wp_bind, J_set_state; auto. intros s1 H1. apply wp_bind, J_panic; auto. intros s2 H2. apply wp_ret; auto. }
  destruct (n_en nt) eqn:EN; [|apply wp_ret; auto].
  assert (SC : scanned c0 net (n_rows nt) (n_cols nt)).
  { split; auto. rewrite <- (J_meta s (LNet net) H I). simpl. rewrite N. simpl. now rewrite EN. }
  apply wp_bind, wp_modc.
  match goal with |- wp _ _ _ ?st1 => set (s1 := st1) end.
  assert (H1 : JX net s1).
  { split; [|reflexivity]. apply (J_changes s _ (eq LExec)); auto.
    - intros l L. destruct l; simpl; auto. congruence.
    - intros l <-. left; left; simpl; auto. }
  apply wp_bind, wp_updc, any_clear. intros c2 [C2 _].
  apply (JX_rows net (n_rows nt) (n_cols nt) SC); [lia| |intros b s' [J' _]; auto].
  apply (JX_changes net s1 _ (fun l => exists r col, l = LPow net r col)); auto.
  - intros l (r & col & ->). eapply WS_pow; eauto.
  - intros (r & col & ?). discriminate.
Qed.
Lemma J_networks f net (Q : unit -> st -> Prop) s : (q_nets (x_q c0) <= net + f)%nat -> J s ->
  (forall s', J s' -> Q tt s') -> wp any (scan_networks E f net) Q s.
Proof.
  revert net s. induction f as [|f IH]; intros net s Hf H K; simpl; apply wp_bind, wp_getc;
    rewrite (peek_qty c0 (s_ctx s)) by (apply J_meta; auto; exact I).
  - replace (net <? q_nets (x_q c0))%nat with false by (symmetry; apply Nat.ltb_ge; lia). apply wp_ret; auto.
  - destruct (net <? q_nets (x_q c0))%nat eqn:L; [|apply wp_ret; auto]. apply Nat.ltb_lt in L.
    apply wp_bind, J_network; auto. intros b s1 H1. destruct b; [|apply wp_ret; auto]. apply IH; auto; lia.
Qed.

(** Cron jobs. *)
Lemma any_cron_clear f m js c (T : loc -> Prop) (Q : ctx -> Prop) :
  (forall i j, (m <= i < m + f)%nat -> elem js i = Some j -> j_en j = true -> 0 <= j_flag j -> T (LReg B_M (ix (j_flag j)))) ->
  (forall c', changes_only c c' T -> Q c') -> wpr any (cron_clear f m js c) Q.
Proof.
  revert m c. induction f as [|f IH]; intros m c HT H; simpl; [apply H, changes_refl|].
  apply wpr_bind, any_pget. intros j _ Hj. unfold ix in Hj. rewrite Nat2Z.id in Hj. apply wpr_bind.
  destruct (j_en j && j_auto j) eqn:EA.
  - apply andb_prop in EA as [EJ _]. unfold bk_put. apply wpr_bind, any_pset. intros a P A. simpl.
    apply IH; [intros; eapply HT; eauto; lia|]. intros c' C. apply H. eapply changes_trans; [|exact C].
    intros l L. apply (put_reg_frame B_M (ix (j_flag j)) 0). intros ->. apply L. eapply HT; eauto; lia.
  - simpl. apply IH; [intros; eapply HT; eauto; lia|]. auto.
Qed.
Lemma any_bit m k (Q : bool -> Prop) : (forall b, Q b) -> wpr any (bit_is_set m k) Q.
Proof. intros H. unfold bit_is_set. apply wpr_bind, (any_pget (Some _)). intros. exact (H _). Qed.
Lemma any_and r k (Q : bool -> Prop) : (forall b, Q b) -> (forall Q' : bool -> Prop, (forall b, Q' b) -> wpr any r Q') ->
  (forall Q' : bool -> Prop, (forall b, Q' b) -> wpr any k Q') -> wpr any (and_bit r k) Q.
Proof. intros H A B. unfold and_bit. apply wpr_bind, A. intros [|]; [apply B, H|apply H]. Qed.
Lemma any_cron_valid t m (Q : bool -> Prop) : (forall b, Q b) -> wpr any (cron_valid t m) Q.
Proof. intros H. unfold cron_valid. repeat (apply any_and; [now auto|intros; now apply any_bit|clear Q H; intros Q H]). now apply any_bit. Qed.
Lemma any_cron_jobs f m t js c (T : loc -> Prop) (Q : ctx -> Prop) :
  (forall i j, (m <= i < m + f)%nat -> elem js i = Some j -> j_en j = true -> 0 <= j_flag j -> T (LReg B_M (ix (j_flag j)))) ->
  (forall c', changes_only c c' T -> Q c') -> wpr any (cron_jobs_eval f m t js c) Q.
Proof.
  revert m c. induction f as [|f IH]; intros m c HT H; simpl; [apply H, changes_refl|].
  apply wpr_bind, any_pget. intros j _ Hj. unfold ix in Hj. rewrite Nat2Z.id in Hj. apply wpr_bind.
  assert (SAME : wpr any (cron_jobs_eval f (S m) t js c) Q).
  { apply IH; [intros; eapply HT; eauto; lia|]. auto. }
  destruct (j_en j) eqn:EJ; [|exact SAME].
  apply wpr_bind, any_cron_valid. intros [|]; [|exact SAME]. unfold bk_get. apply wpr_bind, any_pget. intros z _ _.
  unfold bk_put. apply wpr_bind, any_pset. intros a P A. simpl.
  apply IH; [intros; eapply HT; eauto; lia|]. intros c' C. apply H. eapply changes_trans; [|exact C].
  intros l L. apply (put_reg_frame B_M (ix (j_flag j)) z). intros ->. apply L. eapply HT; eauto; lia.
Qed.
Lemma firstn_in {A} (l : list A) k i a : (i < k)%nat -> nth_error l i = Some a -> In a (firstn k l).
Proof. intros L H. apply (nth_error_In (firstn k l) i). rewrite nth_firstn; auto. Qed.
Lemma J_cron (Q : bool -> st -> Prop) s : J s -> (forall b s', J s' -> Q b s') -> wp any (scan_cron E) Q s.
Proof.
  intros H K. unfold scan_cron. apply wp_bind, wp_getc. destruct (x_cron (s_ctx s)) as [k|] eqn:X; [|apply wp_ret; auto].
  assert (KF : forall i j, (0 <= i < 0 + cr_used k)%nat -> elem (cr_jobs k) i = Some j -> j_en j = true -> 0 <= j_flag j ->
             WS (LReg B_M (ix (j_flag j)))).
  { intros i j I1 I2 I3 I4. left; right; right; right. unfold elem, obind in I2. destruct (cr_jobs k) as [js|] eqn:JS; [|discriminate].
    exists k, js, j. rewrite <- (J_meta s LCron H I). simpl. rewrite X. repeat split; auto. eapply firstn_in; eauto. lia. }
  apply wp_bind, wp_updc. apply (any_cron_clear _ _ _ _ WS); auto. intros c1 C1.
  assert (H1 : J (inc s c1)) by (eapply J_step; eauto). apply wp_bind. unfold cron_eval.
  apply wp_bind, wp_getc. assert (X1 : x_cron (s_ctx (inc s c1)) = Some k).
  { pose proof (J_meta _ LCron H1 I) as A. pose proof (J_meta _ LCron H I) as B. simpl in A, B |- *. congruence. }
  unfold cron_of. rewrite X1. apply wp_bind, wp_lift. simpl.
  destruct (_ || _); [apply wp_ret; simpl; apply wp_bind, J_set_state; auto; intros; apply wp_ret; auto|].
  apply wp_bind. unfold wp at 1, localtime. simpl. apply wp_bind, wp_updc. apply (any_cron_jobs _ _ _ _ _ WS); auto.
  intros c2 C2. apply wp_ret. simpl. apply wp_ret, K. eapply (J_step (inc s c1)); eauto.
Qed.
Lemma J_scan (Q : unit -> st -> Prop) s : J s -> (forall s', J s' -> Q tt s') -> wp any (ladder_scan E) Q s.
Proof.
  intros H K. unfold ladder_scan. apply wp_bind, wp_modc.
  match goal with |- wp _ _ _ ?st1 => set (s1 := st1) end.
  assert (H1 : J s1).
  { apply (J_changes s _ (eq LExec)); auto.
    - intros l L. destruct l; simpl; auto. congruence.
    - intros l <-. left; left; simpl; auto. }
  apply wp_bind, J_cron; auto. intros b s2 H2. destruct b; [|apply wp_ret; auto]. apply wp_bind, wp_getc.
  destruct (is_null _).
  - apply wp_bind, J_set_state; auto. intros s3 H3. apply J_panic; auto.
  - apply J_networks; auto. rewrite (peek_qty c0 (s_ctx s2)) by (apply J_meta; auto; exact I). lia.
Qed.
End S.

(** A scan ends and changes only what it may. *)
Lemma scan_frame E WE s : env_writes E WE -> (forall l, WE l -> ~ is_layout l) ->
  (forall k, peek (s_ctx s) LNets = Some (VN k) -> Z.of_nat k <= 2 ^ 32) ->
  wp any (ladder_scan E) (fun _ s' => changes_only (s_ctx s) (s_ctx s') (fun l => scan_writes (s_ctx s) l \/ WE l)) s.
Proof. intros HE HL HS. apply (J_scan E WE (s_ctx s)); auto. apply changes_refl. Qed.
