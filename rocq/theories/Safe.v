(** Executing instructions and scanning programs without undefined behaviour. *)
From Verif Require Export SpecSafe ScanFrame.

Lemma f32_cases u : (exists z, f32_to_i32 u = Ok z /\ fits z) \/ f32_to_i32 u = Bad UB_float.
Proof.
  unfold f32_to_i32. cbv zeta. destruct (_ =? 255); [auto|]. match goal with |- context[in_i32 ?v] => destruct (in_i32 v) eqn:K end; [|auto].
  left. eexists. split; [reflexivity|]. unfold in_i32 in K. unfold fits. lia.
Qed.
Lemma i32_fits z : fits (i32 z).
Proof. unfold i32, fits. pose proof (Z.mod_pos_bound (z + 2 ^ 31) (2 ^ 32) ltac:(lia)). lia. Qed.
Lemma kept_typed t l w : match t with R_Cd | R_Cr | R_Td | R_Tr => w = 0 \/ w = 1 | _ => True end ->
  (match l with
   | LReg b _ => bank_of t = Some b
   | LOut _ k _ => (t = R_Q /\ k = K_Q) \/ (t = R_QW /\ k = K_QW)
   | LIn _ k _ => (t = R_I /\ k = K_I) \/ (t = R_IW /\ k = K_IW)
   | _ => False end) -> typed_at l (kept t w).
Proof.
  intros T L. assert (B1 := Z.mod_pos_bound w (2 ^ 8) ltac:(lia)). assert (B2 := Z.mod_pos_bound w (2 ^ 32) ltac:(lia)).
  assert (B3 := Z.mod_pos_bound (w + 2 ^ 31) (2 ^ 32) ltac:(lia)). unfold typed_at, fits.
  destruct l; try contradiction.
  - destruct t; try discriminate; injection L as <-; unfold kept; try lia; destruct T as [-> | ->]; cbv; split; discriminate.
  - destruct L as [[-> ->]|[-> ->]]; unfold kept; lia.
  - destruct L as [[-> ->]|[-> ->]]; unfold kept; lia.
Qed.
Lemma target_kind c v l : target c v = Some l -> 
  match l with
   | LReg b _ => bank_of (v_type v) = Some b
   | LOut _ k _ => (v_type v = R_Q /\ k = K_Q) \/ (v_type v = R_QW /\ k = K_QW)
   | LIn _ k _ => (v_type v = R_I /\ k = K_I) \/ (v_type v = R_IW /\ k = K_IW)
   | _ => False end.
Proof.
  unfold target. intros H.
  destruct (v_type v); cbn [bank_of] in H; try discriminate;
    repeat match type of H with
    | (if ?b then _ else _) = _ => destruct b
    | match ?x with _ => _ end = _ => destruct x
    end; try discriminate; injection H as <-; auto.
Qed.

Lemma target_port c v l : target c v = Some l ->
  match v_type v with
  | R_Q => l = LOut (ix (v_module v)) K_Q (ix (v_port v)) | R_QW => l = LOut (ix (v_module v)) K_QW (ix (v_port v))
  | R_I => l = LIn (ix (v_module v)) K_I (ix (v_port v)) | R_IW => l = LIn (ix (v_module v)) K_IW (ix (v_port v))
  | _ => True end.
Proof.
  unfold target. intros H.
  destruct (v_type v); cbn [bank_of] in H; try discriminate;
    repeat match type of H with
    | (if ?b then _ else _) = _ => destruct b
    | match ?x with _ => _ end = _ => destruct x
    end; try discriminate; injection H as <-; auto.
Qed.

Lemma sized_banks c : sized c -> banks_ok c.
Proof.
  intros [A (k & B & C)]. split.
  - intros b. destruct (A b) as (k0 & P & Q). simpl in P. unfold arr_ok. destruct (bank_arr b c) as [l|]; [|discriminate].
    injection P as <-. eauto.
  - simpl in B. destruct (x_tm c) as [l|]; [|discriminate]. injection B as <-. eauto.
Qed.
Lemma size_arr {A} (p : option (list A)) n : size p = Some (VN n) -> exists l, p = Some l /\ length l = n.
Proof. destruct p; simpl; [|discriminate]. intros K. injection K as <-. eauto. Qed.
Lemma metas_len {A} (p : option (list A)) q : (forall m, (m < q)%nat -> elem p m <> None) -> q = 0%nat \/ exists l, p = Some l /\ (q <= length l)%nat.
Proof.
  intros H. destruct q as [|q]; [auto|]. right. specialize (H q ltac:(lia)). destruct p as [l|]; simpl in H; [|congruence].
  exists l. split; auto. apply nth_error_Some in H. lia.
Qed.
Lemma modules_mods c : modules_ok c -> mods_ok c.
Proof.
  intros [A B]. split.
  - apply metas_len. intros m M. destruct (A m M) as (a & b & d & P & _). simpl in P. now destruct (elem (x_in c) m).
  - apply metas_len. intros m M. destruct (B m M) as (a & b & d & P & _). simpl in P. now destruct (elem (x_out c) m).
  - intros m im M E. destruct (A m M) as (a & b & d & P & Q). simpl in P. rewrite E in P. simpl in P. injection P as <- <- <-.
    split; [specialize (Q K_I)|specialize (Q K_IW)]; simpl in Q; rewrite E in Q; simpl in Q;
      (destruct Q as [Q|(k & Q & L)]; [auto|right; apply size_arr in Q as (l & -> & <-); unfold arr_ok; eauto]).
  - intros m im M E. destruct (B m M) as (a & b & d & P & Q). simpl in P. rewrite E in P. simpl in P. injection P as <- <- <-.
    split; [specialize (Q K_Q)|specialize (Q K_QW)]; simpl in Q; rewrite E in Q; simpl in Q;
      (destruct Q as [Q|(k & Q & L)]; [auto|right; apply size_arr in Q as (l & -> & <-); unfold arr_ok; eauto]).
Qed.

(** ** One network being scanned *)

Section K.
Variables (U : ub -> Prop) (E : env) (WE : loc -> Prop) (c0 : ctx) (n rows cols : nat).
Hypothesis HP : polite E WE.
Hypothesis H0 : well_formed_ctx c0.
Hypothesis HN : scanned c0 n rows cols.

(** The layout is that of [c0], apart from tables; what is stored is well typed; network [n] is executing. *)
Definition keeps (s : st) : Prop := forall l, is_layout l -> l <> LExec ->
  (forall n' r col i rows cols, l = LData n' r col i -> peek c0 (LNet n') <> Some (VNet false rows cols)) -> peek (s_ctx s) l = peek c0 l.
Definition K (s : st) : Prop := keeps s /\ typed (s_ctx s) /\ x_exec (s_ctx s) = Some n.

Lemma typed_put c c' l0 z : typed c -> changes_only c c' (eq l0) -> holds c' l0 z -> typed_at l0 z -> typed c'.
Proof.
  intros T C H A l y Y. destruct (loc_eq_dec l l0) as [->|N].
  - unfold holds in *. assert (y = z) by congruence. now subst.
  - apply T. unfold holds in *. rewrite <- Y. symmetry. apply C. auto.
Qed.
Lemma typed_same c c' (D : loc -> Prop) : typed c -> changes_only c c' D -> (forall l z, D l -> ~ holds c' l z) -> (forall l, D l \/ ~ D l) -> typed c'.
Proof.
  intros T C N DD l y Y. destruct (DD l) as [X|X]; [exfalso; eapply N; eauto|]. apply T. unfold holds in *. rewrite <- Y. symmetry. apply C. auto.
Qed.
Lemma K_step s s' D : K s -> changes_only (s_ctx s) (s_ctx s') D -> (forall l, D l -> ~ is_layout l) -> typed (s_ctx s') -> K s'.
Proof.
  intros (A & B & C) CH N T. split; [|split; auto].
  - intros l L X Y. rewrite CH; [apply A; auto|]. intros Z. eapply N; eauto.
  - pose proof (CH LExec) as X. simpl in X. assert (~ D LExec) as Y by (intros Z; apply (N _ Z); exact I). specialize (X Y). congruence.
Qed.
Lemma K_put s c' l0 z : K s -> changes_only (s_ctx s) c' (eq l0) -> ~ is_layout l0 -> holds c' l0 z -> typed_at l0 z -> K (inc s c').
Proof. intros A B C D F. eapply K_step; [exact A|exact B|intros l <-; auto|]. eapply typed_put; eauto. apply A. Qed.
Lemma K_status s c' l0 : K s -> changes_only (s_ctx s) c' (eq l0) -> ~ is_layout l0 -> (forall z, ~ holds c' l0 z) -> K (inc s c').
Proof.
  intros A B C D. eapply K_step; [exact A|exact B|intros l <-; auto|]. eapply typed_same; [apply A|exact B| |].
  - intros l z <-. auto.
  - intros l. destruct (loc_eq_dec l l0); [left|right]; congruence.
Qed.
Lemma HN' a b : peek c0 (LNet n) <> Some (VNet false a b). Proof. destruct HN as [_ X]. rewrite X. discriminate. Qed.
Lemma K_meta s l : K s -> match l with LQty | LIo | LOutMeta _ | LInMeta _ | LNet _ | LNets | LCell _ _ _ | LDataLen _ _ _ | LCron | LRegLen _ | LTmLen | LInLen _ _ | LOutLen _ _ | LForeign | LHooks => True | _ => False end ->
  peek (s_ctx s) l = peek c0 l.
Proof. intros (H & _) L. apply H; destruct l; try contradiction; simpl; auto; try discriminate. Qed.
Lemma K_data s r col i : K s -> peek (s_ctx s) (LData n r col i) = peek c0 (LData n r col i).
Proof. intros (H & _). apply H; [exact I|discriminate|]. intros n' r' c' i' a b X. injection X as <- _ _ _. apply HN'. Qed.
Lemma K_qty s : K s -> x_q (s_ctx s) = x_q c0. Proof. intros H. apply peek_qty, K_meta; simpl; auto. Qed.
Lemma K_io s : K s -> x_io (s_ctx s) = x_io c0. Proof. intros H. apply peek_io, K_meta; simpl; auto. Qed.
Lemma K_target s v : K s -> target (s_ctx s) v = target c0 v.
Proof. intros H. apply target_meta. intros l L. apply K_meta; auto. destruct l; auto. Qed.
Lemma K_sized s : K s -> sized (s_ctx s).
Proof.
  intros H. destruct (wc_sized _ H0) as [A (k & B & C)]. split.
  - intros b. rewrite (K_meta s) by (simpl; auto). rewrite K_qty by auto. apply A.
  - exists k. rewrite (K_meta s) by (simpl; auto). rewrite K_qty by auto. auto.
Qed.
Lemma K_modules s : K s -> modules_ok (s_ctx s).
Proof.
  intros H. destruct (wc_modules _ H0) as [A B]. split.
  - intros m M. rewrite K_io in M by auto. destruct (A m M) as (x & y & z & P & Q). exists x, y, z. rewrite K_meta by (simpl; auto). split; auto.
    intros k. specialize (Q k). rewrite (K_meta s (LInLen m k)) by (simpl; auto). auto.
  - intros m M. rewrite K_io in M by auto. destruct (B m M) as (x & y & z & P & Q). exists x, y, z. rewrite K_meta by (simpl; auto). split; auto.
    intros k. specialize (Q k). rewrite (K_meta s (LOutLen m k)) by (simpl; auto). auto.
Qed.
Lemma K_stores s : K s -> stores_ok (s_ctx s).
Proof. intros H. split; [apply sized_banks, K_sized; auto|apply modules_mods, K_modules; auto]. Qed.
Lemma c0_cell r col : (r < rows)%nat -> (col < cols)%nat -> exists bar i dq, peek c0 (LCell n r col) = Some (VCell bar i dq)
  /\ (known i \/ i = I_MULTI) /\ (dq = 0%nat \/ exists k, peek c0 (LDataLen n r col) = Some (VN k) /\ (dq <= k)%nat).
Proof.
  intros R C. destruct HN as [Q N]. destruct (wc_cells _ H0 n Q) as (en & a & b & P & _ & F). rewrite N in P. injection P as <- <- <-.
  destruct (F r col R C) as (bar & i & dq & X & Y & Z). eauto 10.
Qed.
Lemma K_executing s r col : (r < rows)%nat -> (col < cols)%nat -> K s -> executing (s_ctx s) n r col.
Proof.
  intros R C H. destruct (c0_cell r col R C) as (bar & i & dq & X & _). split; [|split].
  - destruct H as (_ & _ & H). simpl. now rewrite H.
  - destruct HN as [_ N]. exists true, rows, cols. rewrite K_meta by (simpl; auto). auto.
  - exists bar, i, dq. rewrite K_meta by (simpl; auto). auto.
Qed.
Lemma K_cell s r col : (r < rows)%nat -> (col < cols)%nat -> K s -> exists x, cell_of (s_ctx s) n r col = Some x.
Proof. intros R C H. destruct (executing_cell _ _ _ _ (K_executing s r col R C H)) as (nt & x & _ & _ & _ & _ & X & _). eauto. Qed.

(** Steps that only read. *)
Lemma s_mleft col r (Q : bool -> st -> Prop) s : (r < rows)%nat -> (col < cols)%nat -> (forall b, Q b s) -> K s -> wp U (mleft col r) Q s.
Proof.
  intros R C H F. unfold mleft. apply wp_bind, wp_getc, wp_lift. unfold cleft. destruct col as [|p]; [apply H|]. unfold cstate.
  destruct (K_cell s r p) as (x & X); auto; [lia|]. rewrite (ex_cell_ok _ n r p x); auto; [apply H|apply F].
Qed.
Lemma s_mstate col r (Q : bool -> st -> Prop) s : (r < rows)%nat -> (col < cols)%nat -> (forall b, Q b s) -> K s -> wp U (mstate col r) Q s.
Proof.
  intros R C H F. unfold mstate. apply wp_bind, wp_getc, wp_lift. unfold cstate.
  destruct (K_cell s r col) as (x & X); auto. rewrite (ex_cell_ok _ n r col x); auto; [apply H|apply F].
Qed.
Lemma s_ex_data s r col i v : (r < rows)%nat -> (col < cols)%nat -> K s -> peek c0 (LData n r col i) = Some (VVal v) -> ex_data r col i (s_ctx s) = Ok v.
Proof. intros R C F D. apply (ex_data_ok _ n); [apply K_executing; auto|]. now rewrite K_data. Qed.
Lemma s_midx col r v (Q : Z -> st -> Prop) s : (r < rows)%nat -> (col < cols)%nat -> peek c0 (LData n r col 0) = Some (VVal v) ->
  Q (v_raw v) s -> K s -> wp U (midx col r) Q s.
Proof. intros R C D H F. unfold midx. apply wp_bind, wp_getc, wp_bind, wp_lift. rewrite (s_ex_data s r col 0 v) by auto. apply wp_ret, H. Qed.
Lemma s_mpreset col r v (Q : Z -> st -> Prop) s : (r < rows)%nat -> (col < cols)%nat -> peek c0 (LData n r col 1) = Some (VVal v) ->
  Q (v_raw v) s -> K s -> wp U (mpreset col r) Q s.
Proof. intros R C D H F. unfold mpreset. apply wp_bind, wp_getc, wp_bind, wp_lift. rewrite (s_ex_data s r col 1 v) by auto. apply wp_ret, H. Qed.
Lemma s_mfactor col r v (Q : Z -> st -> Prop) s : (r < rows)%nat -> (col < cols)%nat -> peek c0 (LData n r col 1) = Some (VVal v) ->
  basetime (v_type v) <> None -> (forall z, Q z s) -> K s -> wp U (mfactor col r) Q s.
Proof.
  intros R C D B H F. unfold mfactor. apply wp_bind, wp_getc, wp_bind, wp_lift. rewrite (s_ex_data s r col 1 v) by auto. apply wp_lift.
  unfold basetime in B. destruct (reg_code (v_type v)) as [|p|p]; [apply H| |congruence].
  do 3 (try destruct p as [p|p|]); try congruence; apply H.
Qed.
Lemma bank_get s b z : K s -> in_qty z (bank_qty b (x_q c0)) -> exists u, holds (s_ctx s) (LReg b (ix z)) u /\ bk_get b z (s_ctx s) = Ok u.
Proof.
  intros F Q. pose proof (bo_bank _ (sized_banks _ (K_sized s F)) b) as A. rewrite K_qty in A by auto.
  destruct (arr_ok_elem _ _ (ix z) A) as (u & Hu); [unfold in_qty, ix in *; lia|]. exists u.
  assert (holds (s_ctx s) (LReg b (ix z)) u) as HH by (unfold holds; simpl; now rewrite Hu).
  split; auto. apply holds_get; auto. unfold in_qty in Q. lia.
Qed.
Definition flag_bank (b : bank) : Prop := match b with B_M | B_Mh | B_C | B_D | B_R => False | _ => True end.
Lemma bank_bool s b z : K s -> flag_bank b -> in_qty z (bank_qty b (x_q c0)) -> exists x, bk_bool b z (s_ctx s) = Ok x.
Proof.
  intros F B Q. destruct (bank_get s b z F Q) as (u & Hu & _). destruct (holds_bool (s_ctx s) b z u) as [X _].
  - unfold in_qty in Q. lia.
  - split; auto. destruct F as (_ & T & _). apply T in Hu. destruct b; try contradiction; simpl in Hu; lia.
  - eauto.
Qed.
Lemma s_mflag b col r v (Q : bool -> st -> Prop) s : (r < rows)%nat -> (col < cols)%nat -> peek c0 (LData n r col 0) = Some (VVal v) ->
  flag_bank b -> in_qty (v_raw v) (bank_qty b (x_q c0)) -> (forall x, Q x s) -> K s -> wp U (mflag b col r) Q s.
Proof.
  intros R C D B I0 H F. unfold mflag. apply wp_bind, (s_midx col r v); auto. apply wp_bind, wp_getc, wp_lift.
  destruct (bank_bool s b (v_raw v)) as [x ->]; auto. apply H.
Qed.
Lemma s_mcount col r v (Q : Z -> st -> Prop) s : (r < rows)%nat -> (col < cols)%nat -> peek c0 (LData n r col 0) = Some (VVal v) ->
  in_qty (v_raw v) (q_c (x_q c0)) -> (forall x, Q x s) -> K s -> wp U (mcount col r) Q s.
Proof.
  intros R C D I0 H F. unfold mcount. apply wp_bind, (s_midx col r v); auto. apply wp_bind, wp_getc, wp_lift.
  destruct (bank_get s B_C (v_raw v)) as (u & _ & ->); auto. apply H.
Qed.
Lemma timer_get s z : K s -> in_qty z (q_t (x_q c0)) -> exists t, elem (x_tm (s_ctx s)) (ix z) = Some t /\ pget (x_tm (s_ctx s)) z = Ok t.
Proof.
  intros F Q. destruct (bo_tm _ (sized_banks _ (K_sized s F))) as (l & L & N). rewrite K_qty in N by auto. rewrite L.
  destruct (nth_lt_some l (ix z)) as (t & T); [unfold in_qty, ix in *; lia|]. exists t. split; auto. apply pget_elem; auto. unfold in_qty in Q; lia.
Qed.
Lemma s_mts col r v (Q : Z -> st -> Prop) s : (r < rows)%nat -> (col < cols)%nat -> peek c0 (LData n r col 0) = Some (VVal v) ->
  in_qty (v_raw v) (q_t (x_q c0)) -> (forall x, Q x s) -> K s -> wp U (mts col r) Q s.
Proof.
  intros R C D I0 H F. unfold mts. apply wp_bind, (s_midx col r v); auto. apply wp_bind, wp_getc, wp_bind, wp_lift.
  destruct (timer_get s (v_raw v)) as (t & _ & ->); auto. apply wp_ret, H.
Qed.

(** Steps that write. *)
Lemma s_emit ev (Q : unit -> st -> Prop) s : scan_event ev -> (forall s', K s' -> Q tt s') -> K s -> wp U (emit E ev) Q s.
Proof.
  intros S H F. apply H. destruct HP as [A B C D]. apply (K_step s _ WE); auto.
  - simpl. now apply A.
  - simpl. apply C; auto. apply F.
Qed.
Lemma s_millis (Q : Z -> st -> Prop) s : (forall t s', K s' -> Q t s') -> K s -> wp U (millis E) Q s.
Proof. intros H F. unfold millis. unfold wp. cbv zeta.
  apply (wp_bind U). apply s_emit; simpl; auto. intros s' F'. apply wp_ret. auto. Qed.
Lemma s_panic (Q : unit -> st -> Prop) s : (forall s', K s' -> Q tt s') -> K s -> wp U (panic E) Q s.
Proof. intros H F. unfold panic. apply wp_bind, wp_getc. destruct (h_panic _); [apply s_emit; simpl; auto|]. apply H; auto. Qed.
Lemma s_set_state x (Q : unit -> st -> Prop) s : (forall s', K s' -> Q tt s') -> K s -> wp U (set_state x) Q s.
Proof. intros H F. apply wp_modc, H. apply (K_status s _ LState); auto; try discriminate. intros l L. destruct l; simpl; auto. congruence. Qed.
Lemma s_set_err x (Q : unit -> st -> Prop) s : (forall s', K s' -> Q tt s') -> K s -> wp U (set_err x) Q s.
Proof. intros H F. apply wp_modc, H. apply (K_status s _ LErr); auto; try discriminate. intros l L. destruct l; simpl; auto. congruence. Qed.
Lemma s_mput col r b (Q : unit -> st -> Prop) s : (r < rows)%nat -> (col < cols)%nat -> (forall s', K s' -> Q tt s') -> K s -> wp U (mput col r b) Q s.
Proof.
  intros R C H F. unfold mput. apply wp_updc. unfold put_state. destruct (K_cell s r col) as (x & X); auto.
  replace (x_exec (s_ctx s)) with (Some n) by (symmetry; apply F). rewrite (upd_cell_ok _ _ _ _ _ _ X). simpl.
  apply H, (K_status s _ (LPow n r col)); auto; try discriminate.
  - intros l L. pose proof (put_pow_frame n r col b (s_ctx s) l) as Z. unfold put_pow in Z. rewrite X in Z. apply Z. congruence.
  - intros z Z. unfold holds in Z. simpl in Z. destruct (cell_of _ n r col) in Z; discriminate.
Qed.
Lemma s_put_reg b z v (Q : unit -> st -> Prop) s : in_qty z (bank_qty b (x_q c0)) -> typed_at (LReg b (ix z)) v -> (forall s', K s' -> Q tt s') -> K s ->
  wp U (updc (bk_put b z v)) Q s.
Proof.
  intros I0 T H F. apply wp_updc. destruct (bank_get s b z F I0) as (u & Hu & G). unfold bk_get in G.
  unfold bk_put. apply holds_elem in Hu. rewrite <- arr_of_bank in Hu. unfold elem in Hu. destruct (arr_of b (s_ctx s)) as [l|] eqn:A; [|discriminate]. simpl in Hu.
  pose proof (nth_some_lt _ _ _ Hu) as L. unfold pset. replace (idx_ok l z) with true by (symmetry; apply idx_ok_spec; unfold in_qty, ix in *; lia).
  simpl. apply H. fold (ix z).
  apply (K_put s _ (LReg b (ix z)) v); auto.
  - intros l0 L0. rewrite <- (put_reg_frame b (ix z) v (s_ctx s) l0) by congruence. unfold put_reg. rewrite <- arr_of_bank, A. reflexivity.
  - unfold holds. assert (X := put_reg_here b (ix z) v (s_ctx s) u). unfold put_reg in X. rewrite <- arr_of_bank, A in X. apply X. exact Hu.
Qed.
Lemma s_mflag_set b col r v x (Q : unit -> st -> Prop) s : (r < rows)%nat -> (col < cols)%nat -> peek c0 (LData n r col 0) = Some (VVal v) ->
  flag_bank b -> in_qty (v_raw v) (bank_qty b (x_q c0)) -> (forall s', K s' -> Q tt s') -> K s -> wp U (mflag_set b col r x) Q s.
Proof.
  intros R C D B I0 H F. unfold mflag_set. apply wp_bind, (s_midx col r v); auto. apply s_put_reg; auto.
  destruct b; try contradiction; simpl; destruct x; simpl; lia.
Qed.
Lemma s_mcount_set col r v x (Q : unit -> st -> Prop) s : (r < rows)%nat -> (col < cols)%nat -> peek c0 (LData n r col 0) = Some (VVal v) ->
  in_qty (v_raw v) (q_c (x_q c0)) -> (forall s', K s' -> Q tt s') -> K s -> wp U (mcount_set col r x) Q s.
Proof.
  intros R C D I0 H F. unfold mcount_set. apply wp_bind, (s_midx col r v); auto. apply s_put_reg; auto.
  simpl. unfold u32. apply Z.mod_pos_bound. lia.
Qed.
Lemma s_tm z f (Q : unit -> st -> Prop) s : in_qty z (q_t (x_q c0)) -> (forall t, 0 <= t_acc t < 2 ^ 32 -> 0 <= t_acc (f t) < 2 ^ 32) ->
  (forall s', K s' -> Q tt s') -> K s -> wp U (updc (tm_put z f)) Q s.
Proof.
  intros I0 FT H F. apply wp_updc. unfold tm_put. destruct (timer_get s z F I0) as (t & T1 & T2). rewrite T2. simpl.
  unfold elem in T1. destruct (x_tm (s_ctx s)) as [l|] eqn:A; [|discriminate]. simpl in T1.
  pose proof (nth_some_lt _ _ _ T1) as L. unfold pset. replace (idx_ok l z) with true by (symmetry; apply idx_ok_spec; unfold in_qty, ix in *; lia).
  simpl. apply H. fold (ix z).
  assert (CH : changes_only (s_ctx s) (set_x_tm (Some (lset l (ix z) (f t))) (s_ctx s)) (fun l => l = LTs (ix z) \/ l = LAcc (ix z))).
  { intros l0 L0. rewrite <- (put_tm_frame (ix z) (f t) (s_ctx s) l0); [|intros ->; auto..]. unfold put_tm. rewrite A. reflexivity. }
  eapply K_step; [exact F|exact CH| |].
  - intros l0 [-> | ->] X; exact X.
  - intros l0 y Y. cbn [s_ctx inc] in Y. destruct (loc_eq_dec l0 (LTs (ix z))) as [->|N1]; [exact I|].
    destruct (loc_eq_dec l0 (LAcc (ix z))) as [->|N2].
    + unfold holds in Y. simpl in Y. rewrite nth_lset_same in Y by auto. simpl in Y. injection Y as <-. simpl. apply FT.
      destruct F as (_ & T & _). apply (T (LAcc (ix z))). unfold holds. simpl. rewrite A. simpl. now rewrite T1.
    + destruct F as (_ & T & _). apply T. unfold holds in *. rewrite <- Y. symmetry. apply CH. intros [X|X]; auto.
Qed.
Lemma s_mts_set col r v x (Q : unit -> st -> Prop) s : (r < rows)%nat -> (col < cols)%nat -> peek c0 (LData n r col 0) = Some (VVal v) ->
  in_qty (v_raw v) (q_t (x_q c0)) -> (forall s', K s' -> Q tt s') -> K s -> wp U (mts_set col r x) Q s.
Proof. intros R C D I0 H F. unfold mts_set. apply wp_bind, (s_midx col r v); auto. apply s_tm; auto. Qed.
Lemma s_macc_set col r v x (Q : unit -> st -> Prop) s : (r < rows)%nat -> (col < cols)%nat -> peek c0 (LData n r col 0) = Some (VVal v) ->
  in_qty (v_raw v) (q_t (x_q c0)) -> 0 <= x < 2 ^ 32 -> (forall s', K s' -> Q tt s') -> K s -> wp U (macc_set col r x) Q s.
Proof. intros R C D I0 X H F. unfold macc_set. apply wp_bind, (s_midx col r v); auto. apply s_tm; auto. Qed.

(** Reading operands. *)
Lemma K_bad s v : K s -> bad_index (s_ctx s) v <-> bad_index c0 v.
Proof. intros F. unfold bad_index. now rewrite K_qty. Qed.
Lemma K_banks s : K s -> (forall b, bank_arr b (s_ctx s) <> None) /\ x_tm (s_ctx s) <> None.
Proof.
  intros F. pose proof (sized_banks _ (K_sized s F)) as [A (l & B & _)]. split; [|congruence].
  intros b. destruct (A b) as (x & -> & _). discriminate.
Qed.
Lemma K_reads s v : K s -> read_ok c0 v -> (exists z, reads (s_ctx s) v z /\ possible v z) \/
  (v_type v = R_R /\ ~ bad_index c0 v /\ exists u, holds (s_ctx s) (LReg B_R (ix (v_raw v))) u /\ f32_to_i32 u = Bad UB_float).
Proof.
  intros F (RC & RP). pose proof (K_bad s v F) as BI. destruct (K_banks s F) as (BK & BT). pose proof (K_stores s F) as ST.
  assert (TY : typed (s_ctx s)) by apply F.
  destruct (bad_b (s_ctx s) v) eqn:BB.
  - apply bad_b_spec in BB. left. exists 0. split.
    + left. split; auto. split; auto. destruct (v_type v); auto.
    + unfold possible. unfold bad_index in BB. destruct (v_type v); simpl in BB; try contradiction; try lia; unfold fits; lia.
  - assert (NB : ~ bad_index (s_ctx s) v) by (intros X; apply bad_b_spec in X; congruence).
    assert (REG : forall b, bank_of (v_type v) = Some b -> exists u, holds (s_ctx s) (LReg b (ix (v_raw v))) u).
    { intros b B. destruct (bank_get s b (v_raw v) F) as (u & X & _); [|eauto].
      unfold bad_b in BB. rewrite K_qty in BB by auto.
      destruct (v_type v); simpl in B; try discriminate; injection B as <-; now apply negb_false_iff, below_spec in BB. }
    assert (ACC : v_type v = R_T -> exists u, holds (s_ctx s) (LAcc (ix (v_raw v))) u).
    { intros V. destruct (timer_get s (v_raw v) F) as (t & X & _).
      - unfold bad_b in BB. rewrite V, K_qty in BB by auto. now apply negb_false_iff, below_spec in BB.
      - exists (t_acc t). unfold holds. simpl. now rewrite X. }
    assert (PRT : forall l, target (s_ctx s) v = Some l -> exists z, holds (s_ctx s) l z /\ typed_at l z).
    { intros l T. destruct (target_holds _ _ _ ST T) as (z & Z & _). exists z. split; auto. }
    destruct (v_type v) eqn:V; try (left; exists (v_raw v); split; [right; rewrite V; auto|unfold possible; rewrite V; auto]; fail);
      try (left; exists 0; split; [right; rewrite V; auto|unfold possible; rewrite V; auto]; fail).
    all: try (destruct (REG _ eq_refl) as (u & Hu); pose proof (TY _ _ Hu) as Tu; simpl in Tu).
    all: try (left; exists u; split; [right; rewrite V; split; auto; unfold holds_flag; auto; split; auto; lia|unfold possible; rewrite V; auto]; fail).
    all: try (left; exists (i32 u); split; [right; rewrite V; eauto|unfold possible; rewrite V; apply i32_fits]; fail).
    1-4: left; unfold port_ok in RP; rewrite V in RP; rewrite <- K_io with (s := s) in RP by auto; rewrite <- (K_target s v F) in RP.
    1-4: match type of RP with ?a < ?b -> _ => destruct (a <? b) eqn:LT end;
      [ destruct (target (s_ctx s) v) as [l|] eqn:T; [|exfalso; apply RP; [lia|reflexivity]];
        destruct (PRT _ eq_refl) as (z & Z1 & Z2); apply target_port in T; rewrite V in T; subst l; exists z;
        split; [right; rewrite V, LT; auto|unfold possible; rewrite V; exact Z2]
      | exists 0; split; [right; rewrite V, LT; auto|unfold possible; rewrite V; unfold fits; lia] ].
    + left. destruct (ACC eq_refl) as (u & Hu). pose proof (TY _ _ Hu) as Tu. simpl in Tu. exists (Z.min u (2 ^ 31 - 1)).
      split; [right; rewrite V; eauto|unfold possible; rewrite V; lia].
    + destruct (f32_cases u) as [(z & Z1 & Z2)|Z1].
      * left. exists z. split; [right; rewrite V; eauto|unfold possible; rewrite V; auto].
      * right. split; auto. split; [tauto|eauto].
Qed.
Lemma K_mark s v : K s -> K (inc s (mark (s_ctx s) v)).
Proof.
  intros F. unfold mark. destruct (bad_b _ _).
  - apply (K_status s _ LErr); auto; try discriminate. intros l L. destruct l; simpl; auto. congruence.
  - destruct s as [a b]. exact F.
Qed.
(** What a read leaves alone. *)
Lemma c0_operand r col i : (r < rows)%nat -> (col < cols)%nat ->
  (exists bar k dq, peek c0 (LCell n r col) = Some (VCell bar k dq) /\ (dq <= i)%nat /\ input c0 n r col i = mk_value R_NONE 0 None)
  \/ (operand_at c0 n r col i (input c0 n r col i)).
Proof.
  intros R C. destruct (c0_cell r col R C) as (bar & k & dq & X & _ & Y). unfold operand_at, input. rewrite X.
  destruct (Nat.ltb_spec i dq) as [L|L]; [right|left; eauto 10].
  destruct Y as [->|(m & M & G)]; [lia|]. split; [|eauto].
  unfold arg. simpl in M |- *. destruct (cell_of c0 n r col) as [x|]; [|discriminate]. simpl in M |- *. apply size_arr in M as (l & D & <-). rewrite D.
  simpl. destruct (nth_lt_some l i) as (v & V); [lia|]. rewrite V. reflexivity.
Qed.
Lemma reads_mark c v w z : reads c w z -> reads (mark c v) w z.
Proof. unfold mark. destruct (bad_b c v); auto. Qed.
Lemma get_cases r col i s : (r < rows)%nat -> (col < cols)%nat -> read_ok c0 (input c0 n r col i) -> K s ->
  (v_type (input c0 n r col i) = R_R /\ get_data_value E r col i s = Bad UB_float)
  \/ exists z s1 s2, possible (input c0 n r col i) z /\ get_data_value E r col i s = Ok (z, s1) /\ K s1 /\ get_data_value E r col i s1 = Ok (z, s2) /\ K s2.
Proof.
  intros R C RO F. destruct (c0_operand r col i R C) as [(bar & k & dq & X & L & IN)|O].
  - assert (G : get_data_value E r col i s = Ok (0, s)).
    { apply (get_data_value_missing E s n r col i bar k dq); auto using K_executing. now rewrite K_meta by (simpl; auto). }
    right. exists 0, s, s. rewrite IN. split; [reflexivity|auto].
  - set (v := input c0 n r col i) in *.
    assert (O' : forall s, K s -> operand_at (s_ctx s) n r col i v).
    { intros s' F'. destruct O as (O1 & bar & k & dq & O2 & O3). split; [now rewrite K_data|]. exists bar, k, dq. rewrite K_meta by (simpl; auto). auto. }
    destruct (K_reads s v F RO) as [(z & Z1 & Z2)|(T & NB & u & U1 & U2)].
    + right. pose proof (K_mark s v F) as F1. pose proof (K_mark _ v F1) as F2.
      exists z, (inc s (mark (s_ctx s) v)). eexists. split; [auto|]. split; [apply (get_data_value_reads E s n r col i v z); auto using K_executing|].
      split; [auto|]. split; [|exact F2]. apply (get_data_value_reads E _ n r col i v z); auto using K_executing. cbn [inc s_ctx]. now apply reads_mark.
    + left. split; auto. unfold get_data_value. rewrite bind_getc. rewrite (bind_ok _ _ _ (Some v) s).
      2:{ unfold lift. rewrite (operand_ok _ n _ _ _ v); auto using K_executing. }
      rewrite T. destruct (safe_index_good (s_ctx s) v) as [SG SN]; auto.
      * now rewrite T.
      * now rewrite K_bad.
      * rewrite T. intros b _. apply (K_banks s F).
      * rewrite T in SG. rewrite SG. cbv zeta. change (is_ok E_OK) with true. cbv iota. unfold lift, reg_value.
        rewrite (holds_get (s_ctx s) B_R (v_raw v) u); auto. simpl. now rewrite U2.
Qed.
Lemma s_get r col i (Q : Z -> st -> Prop) s : (r < rows)%nat -> (col < cols)%nat -> read_ok c0 (input c0 n r col i) ->
  (v_type (input c0 n r col i) = R_R -> U UB_float) ->
  (forall z s', possible (input c0 n r col i) z -> K s' -> Q z s') -> K s -> wp U (get_data_value E r col i) Q s.
Proof.
  intros R C RO UF H F. unfold wp. destruct (get_cases r col i s R C RO F) as [[T ->]|(z & s1 & s2 & P & -> & F1 & _)]; simpl; auto.
Qed.
Lemma hist_len (p : arr) q i : p = None \/ (exists m, size p = Some (VN m) /\ (q <= m)%nat) -> (i < q)%nat -> p = None \/ exists z, elem p i = Some z.
Proof. intros [->|(m & M & L)] I0; [auto|]. right. apply size_arr in M as (l & -> & <-). simpl. apply nth_lt_some. lia. Qed.
Lemma K_prev s v : K s -> past_ok c0 v -> (exists z, prev_reads (s_ctx s) v z) \/ (v_type v = R_R /\ prev_of v (s_ctx s) = Bad UB_float).
Proof.
  intros F (NB & RP). pose proof (K_stores s F) as ST. assert (TY : typed (s_ctx s)) by apply F.
  assert (REG : forall b b', bank_of (v_type v) = Some b -> bank_qty b' (x_q c0) = bank_qty b (x_q c0) ->
            0 <= v_raw v /\ exists u, holds (s_ctx s) (LReg b' (ix (v_raw v))) u).
  { intros b b' B B'. assert (Q : in_qty (v_raw v) (bank_qty b (x_q c0))).
    { destruct (below (v_raw v) (bank_qty b (x_q c0))) eqn:BL; [now apply below_spec|]. apply below_false in BL. exfalso. apply NB.
      unfold bad_index. destruct (v_type v); simpl in B; try discriminate; injection B as <-; exact BL. }
    split; [unfold in_qty in Q; lia|]. destruct (bank_get s b' (v_raw v) F) as (u & X & _); [now rewrite B'|eauto]. }
  assert (ACC : v_type v = R_T -> 0 <= v_raw v /\ exists u, holds (s_ctx s) (LAcc (ix (v_raw v))) u).
  { intros V. assert (Q : in_qty (v_raw v) (q_t (x_q c0))).
    { destruct (below (v_raw v) (q_t (x_q c0))) eqn:BL; [now apply below_spec|]. apply below_false in BL. exfalso. apply NB. unfold bad_index. now rewrite V. }
    split; [unfold in_qty in Q; lia|]. destruct (timer_get s (v_raw v) F Q) as (t & X & _).
    exists (t_acc t). unfold holds. simpl. now rewrite X. }
  assert (PRT : forall l, target (s_ctx s) v = Some l -> exists z, holds (s_ctx s) l z).
  { intros l T. destruct (target_holds _ _ _ ST T) as (z & Z & _). eauto. }
  pose proof (v_module_nn v) as MN. pose proof (v_port_nn v) as PN.
  assert (FL : forall b u, flag_bank b -> holds (s_ctx s) (LReg b (ix (v_raw v))) u -> holds_flag (s_ctx s) (LReg b (ix (v_raw v))) u).
  { intros b u FB Hu. split; auto. apply TY in Hu. destruct b; try contradiction; simpl in Hu; lia. }
  unfold prev_reads, prev_of. destruct (v_type v) eqn:V; try (left; eauto; fail).
  - left. destruct (REG _ B_Mh eq_refl eq_refl) as (P & u & Hu). eauto.
  - left. destruct (K_modules s F) as [_ MO]. destruct (v_module v <? Z.of_nat (io_wq (x_io (s_ctx s)))) eqn:LT; [|eauto].
    destruct (MO (ix (v_module v))) as (id & qd & qa & P & Q); [unfold ix; lia|].
    destruct (v_port v <? Z.of_nat qd) eqn:LP; [|exists 0; exists id, qd, qa; rewrite LP; auto].
    pose proof P as P'. specialize (Q K_Qh). simpl in P', Q. destruct (elem (x_out (s_ctx s)) (ix (v_module v))) as [om|] eqn:OM; [|discriminate]. simpl in Q.
    assert (X : o_Qh om = None \/ exists z, elem (o_Qh om) (ix (v_port v)) = Some z).
    { apply (hist_len _ qd); [destruct Q as [Q|Q]; [left; now destruct (o_Qh om)|right; exact Q]|unfold ix; lia]. }
    destruct X as [X|(z & X)]; [exists 0|exists z]; exists id, qd, qa; rewrite LP; split; auto; [left|right].
    + unfold peek. rewrite OM. simpl. now rewrite X.
    + unfold holds, peek. rewrite OM. simpl. now rewrite X.
  - left. destruct (K_modules s F) as [MO _]. destruct (v_module v <? Z.of_nat (io_rq (x_io (s_ctx s)))) eqn:LT; [|eauto].
    destruct (MO (ix (v_module v))) as (id & qd & qa & P & Q); [unfold ix; lia|].
    destruct (v_port v <? Z.of_nat qd) eqn:LP; [|exists 0; exists id, qd, qa; rewrite LP; auto].
    pose proof P as P'. specialize (Q K_Ih). simpl in P', Q. destruct (elem (x_in (s_ctx s)) (ix (v_module v))) as [om|] eqn:OM; [|discriminate]. simpl in Q.
    assert (X : i_Ih om = None \/ exists z, elem (i_Ih om) (ix (v_port v)) = Some z).
    { apply (hist_len _ qd); [destruct Q as [Q|Q]; [left; now destruct (i_Ih om)|right; exact Q]|unfold ix; lia]. }
    destruct X as [X|(z & X)]; [exists 0|exists z]; exists id, qd, qa; rewrite LP; split; auto; [left|right].
    + unfold peek. rewrite OM. simpl. now rewrite X.
    + unfold holds, peek. rewrite OM. simpl. now rewrite X.
  - left. destruct (REG _ B_Cdh eq_refl eq_refl) as (P & u & Hu). eauto using I.
  - left. destruct (REG _ B_Crh eq_refl eq_refl) as (P & u & Hu). eauto using I.
  - left. destruct (REG _ B_Tdh eq_refl eq_refl) as (P & u & Hu). eauto using I.
  - left. destruct (REG _ B_Trh eq_refl eq_refl) as (P & u & Hu). eauto using I.
  - left. unfold port_ok in RP. rewrite V in RP. rewrite <- K_io with (s := s) in RP by auto. rewrite <- (K_target s v F) in RP.
    destruct (v_module v <? _) eqn:LT; [|eauto]. destruct (target (s_ctx s) v) as [l|] eqn:T; [|exfalso; apply RP; [lia|reflexivity]].
    destruct (PRT _ eq_refl) as (z & Z1). apply target_port in T. rewrite V in T. subst l. eauto.
  - left. unfold port_ok in RP. rewrite V in RP. rewrite <- K_io with (s := s) in RP by auto. rewrite <- (K_target s v F) in RP.
    destruct (v_module v <? _) eqn:LT; [|eauto]. destruct (target (s_ctx s) v) as [l|] eqn:T; [|exfalso; apply RP; [lia|reflexivity]].
    destruct (PRT _ eq_refl) as (z & Z1). apply target_port in T. rewrite V in T. subst l. eauto.
  - left. destruct (REG _ B_C eq_refl eq_refl) as (P & u & Hu). eauto.
  - left. destruct (ACC eq_refl) as (P & u & Hu). eauto.
  - left. destruct (REG _ B_D eq_refl eq_refl) as (P & u & Hu). eauto.
  - destruct (REG _ B_R eq_refl eq_refl) as (P & u & Hu). destruct (f32_cases u) as [(z & Z1 & Z2)|Z1]; [left; eauto|right].
    split; auto. rewrite (holds_get _ B_R (v_raw v) u); auto.
Qed.
Lemma s_prev r col i (Q : Z -> st -> Prop) s : (r < rows)%nat -> (col < cols)%nat -> past_ok c0 (input c0 n r col i) ->
  (v_type (input c0 n r col i) = R_R -> U UB_float) -> (forall z, Q z s) -> K s -> wp U (mprev col r i) Q s.
Proof.
  intros R C RO UF H F. pose proof (K_executing s r col R C F) as EX. unfold mprev. apply wp_bind, wp_getc, wp_lift. unfold get_previous_value.
  destruct (c0_operand r col i R C) as [(bar & k & dq & X & L & IN)|O].
  - rewrite (operand_none (s_ctx s) n r col i bar k dq); auto; [apply H|now rewrite K_meta by (simpl; auto)].
  - set (v := input c0 n r col i) in *. rewrite (operand_ok (s_ctx s) n r col i v); auto.
    2:{ destruct O as (O1 & bar & k & dq & O2 & O3). split; [now rewrite K_data|]. exists bar, k, dq. rewrite K_meta by (simpl; auto). auto. }
    simpl. destruct (K_prev s v F RO) as [(z & Z)|[T Z]].
    + rewrite (prev_ok _ _ _ Z). apply H.
    + rewrite Z. simpl. auto.
Qed.
Lemma s_set r col i w v (Q : err -> st -> Prop) s : (r < rows)%nat -> (col < cols)%nat -> peek c0 (LData n r col i) = Some (VVal v) ->
  word_dest v \/ w = 0 \/ w = 1 -> (forall e s', K s' -> Q e s') -> K s -> wp U (set_data r col i w) Q s.
Proof.
  intros R C D WD H F. unfold wp. rewrite (set_data_wr s n r col i v w); auto using K_executing, K_stores; [|now rewrite K_data].
  apply H. simpl. destruct (target (s_ctx s) v) as [l|] eqn:T.
  - apply (K_put s _ l (kept (v_type v) w)); auto.
    + intros l' L'. apply wr_frame. congruence.
    + apply target_place in T. destruct l; auto.
    + apply wr_here; auto using K_stores.
    + apply kept_typed; [|eapply target_kind; eauto]. unfold word_dest in WD. destruct (v_type v); auto; destruct WD as [[]|WD]; auto.
  - unfold wr. rewrite T. destruct s; exact F.
Qed.
Lemma s_foreign id col r (Q : err -> st -> Prop) s : (forall e s', K s' -> Q e s') -> K s -> wp U (call_foreign E id col r) Q s.
Proof.
  intros H F. unfold wp, call_foreign. destruct (fexec E (length (s_tr s)) id col r (s_ctx s)) as [e c'] eqn:X. simpl. apply H.
  replace c' with (snd (fexec E (length (s_tr s)) id col r (s_ctx s))) by (rewrite X; auto).
  destruct HP as [A B C D]. apply (K_step s _ WE); auto; simpl; [apply A|apply D; apply F].
Qed.

(** Tables. *)
Lemma K_net s m : K s -> (m < q_nets (x_q c0))%nat -> exists en a b nt, peek c0 (LNet m) = Some (VNet en a b)
  /\ net_of (s_ctx s) m = Some nt /\ n_en nt = en /\ n_rows nt = a /\ n_cols nt = b
  /\ forall r col, (r < a)%nat -> (col < b)%nat -> exists x, ncell nt r col = Some x /\ cell_of (s_ctx s) m r col = Some x
       /\ (c_dq x = 0%nat \/ exists l, c_data x = Some l /\ (c_dq x <= length l)%nat).
Proof.
  intros F M. destruct (wc_cells _ H0 m M) as (en & a & b & P & _ & X). pose proof (K_meta s (LNet m) F I) as PM. rewrite P in PM.
  unfold peek in PM. destruct (net_of (s_ctx s) m) as [nt|] eqn:N; [|discriminate]. simpl in PM. injection PM as <- <- <-.
  exists (n_en nt), (n_rows nt), (n_cols nt), nt. repeat split; auto. intros r col R C. destruct (X r col R C) as (bar & i & dq & P1 & _ & P3).
  rewrite <- (K_meta s (LCell m r col) F I) in P1. simpl in P1. destruct (cell_of (s_ctx s) m r col) as [x|] eqn:CX; [|discriminate]. simpl in P1. injection P1 as <- <- <-.
  exists x. rewrite <- (cell_of_net _ _ _ _ _ N). repeat split; auto. destruct P3 as [P3|(k & P3 & P4)]; [auto|right].
  rewrite <- (K_meta s (LDataLen m r col) F I) in P3. simpl in P3. rewrite CX in P3. simpl in P3. apply size_arr in P3 as (l & D & <-). eauto.
Qed.
Lemma K_pnet s z : K s -> 0 <= z < Z.of_nat (q_nets (x_q c0)) -> exists nt, net_of (s_ctx s) (ix z) = Some nt /\ pget (x_net (s_ctx s)) z = Ok nt.
Proof.
  intros F Z0. destruct (K_net s (ix z) F) as (en & a & b & nt & _ & N & _); [unfold ix; lia|]. exists nt. split; auto. apply pget_elem; [lia|exact N].
Qed.
Lemma slot_ok s z pos : K s -> 0 <= z < Z.of_nat (q_nets (x_q c0)) -> 0 <= pos ->
  (exists e, table_slot z pos (s_ctx s) = Ok (inl e))
  \/ exists r cl v x, table_slot z pos (s_ctx s) = Ok (inr (r, cl, v)) /\ cell_of (s_ctx s) (ix z) r cl = Some x.
Proof.
  intros F Z0 P. destruct (K_net s (ix z) F) as (en & a & b & nt & _ & N & EN & A & B & CE); [unfold ix; lia|].
  unfold table_slot. rewrite K_qty by auto. replace (_ <=? z) with false by lia. rewrite (pget_elem _ z nt) by (try lia; exact N). simpl.
  destruct (net_size nt <=? pos) eqn:SZ; [eauto|]. destruct (Nat.eqb_spec (n_cols nt) 0) as [Z1|Z1].
  { unfold net_size in SZ. rewrite Z1, Z.mul_0_r in SZ. change (u32 0) with 0 in SZ. lia. }
  match goal with |- context[if ?x then _ else _] => destruct x eqn:G end; [eauto|]. apply orb_false_iff in G as [G1 G2].
  apply Nat.leb_gt in G1, G2. set (r := Z.to_nat (pos / Z.of_nat (n_cols nt))) in *. set (cl := Z.to_nat (pos mod Z.of_nat (n_cols nt))) in *.
  destruct (CE r cl) as (x & X1 & X2 & X3); [lia|lia|]. rewrite (cell_in_of _ _ _ _ X1). simpl.
  destruct (Nat.ltb_spec (c_dq x) 1) as [D|D]; [eauto|]. destruct X3 as [X3|(l & X3 & X4)]; [lia|]. rewrite X3. simpl.
  destruct l as [|v t]; [simpl in X4; lia|]. unfold lget. simpl. destruct (is_table_type (v_type v)); [|eauto]. right. exists r, cl, v, x. auto.
Qed.
Lemma u32_nn z : 0 <= u32 z. Proof. unfold u32. apply Z.mod_pos_bound. lia. Qed.
Lemma read_ok_t s z : K s -> 0 <= z < Z.of_nat (q_nets (x_q c0)) -> forall k pos, 0 <= pos -> exists x, read_table k z pos (s_ctx s) = Ok x.
Proof.
  intros F Z0. induction k as [|k IH]; intros pos P; simpl; [eauto|]. unfold get_table.
  destruct (slot_ok s z pos F Z0 P) as [(e & ->)|(r & cl & v & x & -> & _)]; simpl; [eauto|].
  destruct (IH (u32 (pos + 1)) (u32_nn _)) as (y & ->). simpl. destruct y; eauto.
Qed.
Lemma write_ok_t z a b : 0 <= z < Z.of_nat (q_nets (x_q c0)) -> peek c0 (LNet (ix z)) = Some (VNet false a b) ->
  forall zs pos s, K s -> 0 <= pos -> exists e c', write_table zs z pos (s_ctx s) = Ok (e, c') /\ K (inc s c').
Proof.
  intros Z0 DIS. induction zs as [|y t IH]; intros pos s F P; simpl.
  { exists E_OK, (s_ctx s). split; auto. }
  unfold set_table. destruct (slot_ok s z pos F Z0 P) as [(e & ->)|(r & cl & v & x & -> & CX)]; simpl.
  - destruct (is_ok e); [apply IH; auto using u32_nn|]. exists e, (s_ctx s). split; auto.
  - fold (ix z). rewrite (upd_cell_ok _ _ _ _ _ _ CX). simpl.
    assert (F' : K (inc s (put_cell (ix z) r cl (set_data0 y x) (s_ctx s)))).
    { destruct F as (F1 & F2 & F3). split; [|split].
      - intros l L X Y. rewrite <- (F1 l L X Y). simpl. apply table_put_frame; auto. intros ->. eapply Y; [reflexivity|exact DIS].
      - intros l w W0. apply F2. unfold holds in *. cbn [s_ctx inc] in W0. destruct (loc_eq_dec l (LData (ix z) r cl 0)) as [->|NE].
        + simpl in W0. destruct (cell_of _ _ _ _) as [x'|] in W0; simpl in W0; [|discriminate]. destruct (elem (c_data x') 0); discriminate.
        + rewrite <- W0. symmetry. apply table_put_frame; auto.
      - simpl. pose proof (table_put_frame (ix z) r cl y (s_ctx s) x LExec CX ltac:(discriminate)) as TE. simpl in TE. congruence. }
    destruct (IH (u32 (pos + 1)) _ F' (u32_nn _)) as (e & c' & W1 & W2). exists e, c'. split; [exact W1|]. exact W2.
Qed.

(** ** One instruction *)
Lemma possible_fits v z : read_ok c0 v -> possible v z -> fits z.
Proof. intros (A & _) P. unfold possible in P. unfold fits in *. destruct (v_type v); subst; auto; lia. Qed.
Lemma possible_ex v : exists z, possible v z.
Proof. unfold possible, fits. destruct (v_type v); try (exists 0; lia); eauto. Qed.
Lemma norm_range a : 0 <= norm_amount a < 32 /\ (norm_amount a = 0 <-> a mod 32 = 0).
Proof.
  unfold norm_amount. pose proof (Z.rem_bound_abs a 32 ltac:(lia)) as B. pose proof (Z.quot_rem a 32 ltac:(lia)) as QR.
  set (q := Z.quot a 32) in *. set (m := Z.rem a 32) in *.
  destruct (m <? 0) eqn:L.
  - assert (a mod 32 = m + 32) by (symmetry; apply (Z.mod_unique a 32 (q - 1)); lia). lia.
  - assert (a mod 32 = m) by (symmetry; apply (Z.mod_unique a 32 q); lia). lia.
Qed.
Lemma has_data r col j : has_operand c0 n r col j -> peek c0 (LData n r col j) = Some (VVal (arg c0 n r col j)).
Proof.
  intros (v & V). rewrite V. unfold arg. simpl in V. unfold operand. simpl. destruct (cell_of c0 n r col) as [x|]; simpl in *; [|discriminate].
  destruct (elem (c_data x) j); simpl in *; congruence.
Qed.

Section Instr.
Variables (r col : nat).
Hypothesis R : (r < rows)%nat.
Hypothesis C : (col < cols)%nat.
Hypothesis AR : cell_exact c0 n r col \/ forall u, arithmetic u -> U u.
Definition good (f : nat -> nat -> M err) : Prop := forall s, K s -> wp U (f col r) (fun _ s' => K s') s.

Lemma no_real j : In j (converted (code_at c0 n r col)) -> v_type (input c0 n r col j) = R_R -> U UB_float.
Proof. intros I0 T. destruct AR as [(A & _)|A]; [exfalso; eapply A; eauto|]. apply A. unfold arithmetic. simpl; auto 10. Qed.
Lemma tolerated u : arithmetic u -> ~ cell_exact c0 n r col -> U u. Proof. intros A B. destruct AR; [contradiction|auto]. Qed.

Ltac low := first [assumption | lia | (simpl; auto; fail) | (eapply no_real; eauto; fail)].
Ltac ss :=
  match goal with
  | |- wp _ (bind _ _) _ _ => apply wp_bind
  | |- wp _ (ret _) _ _ => apply wp_ret
  | |- wp _ getc _ _ => apply wp_getc
  | |- wp _ (mleft _ _) _ _ => apply s_mleft; [low|low| |assumption]; intros []
  | |- wp _ (mstate _ _) _ _ => apply s_mstate; [low|low| |assumption]; intros []
  | |- wp _ (mput _ _ _) _ _ => apply s_mput; [low|low| |assumption]; intros ? ?
  | |- wp _ (midx _ _) _ _ => eapply s_midx; [low|low|eassumption| |assumption]
  | |- wp _ (mpreset _ _) _ _ => eapply s_mpreset; [low|low|eassumption| |assumption]
  | |- wp _ (mfactor _ _) _ _ => eapply s_mfactor; [low|low|eassumption|assumption| |assumption]; intros ?
  | |- wp _ (mflag _ _ _) _ _ => eapply s_mflag; [low|low|eassumption|exact I|assumption| |assumption]; intros []
  | |- wp _ (mflag_set _ _ _ _) _ _ => eapply s_mflag_set; [low|low|eassumption|exact I|assumption| |assumption]; intros ? ?
  | |- wp _ (mcount _ _) _ _ => eapply s_mcount; [low|low|eassumption|assumption| |assumption]; intros ?
  | |- wp _ (mcount_set _ _ _) _ _ => eapply s_mcount_set; [low|low|eassumption|assumption| |assumption]; intros ? ?
  | |- wp _ (mts _ _) _ _ => eapply s_mts; [low|low|eassumption|assumption| |assumption]; intros ?
  | |- wp _ (mts_set _ _ _) _ _ => eapply s_mts_set; [low|low|eassumption|assumption| |assumption]; intros ? ?
  | |- wp _ (millis _) _ _ => apply s_millis; [|assumption]; intros ? ? ?
  | |- wp _ (get_data_value _ _ _ _) _ _ => apply s_get; [low|low|assumption|low| |assumption]; intros ? ? ? ?
  | |- wp _ (mprev _ _ _) _ _ => apply s_prev; [low|low|assumption|low| |assumption]; intros ?
  | |- wp _ (if ?b then _ else _) _ _ => destruct b eqn:?
  end; try assumption.

Lemma u16_range z : 0 <= u16 z < 2 ^ 32. Proof. unfold u16. pose proof (Z.mod_pos_bound z (2 ^ 16) ltac:(lia)). lia. Qed.
Lemma u32_range z : 0 <= u32 z < 2 ^ 32. Proof. unfold u32. apply Z.mod_pos_bound. lia. Qed.

Lemma ok_plain : good (fn_NOP E) /\ good (fn_CONN E) /\ good (fn_NEG E).
Proof. split; [|split]; intros s F; unfold fn_NOP, fn_CONN, fn_NEG; repeat ss. Qed.
Lemma ok_contact : read_ok c0 (input c0 n r col 0) -> In 0%nat (converted (code_at c0 n r col)) -> good (fn_NO E) /\ good (fn_NC E).
Proof. intros RO IC. split; intros s F; unfold fn_NO, fn_NC; repeat ss. Qed.
Lemma ok_edge : read_ok c0 (input c0 n r col 0) -> past_ok c0 (input c0 n r col 0) -> In 0%nat (converted (code_at c0 n r col)) -> good (fn_RE E) /\ good (fn_FE E).
Proof. intros RO PO IC. split; intros s F; unfold fn_RE, fn_FE; repeat ss. Qed.
Lemma b2z_bit b : b2z b = 0 \/ b2z b = 1. Proof. destruct b; auto. Qed.
Lemma ok_coil : has_operand c0 n r col 0 -> good (fn_COIL E).
Proof.
  intros HO. apply has_data in HO. intros s F. unfold fn_COIL. repeat ss; eapply s_set; eauto; intros; ss.
Qed.
Lemma ok_latch : has_operand c0 n r col 0 -> past_ok c0 (input c0 n r col 0) -> In 0%nat (converted (code_at c0 n r col)) -> good (fn_COILL E) /\ good (fn_COILU E).
Proof.
  intros HO PO IC. apply has_data in HO. split; intros s F; unfold fn_COILL, fn_COILU; cbv zeta; repeat ss;
  (eapply s_set; eauto using b2z_bit; intros; ss).
Qed.

Ltac acc := eapply s_macc_set; [low|low|eassumption|assumption|auto using u16_range, u32_range; lia| |assumption]; intros ? ?; try assumption.
Lemma ok_timer : has_operand c0 n r col 0 -> has_operand c0 n r col 1 -> in_qty (v_raw (arg c0 n r col 0)) (q_t (x_q c0)) ->
  basetime (v_type (arg c0 n r col 1)) <> None -> (S r < rows)%nat -> good (fn_TON E) /\ good (fn_TOF E)
  /\ (past_ok c0 (input c0 n r col 0) -> In 0%nat (converted (code_at c0 n r col)) -> good (fn_TP E)).
Proof.
  intros D0 D1 IQ BT R1. apply has_data in D0, D1. change (q_t (x_q c0)) with (bank_qty B_Tr (x_q c0)) in IQ.
  assert (RUN : forall s (Q : unit -> st -> Prop), (forall s', K s' -> Q tt s') -> K s -> wp U (timer_run E col r) Q s).
  { intros s Q H F. unfold timer_run, timer_elapsed. repeat (first [ss|acc|(apply H; assumption)]). }
  assert (RST : forall s (Q : unit -> st -> Prop), (forall s', K s' -> Q tt s') -> K s -> wp U (timer_reset col r) Q s).
  { intros s Q H F. unfold timer_reset. repeat (first [ss|acc|(apply H; assumption)]). }
  assert (STA : forall s (Q : unit -> st -> Prop), (forall s', K s' -> Q tt s') -> K s -> wp U (timer_start E col r) Q s).
  { intros s Q H F. unfold timer_start. repeat (first [ss|acc|(apply H; assumption)]). }
  split; [|split]; [intros s F; unfold fn_TON|intros s F; unfold fn_TOF|intros PO IC s F; unfold fn_TP];
    repeat (first [ss|(apply RUN; [|assumption]; intros ? ?)|(apply RST; [|assumption]; intros ? ?)|(apply STA; [|assumption]; intros ? ?)]).
Qed.
Lemma ok_counter : has_operand c0 n r col 0 -> has_operand c0 n r col 1 -> in_qty (v_raw (arg c0 n r col 0)) (q_c (x_q c0)) ->
  (S r < rows)%nat -> good (fn_CTU E) /\ good (fn_CTD E).
Proof.
  intros D0 D1 IQ R1. apply has_data in D0, D1. change (q_c (x_q c0)) with (bank_qty B_Cr (x_q c0)) in IQ.
  assert (CND : forall s (Q : bool -> st -> Prop), (forall b, Q b s) -> K s -> wp U (counter_reset_cond col r) Q s).
  { intros s Q H F. unfold counter_reset_cond. destruct col eqn:CC; [repeat ss; apply H|]. apply s_mleft; auto; lia. }
  assert (RST : forall z s (Q : unit -> st -> Prop), (forall s', K s' -> Q tt s') -> K s -> wp U (counter_reset col r z) Q s).
  { intros z s Q H F. unfold counter_reset. repeat (first [ss|(apply H; assumption)]). }
  assert (CNT : forall z s (Q : unit -> st -> Prop), (forall s', K s' -> Q tt s') -> K s -> wp U (counter_count col r z) Q s).
  { intros z s Q H F. unfold counter_count. repeat (first [ss|(apply H; assumption)]). }
  split; [intros s F; unfold fn_CTU|intros s F; unfold fn_CTD];
    repeat (first [ss|(apply CND; [|assumption]; intros [])|(apply RST; [|assumption]; intros ? ?)|(apply CNT; [|assumption]; intros ? ?)]).
Qed.
Lemma s_chk z (Q : Z -> st -> Prop) s : (~ fits z -> U UB_overflow) -> Q z s -> wp U (chk z) Q s.
Proof.
  intros A B. unfold chk. destruct (in_i32 z) eqn:I0; [apply wp_ret; auto|]. apply wp_bad, A. unfold in_i32 in I0. unfold fits. lia.
Qed.
Lemma ok_binop op : read_ok c0 (input c0 n r col 0) -> read_ok c0 (input c0 n r col 1) -> has_operand c0 n r col 2 -> word_dest (arg c0 n r col 2) ->
  (forall j, In j [0;1]%nat -> In j (converted (code_at c0 n r col))) ->
  (forall a b s (Q : Z -> st -> Prop), possible (input c0 n r col 0) a -> possible (input c0 n r col 1) b -> (forall z, Q z s) -> K s -> wp U (op a b) Q s) ->
  good (binop E op).
Proof.
  intros A B D W IC OP s F. apply has_data in D. unfold binop.
  assert (IC0 := IC 0%nat ltac:(simpl; auto)). assert (IC1 := IC 1%nat ltac:(simpl; auto)). repeat ss.
  all: apply OP; [assumption..|intros ?|assumption]; ss; eapply s_set; eauto; intros; repeat ss.
Qed.
Lemma arith_in u : u = UB_overflow \/ u = UB_div \/ u = UB_shift \/ u = UB_float -> arithmetic u.
Proof. unfold arithmetic. simpl. intuition. Qed.

Lemma ok_sub : read_ok c0 (input c0 n r col 0) -> read_ok c0 (input c0 n r col 1) -> has_operand c0 n r col 2 -> word_dest (arg c0 n r col 2) ->
  (S (S r) < rows)%nat -> code_at c0 n r col = I_SUB -> good (fn_SUB E).
Proof.
  intros A B D W R2 CA s F. apply has_data in D. unfold fn_SUB.
  assert (IC0 : In 0%nat (converted (code_at c0 n r col))) by (rewrite CA; simpl; auto).
  assert (IC1 : In 1%nat (converted (code_at c0 n r col))) by (rewrite CA; simpl; auto).
  assert (CK : forall a b, possible (input c0 n r col 0) a -> possible (input c0 n r col 1) b -> ~ fits (a - b) -> U UB_overflow).
  { intros a b PA PB NF. apply tolerated; [apply arith_in; auto|]. intros (_ & X). specialize (X a b PA PB). rewrite CA in X. auto. }
  repeat ss; (apply s_chk; [intros; eapply CK; eauto|]; ss; eapply s_set; eauto; intros; repeat ss).
Qed.
Lemma ok_div : read_ok c0 (input c0 n r col 0) -> read_ok c0 (input c0 n r col 1) -> has_operand c0 n r col 2 -> word_dest (arg c0 n r col 2) ->
  code_at c0 n r col = I_DIV -> good (fn_DIV E).
Proof.
  intros A B D W CA s F. apply has_data in D. unfold fn_DIV.
  assert (IC0 : In 0%nat (converted (code_at c0 n r col))) by (rewrite CA; simpl; auto).
  assert (IC1 : In 1%nat (converted (code_at c0 n r col))) by (rewrite CA; simpl; auto).
  assert (CK : forall a b, possible (input c0 n r col 0) a -> possible (input c0 n r col 1) b -> (b =? 0) = false -> ~ fits (Z.quot a b) -> U UB_overflow).
  { intros a b PA PB NZ NF. apply tolerated; [apply arith_in; auto|]. intros (_ & X). specialize (X a b PA PB). rewrite CA in X. apply NF, X. lia. }
  repeat ss; try (eapply s_set; eauto; intros; repeat ss; fail).
  all: apply s_chk; [intros; eapply CK; [|eassumption| |]; eauto|]; ss; eapply s_set; eauto; intros; repeat ss.
Qed.
Lemma ok_not : read_ok c0 (input c0 n r col 0) -> has_operand c0 n r col 1 -> word_dest (arg c0 n r col 1) ->
  In 0%nat (converted (code_at c0 n r col)) -> good (fn_NOT E).
Proof.
  intros A D W IC s F. apply has_data in D. unfold fn_NOT. repeat ss; (eapply s_set; eauto; intros; repeat ss).
Qed.
Lemma ok_shift op : read_ok c0 (input c0 n r col 0) -> read_ok c0 (input c0 n r col 1) -> has_operand c0 n r col 0 -> word_dest (arg c0 n r col 0) ->
  (forall j, In j [0;1]%nat -> In j (converted (code_at c0 n r col))) ->
  (forall v b, possible (input c0 n r col 1) b -> wpr U (op v (norm_amount b)) (fun _ => True)) ->
  good (shiftop E op).
Proof.
  intros A B D W IC OP s F. apply has_data in D. unfold shiftop.
  assert (IC0 := IC 0%nat ltac:(simpl; auto)). assert (IC1 := IC 1%nat ltac:(simpl; auto)). repeat ss.
  apply wp_lift. match goal with |- wpr U (op ?a (norm_amount ?b)) _ => specialize (OP a b ltac:(assumption)); destruct (op a (norm_amount b)) end; simpl in *; auto.
  ss. eapply s_set; eauto; intros; repeat ss.
Qed.
Lemma ok_cmp op : read_ok c0 (input c0 n r col 0) -> read_ok c0 (input c0 n r col 1) ->
  (forall j, In j [0;1]%nat -> In j (converted (code_at c0 n r col))) -> good (cmpop E op).
Proof.
  intros A B IC s F. unfold cmpop. assert (IC0 := IC 0%nat ltac:(simpl; auto)). assert (IC1 := IC 1%nat ltac:(simpl; auto)). repeat ss.
Qed.
Lemma ok_move : read_ok c0 (input c0 n r col 0) -> good (fn_MOVE E).
Proof.
  intros A s F. unfold fn_MOVE. do 3 ss. apply wp_lift. destruct (K_cell s r col R C F) as (x & X).
  rewrite (ex_cell_ok _ n r col x) by (auto; apply F). cbn [wpr]. destruct (is_null (c_data x) || (c_dq x <? 2)%nat) eqn:G; [apply wp_ret; auto|].
  apply orb_false_iff in G as [_ G]. apply Nat.ltb_ge in G.
  assert (DQ : forall i, (i < 2)%nat -> input c0 n r col i = arg c0 n r col i /\ peek c0 (LData n r col i) = Some (VVal (arg c0 n r col i))).
  { intros i I2. destruct (c0_operand r col i R C) as [(bar & k & dq & P & L & IN)|O].
    - exfalso. rewrite <- (K_meta s (LCell n r col) F I) in P. simpl in P. rewrite X in P. simpl in P. injection P as <- <- <-. lia.
    - destruct O as (O1 & _). unfold arg. rewrite O1. auto. }
  destruct (DQ 0%nat ltac:(lia)) as [I0 D0]. destruct (DQ 1%nat ltac:(lia)) as [_ D1].
  ss. apply wp_lift. rewrite (s_ex_data s r col 0 _ R C F D0). cbn [wpr].
  ss. apply wp_lift. rewrite (s_ex_data s r col 1 _ R C F D1). cbn [wpr]. set (v0 := arg c0 n r col 0) in *. set (v1 := arg c0 n r col 1) in *.
  ss.
  assert (FIN : forall z s', K s' -> word_dest v1 -> wp U (e <- set_data r col 1 z ;; l <- mleft col r ;; mput col r l ;;; ret (if is_ok e then E_OK else E_SETDATAVAL))
      (fun _ s' => K s') s').
  { intros z s' F' W. ss. eapply s_set; eauto. intros e s2 F2. repeat ss. }
  assert (GET : v_type v0 <> R_R -> wp U (z <- get_data_value E r col 0 ;; ret (inr (z, false))) (fun a s2 =>
      wp U match a with inl e => ret e | inr (z, isf) =>
        if (if isf : bool then negb (move_float_dest (v_type v1)) else negb (move_int_dest (v_type v1))) then ret E_TYPEMISMATCH
        else e <- set_data r col 1 z ;; l <- mleft col r ;; mput col r l ;;; ret (if is_ok e then E_OK else E_SETDATAVAL) end (fun _ s' => K s') s2) s).
  { intros NR. ss. apply s_get; auto; [rewrite I0; congruence|]. intros z s2 _ F2. ss. destruct (move_int_dest (v_type v1)) eqn:MD; simpl; [|ss].
    apply FIN; auto. unfold word_dest. destruct (v_type v1); auto; discriminate. }
  unfold move_src. destruct (v_type v0) eqn:V0; try (ss; ss; fail); try (apply GET; congruence).
  ss. ss. rewrite K_qty by auto. destruct (Z.of_nat (q_r (x_q c0)) <=? u32 (v_raw v0)) eqn:LE; [repeat ss|]. ss. apply wp_lift.
  destruct (bank_get s B_R (u32 (v_raw v0)) F) as (u & _ & ->); [unfold in_qty; simpl; pose proof (u32_nn (v_raw v0)); lia|]. cbn [wpr].
  ss. destruct (move_float_dest (v_type v1)) eqn:MD; simpl; [|ss]. apply FIN; auto. unfold word_dest. destruct (v_type v1); auto; discriminate.
Qed.

Lemma ok_foreign : read_ok c0 (input c0 n r col 0) -> In 0%nat (converted (code_at c0 n r col)) -> good (fn_FOREIGN E).
Proof.
  intros A IC s F. unfold fn_FOREIGN. destruct (get_cases r col 0 s R C A F) as [[T G]|(z & s1 & s2 & _ & G & F1 & G1 & F2)].
  - apply wp_bind. unfold wp. rewrite G. simpl. eapply no_real; eauto.
  - apply wp_bind. unfold wp at 1. rewrite G. cbn [wpr fst snd]. ss. ss. destruct (_ <=? to_integer z) eqn:LE; [ss|].
    ss. unfold wp at 1. rewrite G1. cbn [wpr fst snd]. ss. ss. ss. apply wp_lift.
    assert (FF : forall s, K s -> x_for (s_ctx s) = x_for c0).
    { intros s' F'. pose proof (K_meta s' LForeign F' I) as X. simpl in X. congruence. }
    rewrite FF in * by auto. destruct (wc_extras _ H0) as [_ X]. specialize (X _ eq_refl (Z.to_nat (to_integer z))).
    assert (T0 : 0 <= to_integer z) by (unfold to_integer; destruct (z =? 0), (z =? 1); lia).
    destruct (elem (fo_fn (x_for c0)) (Z.to_nat (to_integer z))) as [f|] eqn:EL; [|exfalso; apply X; [lia|reflexivity]].
    rewrite (pget_elem _ _ f T0 EL). simpl. apply s_foreign; auto.
Qed.
Lemma ok_tmove : (forall j, (j < 5)%nat -> read_ok c0 (input c0 n r col j)) ->
  (forall z, possible (input c0 n r col 0) z \/ possible (input c0 n r col 2) z -> 0 <= z < Z.of_nat (q_nets (x_q c0))) ->
  code_at c0 n r col = I_TMOVE -> good (fn_TMOVE E).
Proof.
  intros RO NT CA s F. unfold fn_TMOVE.
  assert (G : forall j s (Q : Z -> st -> Prop), (j < 5)%nat -> (forall z s', possible (input c0 n r col j) z -> K s' -> Q z s') -> K s -> wp U (get_data_value E r col j) Q s).
  { intros j s' Q J H F'. apply s_get; auto. apply no_real. rewrite CA. simpl. destruct j as [|[|[|[|[|j]]]]]; auto 10; lia. }
  apply wp_bind, G; [lia| |auto]. intros dn s1 P0 F1. apply wp_bind, G; [lia| |auto]. intros dp s2 P1 F2.
  apply wp_bind, G; [lia| |auto]. intros sn s3 P2 F3. apply wp_bind, G; [lia| |auto]. intros sp s4 P3 F4.
  apply wp_bind, G; [lia| |auto]. intros qr s5 P4 F5. cbv zeta. set (q := if (_ || _) then 0 else qr).
  destruct (q =? 0); [repeat ss|]. ss. ss.
  pose proof (NT dn (or_introl P0)) as DN. pose proof (NT sn (or_intror P2)) as SN.
  assert (DU : u32 dn = dn). { pose proof (possible_fits _ _ (RO 0%nat ltac:(lia)) P0) as X. unfold fits in X. unfold u32. apply Z.mod_small. lia. }
  assert (SU : u32 sn = sn). { pose proof (possible_fits _ _ (RO 2%nat ltac:(lia)) P2) as X. unfold fits in X. unfold u32. apply Z.mod_small. lia. }
  destruct (K_pnet s5 dn F5 DN) as (nd & ND & PD). destruct (K_pnet s5 sn F5 SN) as (ns & NS & PS).
  ss. apply wp_lift. rewrite PD. cbn [wpr]. ss.
  assert (REST : forall Q : bool -> st -> Prop, Q (n_en nd || n_en ns) s5 -> wp U (if n_en nd then ret true else snet <- lift (pget (x_net (s_ctx s5)) sn) ;; ret (n_en snet)) Q s5).
  { intros Q X. destruct (n_en nd); [apply wp_ret; exact X|]. apply wp_bind, wp_lift. rewrite PS. apply wp_ret. exact X. }
  apply REST. destruct (n_en nd || n_en ns) eqn:EN; [repeat ss|]. apply orb_false_iff in EN as [EN _].
  ss. apply wp_lift. rewrite PS. cbn [wpr]. ss; [repeat ss|]. ss. apply wp_lift. rewrite SU, DU.
  destruct (read_ok_t s5 sn F5 SN (Z.to_nat q) (u32 sp) (u32_nn _)) as (x & ->). cbn [wpr]. destruct x as [e|zs]; [repeat ss|].
  ss. apply wp_lift.
  destruct (K_net s5 (ix dn) F5) as (en & a & b & nt & PN & N1 & N2 & N3 & N4 & _); [unfold ix; lia|].
  rewrite ND in N1. injection N1 as <-. rewrite EN in N2. subst en.
  destruct (write_ok_t dn a b DN PN zs (u32 dp) s5 F5 (u32_nn _)) as (e & c' & -> & F6). cbn [wpr].
  ss. apply wp_modc. change (inc s5 ((fun _ => c') (s_ctx s5))) with (inc s5 c'). destruct (is_ok e); repeat ss.
Qed.

(** Any instruction that is safe can be executed. *)
Lemma instr_good f : cell_safe c0 n rows r col -> ladder_function E (code_at c0 n r col) = Some f -> good f.
Proof.
  intros CS LF. unfold cell_safe in CS.
  destruct (code_at c0 n r col) eqn:CA; simpl in LF; try discriminate; injection LF as <-; cbv zeta in CS.
  all: match type of CA with _ = ?i => assert (CV : forall j, In j (converted i) -> In j (converted (code_at c0 n r col))) by (rewrite CA; auto); simpl in CV end.
  all: try (apply ok_plain); try (apply ok_contact; [assumption|apply CV; auto]; fail); try (apply ok_edge; try tauto; apply CV; auto; fail).
  all: try (apply ok_coil; auto; fail); try (apply ok_latch; try tauto; apply CV; auto; fail).
  all: try (destruct CS as (S1 & S2 & S3 & S4 & S5 & S6); destruct (ok_timer S1 S2 S3 S4 S5) as (T1 & T2 & T3); auto; apply T3; auto; apply CV; auto; fail).
  all: try (destruct CS as (S1 & S2 & S3 & S4); apply (ok_counter S1 S2 S3 S4); fail).
  all: try (destruct CS as (S1 & S2); apply ok_cmp; auto; intros j J; apply CV; simpl in J; tauto).
  all: try (destruct CS as (S1 & S2 & S3 & S4); apply ok_binop; auto;
    intros a b s Q PA PB HQ F; first [apply wp_ret, HQ | apply s_chk; [|apply HQ]; intros NF; apply tolerated; [apply arith_in; auto|];
      intros (_ & X); specialize (X a b PA PB); rewrite CA in X; auto]; fail).
  all: try (destruct CS as (S1 & S2 & S3 & S4); apply ok_shift; auto;
    intros v b PB; destruct (norm_range b) as [NR NZ]; unfold shl32, shr32;
    replace (0 <=? norm_amount b) with true by lia; replace (norm_amount b <? 32) with true by lia; cbn [andb rbind wpr]; auto).
  - apply ok_move; auto.
  - apply ok_sub; tauto.
  - apply ok_div; tauto.
  - destruct CS as (S1 & S2 & S3 & S4); apply ok_binop; auto.
    intros a b s Q PA PB HQ F. destruct (b =? 0) eqn:BZ.
    + apply wp_bad, tolerated; [apply arith_in; auto|]. intros (_ & X). specialize (X a b PA PB). rewrite CA in X. lia.
    + destruct ((a =? - 2 ^ 31) && (b =? -1)) eqn:MM; [|apply wp_ret, HQ]. apply wp_bad, tolerated; [apply arith_in; auto|].
      intros (_ & X). specialize (X a b PA PB). rewrite CA in X. destruct X as [_ X]. assert (a = - 2 ^ 31 /\ b = -1) as [-> ->] by lia.
      unfold fits in X. change (Z.quot (- 2 ^ 31) (-1)) with (2 ^ 31) in X. lia.
  - destruct (32 - norm_amount b <? 32) eqn:LT; [replace (0 <=? 32 - norm_amount b) with true by lia; cbn [andb rbind wpr]; auto|].
    destruct (0 <=? 32 - norm_amount b); cbn [andb rbind wpr]; apply tolerated; [apply arith_in; auto| |apply arith_in; auto|].
    all: intros (_ & X); destruct (possible_ex (input c0 n r col 0)) as (x & PX); specialize (X x b PX PB); rewrite CA in X; apply X, NZ; lia.
  - destruct (32 - norm_amount b <? 32) eqn:LT; [replace (0 <=? 32 - norm_amount b) with true by lia; cbn [andb rbind wpr]; auto|].
    destruct (0 <=? 32 - norm_amount b); cbn [andb rbind wpr]; apply tolerated; [apply arith_in; auto| |apply arith_in; auto|].
    all: intros (_ & X); destruct (possible_ex (input c0 n r col 0)) as (x & PX); specialize (X x b PX PB); rewrite CA in X; apply X, NZ; lia.
  - destruct CS as (S1 & S2 & S3). apply ok_not; auto; apply CV; auto.
  - apply ok_foreign; auto; apply CV; auto.
  - destruct CS as (S1 & S2 & S3 & S4 & S5 & S6). apply ok_tmove; auto. intros [|[|[|[|[|j]]]]] J; auto; lia.
Qed.
End Instr.

(** ** One network *)
Hypothesis HX : exact_program c0 \/ forall u, arithmetic u -> U u.

Lemma K_codes s r col x : (r < rows)%nat -> (col < cols)%nat -> K s -> cell_of (s_ctx s) n r col = Some x ->
  c_code x = code_at c0 n r col /\ (known (c_code x) \/ c_code x = I_MULTI).
Proof.
  intros R C F X. destruct (c0_cell r col R C) as (bar & i & dq & P & Q & _). unfold code_at. rewrite P.
  rewrite <- (K_meta s (LCell n r col) F I) in P. simpl in P. rewrite X in P. simpl in P. injection P as <- <- <-. auto.
Qed.
Lemma s_check cc (Q : bool -> st -> Prop) s : K s -> (forall b s', K s' -> Q b s') -> wp U (check_cycles E cc) Q s.
Proof.
  intros H G. unfold check_cycles. apply wp_bind, wp_getc, wp_bind.
  assert (A : forall s', K s' -> wp U (c2 <- getc;; (if si_maxcyc (x_si c2) <? cc
    then set_state S_ERROR;;; set_err E_OVERFLOW;;; panic E;;; ret false else ret true))%m Q s').
  { intros s' H'. apply wp_bind, wp_getc. destruct (_ <? _); [|apply wp_ret; auto].
    apply wp_bind, s_set_state; auto. intros s1 H1. apply wp_bind, s_set_err; auto. intros s2 H2.
    apply wp_bind, s_panic; auto. intros s3 H3. apply wp_ret; auto. }
  destruct (_ <? _); [apply s_panic; auto|apply wp_ret; auto].
Qed.
Lemma s_mcell r col (Q : cell -> st -> Prop) s : (r < rows)%nat -> (col < cols)%nat -> K s ->
  (forall x, cell_of (s_ctx s) n r col = Some x -> Q x s) -> wp U (mcell r col) Q s.
Proof.
  intros R C F H. unfold mcell. apply wp_bind, wp_getc, wp_lift. destruct (K_cell s r col R C F) as (x & X).
  rewrite (ex_cell_ok _ n r col x); auto; [apply H; auto|apply F].
Qed.
Lemma s_skip rs col cc (Q : option (Z * bool) -> st -> Prop) s : (forall k, In k rs -> (k < rows)%nat) -> (col < cols)%nat -> K s ->
  (forall o s', K s' -> Q o s') -> wp U (skip_loop E rs col cc) Q s.
Proof.
  intros RS C. revert cc s. induction rs as [|g t IH]; intros cc s F H; simpl; [apply wp_ret; auto|].
  apply wp_bind, s_check; auto. intros b s1 F1. destruct b; [|apply wp_ret; auto].
  assert (G : (g < rows)%nat) by (apply RS; simpl; auto).
  apply wp_bind, s_mcell; auto. intros x X. destruct (K_codes s1 g col x G C F1 X) as [_ KN].
  destruct (is_multi _) eqn:IM; [apply wp_ret; auto|].
  apply wp_bind, wp_lift. destruct (has_side_effects_on_false (c_code x)) as [bb|u|] eqn:B; simpl.
  - destruct bb; [apply wp_ret; auto|apply IH; auto]. intros k I0. apply RS. simpl; auto.
  - exfalso. destruct KN as [KN|KN]; [|rewrite KN in IM; discriminate]. unfold known in KN. destruct (c_code x); simpl in *; try discriminate; auto.
  - destruct (c_code x); discriminate.
Qed.
Lemma s_exec_cell col r (Q : bool -> st -> Prop) s : (r < rows)%nat -> (col < cols)%nat -> K s ->
  (forall b s', K s' -> Q b s') -> wp U (exec_cell E n col r) Q s.
Proof.
  intros R C F H. unfold exec_cell. apply wp_bind, s_mcell; auto. intros x X. destruct (K_codes s r col x R C F X) as [CC KN]. apply wp_bind, wp_modc.
  match goal with |- wp _ _ _ ?st1 => set (s1 := st1) end.
  assert (F1 : K s1).
  { assert (CH : changes_only (s_ctx s) (s_ctx s1) (fun l => l = LErr \/ l = LLast)) by (intros l L; destruct l; simpl; auto; exfalso; apply L; auto).
    eapply K_step; [exact F|exact CH|intros l [-> | ->] X0; exact X0|]. eapply typed_same; [apply F|exact CH|intros l z [-> | ->]; discriminate|].
    intros l. destruct (loc_eq_dec l LErr) as [->|]; [auto|]. destruct (loc_eq_dec l LLast) as [->|]; [auto|]. right. intros [?|?]; auto. }
  destruct (is_multi _); [apply wp_ret; auto|]. destruct (ladder_function E (c_code x)) as [f|] eqn:Hf.
  2:{ apply wp_bind, s_set_state; auto. intros s2 F2. apply wp_bind, s_set_err; auto. intros s3 F3. apply wp_ret; auto. }
  apply wp_bind. apply (wp_mono U _ (fun e s' => K s')).
  2:{ rewrite CC in Hf. apply (instr_good r col R C); auto.
      - destruct HX as [A|A]; [left; eapply A; eauto|right; auto].
      - eapply wc_safe; eauto. }
  intros e s2 F2.
  apply wp_bind, s_set_err; auto. intros s3 F3. destruct (is_ok e); [|apply wp_ret; auto].
  apply wp_bind, wp_getc, wp_bind. destruct (h_instr _); [apply s_emit; simpl; auto|]; intros; apply wp_ret; auto; apply wp_ret; auto.
Qed.
Lemma s_exec_rows col rs (Q : bool -> st -> Prop) s : (forall k, In k rs -> (k < rows)%nat) -> (col < cols)%nat -> K s ->
  (forall b s', K s' -> Q b s') -> wp U (exec_rows E n col rs) Q s.
Proof.
  revert s. induction rs as [|g t IH]; intros s Hr Hc F H; simpl; [apply wp_ret; auto|].
  apply wp_bind, s_exec_cell; auto with *. intros b s1 F1. destruct b; [|apply wp_ret; auto]. apply IH; auto with *.
Qed.
Lemma s_or col rs a (Q : bool -> st -> Prop) s : (forall k, In k rs -> (k < rows)%nat) -> (col < cols)%nat -> K s -> (forall b, Q b s) -> wp U (or_states col rs a) Q s.
Proof. revert a. induction rs as [|g t IH]; intros a Hr Hc F H; simpl; [apply wp_ret; auto|]. apply wp_bind, s_mstate; auto with *. Qed.
Lemma s_put col rs b (Q : unit -> st -> Prop) s : (forall k, In k rs -> (k < rows)%nat) -> (col < cols)%nat -> K s -> (forall s', K s' -> Q tt s') -> wp U (put_states col rs b) Q s.
Proof. revert s. induction rs as [|g t IH]; intros s Hr Hc F H; simpl; [apply wp_ret; auto|]. apply wp_bind, s_mput; auto with *. Qed.

Lemma K_exec s (Q : network -> Prop) : K s -> (forall nt, n_rows nt = rows -> n_cols nt = cols ->
  (forall r col, (r < rows)%nat -> (col < cols)%nat -> exists x, ncell nt r col = Some x) -> Q nt) -> wpr U (exec_net (s_ctx s)) Q.
Proof.
  intros F H. destruct HN as [QN PN]. destruct (K_net s n F QN) as (en & a & b & nt & P & N & _ & A & B & CE). rewrite PN in P. injection P as <- <- <-.
  unfold exec_net. replace (x_exec (s_ctx s)) with (Some n) by (symmetry; apply F). rewrite (net_at_of _ _ _ N). simpl. apply H; auto.
  intros r col R C. destruct (CE r col R C) as (x & X & _). eauto.
Qed.
Lemma s_bar nt f col g (Q : nat -> Prop) : (forall r, (r < n_rows nt)%nat -> exists x, ncell nt r col = Some x) ->
  (forall e, (g <= e)%nat -> (e = g \/ (e < n_rows nt)%nat) -> Q e) -> wpr U (bar_run f nt col g) Q.
Proof.
  intros CE. revert g. induction f as [|f IH]; intros g H; simpl; [apply H; auto|].
  destruct (S g <? n_rows nt)%nat eqn:L; [|apply H; auto]. apply Nat.ltb_lt in L. destruct (CE _ L) as (x & X). rewrite (cell_in_of _ _ _ _ X). simpl.
  destruct (c_bar x); [|apply H; auto]. apply IH. intros e A B. apply H; lia.
Qed.
Lemma s_lower nt f r col (Q : bool -> Prop) : (forall r' c', (r' < n_rows nt)%nat -> (c' < n_cols nt)%nat -> exists x, ncell nt r' c' = Some x) ->
  (r < n_rows nt)%nat -> (col + f <= n_cols nt)%nat -> (forall b, Q b) -> wpr U (lower_from f nt r col) Q.
Proof.
  intros CE R. revert col. induction f as [|f IH]; intros col L H; simpl; [apply H|]. destruct (CE r col R ltac:(lia)) as (x & X).
  rewrite (cell_in_of _ _ _ _ X). simpl. destruct (c_bar x); [|apply IH; auto; lia]. apply wpr_bind.
  destruct (S r <? n_rows nt)%nat eqn:LT; [|apply H]. apply Nat.ltb_lt in LT. destruct (CE (S r) col LT ltac:(lia)) as (y & Y).
  rewrite (cell_in_of _ _ _ _ Y). simpl. destruct (is_multi _); [apply IH; auto; lia|apply H].
Qed.
Lemma s_column g power col cc (Q : option Z -> st -> Prop) s : (g < rows)%nat -> (col < cols)%nat -> K s ->
  (forall o s', K s' -> Q o s') -> wp U (scan_column E n g power col cc) Q s.
Proof.
  intros Hg Hc F H. unfold scan_column. apply wp_bind, wp_getc, wp_bind, wp_lift, K_exec; auto. intros nt R C CE.
  apply wp_bind, wp_lift. unfold group_end. apply s_bar; [intros; apply CE; auto; lia|]. intros ge G1 G2. cbv zeta.
  assert (IN : forall k, In k (rows_of g ge) -> (k < rows)%nat) by (intros k I0; unfold rows_of in I0; apply in_seq in I0; lia).
  apply wp_bind, s_skip; auto. intros o s1 F1. destruct o as [[cc' sk]|]; [|apply wp_ret; auto].
  destruct (_ && _); [apply wp_ret; auto|]. apply wp_bind, s_exec_rows; auto. intros b s2 F2. destruct b.
  - apply wp_bind, s_or; auto. intros b. apply wp_bind, s_put; auto. intros s3 F3. apply wp_ret; auto.
  - apply wp_bind, s_set_state; auto. intros s3 F3. apply wp_ret; auto.
Qed.
Lemma s_columns f g power col cc (Q : option Z -> st -> Prop) s : (g < rows)%nat -> (cols <= col + f)%nat -> K s ->
  (forall o s', K s' -> Q o s') -> wp U (scan_columns E f n g power col cc) Q s.
Proof.
  intros Hg. revert col cc s. induction f as [|f IH]; intros col cc s Hf F H; simpl.
  - apply wp_bind. unfold mcols. apply wp_bind, wp_getc, wp_bind, wp_lift, K_exec; auto. intros nt R C _. apply wp_ret.
    replace (col <? n_cols nt)%nat with false by (symmetry; apply Nat.ltb_ge; lia). apply wp_ret; auto.
  - apply wp_bind. unfold mcols. apply wp_bind, wp_getc, wp_bind, wp_lift, K_exec; auto. intros nt R C _. apply wp_ret.
    destruct (col <? n_cols nt)%nat eqn:L; [|apply wp_ret; auto]. apply Nat.ltb_lt in L.
    apply wp_bind, s_column; auto; [lia|]. intros [cc'|] s1 F1; [|apply wp_ret; auto]. apply IH; auto; lia.
Qed.
Lemma s_rung row cc (Q : option (nat * Z) -> st -> Prop) s : (row < rows)%nat -> (0 < cols)%nat -> K s ->
  (forall o s', K s' -> (forall r z, o = Some (r, z) -> (row < r)%nat) -> Q o s') -> wp U (scan_rung E n row cc) Q s.
Proof.
  intros Hr Hc F H. unfold scan_rung. apply wp_bind, s_check; auto. intros b s1 F1.
  destruct b; [|apply wp_ret, H; auto; discriminate].
  apply wp_bind, s_mcell; auto. intros x X. destruct (is_multi _).
  { apply wp_ret, H; auto. intros r z Z. injection Z as <- _. lia. }
  apply wp_bind, wp_getc, wp_bind, wp_lift, K_exec; auto. intros nt R C CE.
  apply wp_bind, wp_lift. unfold group_end. apply s_bar; [intros; apply CE; auto; lia|]. intros ge G1 G2.
  apply wp_bind, wp_lift. unfold is_lower. apply s_lower; [intros; apply CE; lia|lia|lia|]. intros lw.
  apply wp_bind, s_columns; auto; [lia|]. intros [cc'|] s2 F2; [|apply wp_ret, H; auto; discriminate].
  apply wp_bind, wp_getc, wp_bind.
  destruct (h_scan_end _); [apply s_emit; simpl; auto; intros s3 F3|apply wp_ret]; apply wp_ret, H; auto;
    intros r z Z; injection Z as <- _; lia.
Qed.
Lemma s_rows f row cc (Q : bool -> st -> Prop) s : (0 < cols)%nat -> (rows <= row + f)%nat -> K s ->
  (forall b s', K s' -> Q b s') -> wp U (scan_rows E f n row cc) Q s.
Proof.
  intros Hc. revert row cc s. induction f as [|f IH]; intros row cc s Hf F H; simpl.
  - apply wp_bind. unfold mrows. apply wp_bind, wp_getc, wp_bind, wp_lift, K_exec; auto. intros nt R C _. apply wp_ret.
    replace (row <? n_rows nt)%nat with false by (symmetry; apply Nat.ltb_ge; lia). apply wp_ret; auto.
  - apply wp_bind. unfold mrows. apply wp_bind, wp_getc, wp_bind, wp_lift, K_exec; auto. intros nt R C _. apply wp_ret.
    destruct (row <? n_rows nt)%nat eqn:L; [|apply wp_ret; auto]. apply Nat.ltb_lt in L.
    apply wp_bind, s_rung; auto; [lia|]. intros [[r' cc']|] s1 F1 A; [|apply wp_ret; auto].
    specialize (A _ _ eq_refl). apply IH; auto; lia.
Qed.
End K.
