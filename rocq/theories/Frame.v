(** Weakest preconditions, and what every instruction may change, for arbitrary contexts. *)
From Verif Require Export SpecScan InstrLemmas.

(** ** Weakest preconditions: [U] tells which undefined behaviour is tolerated; running out of fuel never is. *)
Definition wpr {A} (U : ub -> Prop) (r : res A) (Q : A -> Prop) : Prop :=
  match r with Ok a => Q a | Bad u => U u | NoFuel => False end.
Definition wp {A} (U : ub -> Prop) (m : M A) (Q : A -> st -> Prop) (s : st) : Prop :=
  wpr U (m s) (fun p => Q (fst p) (snd p)).
Definition any (u : ub) : Prop := True.

Section W.
Variable U : ub -> Prop.
Lemma wp_ret {A} (a : A) (Q : A -> st -> Prop) s : Q a s -> wp U (ret a) Q s. Proof. auto. Qed.
Lemma wp_bind {A B} (m : M A) (k : A -> M B) (Q : B -> st -> Prop) s : wp U m (fun a => wp U (k a) Q) s -> wp U (bind m k) Q s.
Proof. unfold wp, bind. destruct (m s) as [[a s']| |]; auto. Qed.
Lemma wp_getc (Q : ctx -> st -> Prop) s : Q (s_ctx s) s -> wp U getc Q s. Proof. auto. Qed.
Lemma wp_lift {A} (r : res A) (Q : A -> st -> Prop) s : wpr U r (fun a => Q a s) -> wp U (lift r) Q s.
Proof. unfold wp, lift. destruct r; auto. Qed.
Lemma wp_updc f (Q : unit -> st -> Prop) s : wpr U (f (s_ctx s)) (fun c => Q tt (inc s c)) -> wp U (updc f) Q s.
Proof. unfold wp, updc. destruct (f (s_ctx s)); auto. Qed.
Lemma wp_modc f (Q : unit -> st -> Prop) s : Q tt (inc s (f (s_ctx s))) -> wp U (modc f) Q s. Proof. auto. Qed.
Lemma wp_bad {A} u (Q : A -> st -> Prop) s : U u -> wp U (bad u) Q s. Proof. auto. Qed.
Lemma wp_mono {A} (m : M A) (P Q : A -> st -> Prop) s : (forall a s', P a s' -> Q a s') -> wp U m P s -> wp U m Q s.
Proof. unfold wp. destruct (m s) as [[a s']| |]; simpl; auto. Qed.
Lemma wpr_mono {A} (r : res A) (P Q : A -> Prop) : (forall a, P a -> Q a) -> wpr U r P -> wpr U r Q.
Proof. destruct r; simpl; auto. Qed.
Lemma wpr_bind {A B} (m : res A) (k : A -> res B) (Q : B -> Prop) : wpr U m (fun a => wpr U (k a) Q) -> wpr U (rbind m k) Q.
Proof. destruct m; auto. Qed.
Lemma wp_ok {A} (m : M A) (Q : A -> st -> Prop) s a s' : wp U m Q s -> m s = Ok (a, s') -> Q a s'.
Proof. unfold wp. intros H E. rewrite E in H. auto. Qed.
Lemma wp_fuel {A} (m : M A) (Q : A -> st -> Prop) s : wp U m Q s -> m s <> NoFuel.
Proof. unfold wp. intros H E. rewrite E in H. auto. Qed.
End W.

(** Array accesses. *)
Lemma nf_pget {A} (p : option (list A)) z : pget p z <> NoFuel.
Proof. destruct p; simpl; [|discriminate]. unfold lget. destruct (idx_ok l z); [|discriminate].
  destruct (nth_error l (Z.to_nat z)); discriminate. Qed.
Lemma any_pget {A} (p : option (list A)) z (Q : A -> Prop) :
  (forall a, 0 <= z -> elem p (ix z) = Some a -> Q a) -> wpr any (pget p z) Q.
Proof. intros H. destruct (pget p z) as [a|u|] eqn:K; simpl.
  - apply pget_ok in K as [A1 A2]. auto.
  - exact I.
  - now apply nf_pget in K.
Qed.
Lemma any_pset {A} (p : option (list A)) z v (Q : option (list A) -> Prop) :
  (forall a, 0 <= z -> elem p (ix z) = Some a -> Q (option_map (fun l => lset l (ix z) v) p)) -> wpr any (pset p z v) Q.
Proof. intros H. destruct p as [l|]; simpl; [|exact I]. destruct (idx_ok l z) eqn:K; simpl; [|exact I].
  apply idx_ok_spec in K. destruct (nth_lt_some l (ix z)) as [a Ha]; [unfold ix; lia|].
  apply (H a); [lia|]. exact Ha.
Qed.
Lemma any_bool (p : arr) z (Q : bool -> Prop) : (forall b, Q b) -> wpr any (bget p z) Q.
Proof. intros H. unfold bget. apply wpr_bind, any_pget. intros a _ _. destruct (a =? 0); [apply H|].
  destruct (a =? 1); [apply H|exact I]. Qed.
Lemma any_float u (Q : Z -> Prop) : (forall z, Q z) -> wpr any (f32_to_i32 u) Q.
Proof. intros H. unfold f32_to_i32. cbv zeta. destruct (_ =? 255); [exact I|].
  match goal with |- context[in_i32 ?v] => destruct (in_i32 v) end; [apply H|exact I]. Qed.
Lemma any_net n c (Q : network -> Prop) : (forall nt, net_of c n = Some nt -> Q nt) -> wpr any (net_at n c) Q.
Proof. intros H. unfold net_at. unfold net_of, elem, obind in H. destruct (x_net c) as [l|]; [|exact I].
  unfold nth_res. destruct (nth_error l n); [apply H; auto|exact I]. Qed.
Lemma any_cell_in nt r col (Q : cell -> Prop) : (forall x, ncell nt r col = Some x -> Q x) -> wpr any (cell_in nt r col) Q.
Proof. intros H. unfold cell_in. unfold ncell, elem, obind in H. destruct (n_cells nt) as [l|]; [|exact I].
  apply wpr_bind. unfold nth_res. destruct (nth_error l r) as [rw|]; [|exact I]. simpl.
  destruct (nth_error rw col); [apply H; auto|exact I]. Qed.
Lemma any_ex_cell r col c (Q : cell -> Prop) :
  (forall n x, x_exec c = Some n -> cell_of c n r col = Some x -> Q x) -> wpr any (ex_cell r col c) Q.
Proof. intros H. unfold ex_cell. destruct (x_exec c) as [n|] eqn:X; [|exact I]. apply wpr_bind, any_net. intros nt N.
  apply any_cell_in. intros x K. apply (H n); auto. now rewrite (cell_of_net _ _ _ _ _ N). Qed.
Lemma any_ex_data r col i c (Q : value -> Prop) :
  (forall n v, x_exec c = Some n -> peek c (LData n r col i) = Some (VVal v) -> Q v) -> wpr any (ex_data r col i c) Q.
Proof. intros H. unfold ex_data. apply wpr_bind, any_ex_cell. intros n x X C. apply any_pget. intros v _ V.
  apply (H n); auto. simpl. rewrite C. simpl. unfold ix in V. rewrite Nat2Z.id in V. now rewrite V. Qed.
Lemma any_operand r col i c (Q : option value -> Prop) : (forall o, Q o) -> wpr any (operand r col i c) Q.
Proof. intros H. unfold operand. destruct (x_exec c); [|apply H]. apply wpr_bind, any_net. intros nt _.
  destruct (_ || _); [apply H|]. apply wpr_bind, any_cell_in. intros x _. destruct (_ <=? _)%nat; [apply H|].
  apply wpr_bind, any_pget. intros v _ _. apply H. Qed.
Lemma any_reg_value t i c (Q : Z -> Prop) : (forall z, Q z) -> wpr any (reg_value t i c) Q.
Proof. intros H. unfold reg_value, bk_get, bk_bool. destruct t; try exact (H _);
  repeat first [apply any_bool; intros | apply wpr_bind | apply any_pget; intros | apply any_float; intros | exact (H _)]. Qed.
Lemma any_out k m p c (Q : Z -> Prop) : (forall z, Q z) -> wpr any (out_get k m p c) Q.
Proof. intros H. unfold out_get. apply wpr_bind, any_pget. intros a _ _. apply any_pget; auto. Qed.
Lemma any_in k m p c (Q : Z -> Prop) : (forall z, Q z) -> wpr any (in_get k m p c) Q.
Proof. intros H. unfold in_get. apply wpr_bind, any_pget. intros a _ _. apply any_pget; auto. Qed.
Lemma any_prev r col i c (Q : Z -> Prop) : (forall z, Q z) -> wpr any (get_previous_value r col i c) Q.
Proof. intros H. unfold get_previous_value. apply wpr_bind, any_operand. intros [v|]; [|apply H].
  unfold prev_of. destruct (v_type v); try exact (H _); unfold bk_get, bk_bool;
  repeat first [ apply any_bool; intros | apply any_out; intros | apply any_in; intros | apply wpr_bind | apply any_pget; intros | apply any_float; intros
               | apply any_out; intros | apply any_in; intros | exact (H _)
               | match goal with |- wpr _ (if ?b then _ else _) _ => destruct b end ]. Qed.

(** ** Frame of the instructions *)

Lemma target_meta c c' v :
  (forall l, match l with LQty | LIo | LOutMeta _ | LInMeta _ => True | _ => False end -> peek c' l = peek c l) ->
  target c' v = target c v.
Proof.
  intros H. unfold target. rewrite (peek_qty c c') by (apply H; exact I). rewrite (peek_io c c') by (apply H; exact I).
  rewrite !(H (LOutMeta _)) by exact I. rewrite !(H (LInMeta _)) by exact I. auto.
Qed.

Section F.
Variables (E : env) (W : loc -> Prop) (c0 : ctx) (n : nat).
Hypothesis HE : env_writes E W.
Hypothesis HX : peek c0 LExec = Some (VExec (Some n)).
Hypothesis HN : forall rows cols, peek c0 (LNet n) <> Some (VNet false rows cols).
Hypothesis HW : forall l, W l -> is_layout l ->
  exists n' r col rows cols, peek c0 (LNet n') = Some (VNet false rows cols) /\ l = LData n' r col 0.

Definition fr (s : st) : Prop := changes_only c0 (s_ctx s) W.

Lemma fr_step s s' : fr s -> changes_only (s_ctx s) (s_ctx s') W -> fr s'.
Proof. apply changes_trans. Qed.
Lemma fr_layout s l : fr s -> is_layout l -> (forall n' r col i, l = LData n' r col i -> n' = n) ->
  peek (s_ctx s) l = peek c0 l.
Proof. intros F L D. apply F. intros K. destruct (HW l K L) as (n' & r & col & rows & cols & A & ->).
  rewrite (D _ _ _ _ eq_refl) in A. exact (HN _ _ A). Qed.
Lemma fr_exec s : fr s -> x_exec (s_ctx s) = Some n.
Proof. intros F. pose proof (fr_layout s LExec F I ltac:(discriminate)) as K. rewrite HX in K. simpl in K. congruence. Qed.
Lemma fr_data s r col i : fr s -> peek (s_ctx s) (LData n r col i) = peek c0 (LData n r col i).
Proof. intros F. apply fr_layout; simpl; auto. intros; congruence. Qed.
Lemma fr_target s v : fr s -> target (s_ctx s) v = target c0 v.
Proof. intros F. apply target_meta. intros l L. destruct l; try contradiction; apply fr_layout; simpl; auto; intros; discriminate. Qed.

(** Steps that only read. *)
Lemma f_mleft col r (Q : bool -> st -> Prop) s : (forall b, Q b s) -> wp any (mleft col r) Q s.
Proof. intros H. unfold mleft. apply wp_bind, wp_getc, wp_lift. unfold cleft. destruct col; [apply H|].
  unfold cstate. apply wpr_bind, any_ex_cell. intros; exact (H _). Qed.
Lemma f_mstate col r (Q : bool -> st -> Prop) s : (forall b, Q b s) -> wp any (mstate col r) Q s.
Proof. intros H. unfold mstate. apply wp_bind, wp_getc, wp_lift. unfold cstate. apply wpr_bind, any_ex_cell. intros; exact (H _). Qed.
Lemma f_mprev col r i (Q : Z -> st -> Prop) s : (forall b, Q b s) -> wp any (mprev col r i) Q s.
Proof. intros H. unfold mprev. apply wp_bind, wp_getc, wp_lift, any_prev. auto. Qed.
Lemma f_midx col r (Q : Z -> st -> Prop) s : (forall v, fr s -> peek c0 (LData n r col 0) = Some (VVal v) -> Q (v_raw v) s) -> fr s -> wp any (midx col r) Q s.
Proof. intros H F. unfold midx. apply wp_bind, wp_getc, wp_bind, wp_lift, any_ex_data. intros m v X V.
  apply wp_ret, H; auto. rewrite (fr_exec s F) in X. inversion X; subst m. now rewrite <- (fr_data s) by auto. Qed.
Lemma f_mpreset col r (Q : Z -> st -> Prop) s : (forall z, Q z s) -> wp any (mpreset col r) Q s.
Proof. intros H. unfold mpreset. apply wp_bind, wp_getc, wp_bind, wp_lift, any_ex_data. intros m v _ _. apply wp_ret, H. Qed.
Lemma f_mfactor col r (Q : Z -> st -> Prop) s : (forall z, Q z s) -> wp any (mfactor col r) Q s.
Proof. intros H. unfold mfactor. apply wp_bind, wp_getc, wp_bind, wp_lift, any_ex_data. intros m v _ _.
  apply wp_lift. unfold basetime_factor. apply (any_pget (Some _)). intros a _ _. apply H. Qed.
Lemma f_mflag b col r (Q : bool -> st -> Prop) s : (forall x, Q x s) -> fr s -> wp any (mflag b col r) Q s.
Proof. intros H F. unfold mflag. apply wp_bind, f_midx; auto. intros v _ _. apply wp_bind, wp_getc, wp_lift. unfold bk_bool.
  apply any_bool. auto. Qed.
Lemma f_mcount col r (Q : Z -> st -> Prop) s : (forall x, Q x s) -> fr s -> wp any (mcount col r) Q s.
Proof. intros H F. unfold mcount. apply wp_bind, f_midx; auto. intros v _ _. apply wp_bind, wp_getc, wp_lift. unfold bk_get.
  apply any_pget. auto. Qed.
Lemma f_mts col r (Q : Z -> st -> Prop) s : (forall x, Q x s) -> fr s -> wp any (mts col r) Q s.
Proof. intros H F. unfold mts. apply wp_bind, f_midx; auto. intros v _ _. apply wp_bind, wp_getc, wp_bind, wp_lift.
  apply any_pget. intros. apply wp_ret, H. Qed.

(** Steps that write. *)
Lemma f_emit ev (Q : unit -> st -> Prop) s : scan_event ev -> (forall s', fr s' -> Q tt s') -> fr s -> wp any (emit E ev) Q s.
Proof. intros S H F. apply H. apply (fr_step s); auto. simpl. now apply HE. Qed.
Lemma f_millis (Q : Z -> st -> Prop) s : (forall t s', fr s' -> Q t s') -> fr s -> wp any (millis E) Q s.
Proof. intros H F. unfold millis. unfold wp. cbv zeta.
  apply (wp_bind any). apply f_emit; simpl; auto. intros s' F'. apply wp_ret. auto. Qed.
Lemma f_panic (Q : unit -> st -> Prop) s : (forall s', fr s' -> Q tt s') -> fr s -> wp any (panic E) Q s.
Proof. intros H F. unfold panic. apply wp_bind, wp_getc. destruct (h_panic _); [apply f_emit; simpl; auto|]. apply H; auto. Qed.
Lemma f_set_state x (Q : unit -> st -> Prop) s : W LState -> (forall s', fr s' -> Q tt s') -> fr s -> wp any (set_state x) Q s.
Proof. intros S H F. apply wp_modc, H, (fr_step s); auto. intros l L. destruct l; simpl; auto. contradiction. Qed.
Lemma f_set_err x (Q : unit -> st -> Prop) s : W LErr -> (forall s', fr s' -> Q tt s') -> fr s -> wp any (set_err x) Q s.
Proof. intros S H F. apply wp_modc, H, (fr_step s); auto. intros l L. destruct l; simpl; auto. contradiction. Qed.
Lemma f_mput col r b (Q : unit -> st -> Prop) s : W (LPow n r col) -> (forall s', fr s' -> Q tt s') -> fr s -> wp any (mput col r b) Q s.
Proof.
  intros S H F. unfold mput. apply wp_updc. unfold put_state. rewrite (fr_exec s F).
  destruct (cell_of (s_ctx s) n r col) as [x|] eqn:C.
  - rewrite (upd_cell_ok _ _ _ _ _ _ C). simpl. apply H, (fr_step s); auto. simpl.
    intros l L. pose proof (put_pow_frame n r col b (s_ctx s) l) as K. unfold put_pow in K. rewrite C in K. apply K. congruence.
  - unfold upd_cell. apply wpr_bind, any_net. intros nt N. apply wpr_bind, any_cell_in. intros x K.
    rewrite (cell_of_net _ _ _ _ _ N) in C. congruence.
Qed.
Lemma f_put_reg b z v (Q : unit -> st -> Prop) s : (0 <= z -> W (LReg b (ix z))) -> (forall s', fr s' -> Q tt s') -> fr s ->
  wp any (updc (bk_put b z v)) Q s.
Proof.
  intros S H F. apply wp_updc. unfold bk_put. apply wpr_bind, any_pset. intros a P A.
  apply H, (fr_step s); auto. intros l L. simpl. rewrite arr_of_bank. apply (put_reg_frame b (ix z) v). intros ->. auto.
Qed.
Lemma f_mflag_set b col r v (Q : unit -> st -> Prop) s :
  (forall x, peek c0 (LData n r col 0) = Some (VVal x) -> 0 <= v_raw x -> W (LReg b (ix (v_raw x)))) ->
  (forall s', fr s' -> Q tt s') -> fr s -> wp any (mflag_set b col r v) Q s.
Proof. intros S H F. unfold mflag_set. apply wp_bind, f_midx; auto. intros x _ X. apply f_put_reg; auto. Qed.
Lemma f_mcount_set col r v (Q : unit -> st -> Prop) s :
  (forall x, peek c0 (LData n r col 0) = Some (VVal x) -> 0 <= v_raw x -> W (LReg B_C (ix (v_raw x)))) ->
  (forall s', fr s' -> Q tt s') -> fr s -> wp any (mcount_set col r v) Q s.
Proof. intros S H F. unfold mcount_set. apply wp_bind, f_midx; auto. intros x _ X. apply f_put_reg; auto. Qed.
Lemma f_tm z f (Q : unit -> st -> Prop) s : (0 <= z -> W (LTs (ix z)) /\ W (LAcc (ix z))) -> (forall s', fr s' -> Q tt s') -> fr s ->
  wp any (updc (tm_put z f)) Q s.
Proof.
  intros S H F. apply wp_updc. unfold tm_put. apply wpr_bind, any_pget. intros t P T. apply wpr_bind, any_pset. intros _ _ _.
  apply H, (fr_step s); auto. intros l L. simpl. destruct (S P) as [S1 S2]. apply (put_tm_frame (ix z) (f t)); intros ->; auto.
Qed.
Lemma f_mts_set col r v (Q : unit -> st -> Prop) s :
  (forall x, peek c0 (LData n r col 0) = Some (VVal x) -> 0 <= v_raw x -> W (LTs (ix (v_raw x))) /\ W (LAcc (ix (v_raw x)))) ->
  (forall s', fr s' -> Q tt s') -> fr s -> wp any (mts_set col r v) Q s.
Proof. intros S H F. unfold mts_set. apply wp_bind, f_midx; auto. intros x _ X. apply f_tm; auto. Qed.
Lemma f_macc_set col r v (Q : unit -> st -> Prop) s :
  (forall x, peek c0 (LData n r col 0) = Some (VVal x) -> 0 <= v_raw x -> W (LTs (ix (v_raw x))) /\ W (LAcc (ix (v_raw x)))) ->
  (forall s', fr s' -> Q tt s') -> fr s -> wp any (macc_set col r v) Q s.
Proof. intros S H F. unfold macc_set. apply wp_bind, f_midx; auto. intros x _ X. apply f_tm; auto. Qed.

Lemma f_get r col i (Q : Z -> st -> Prop) s : W LErr -> (bank_missing c0 -> W LState) ->
  (forall z s', fr s' -> Q z s') -> fr s -> wp any (get_data_value E r col i) Q s.
Proof.
  intros S1 S2 H F. unfold get_data_value. apply wp_bind, wp_getc, wp_bind, wp_lift, any_operand. intros [v|]; [|apply H; auto].
  assert (T : forall t, (reg_bank t (s_ctx s) <> None) -> wp any (let e := safe_index t (v_raw v) (s_ctx s) in
          if is_ok e then lift (reg_value t (v_raw v) (s_ctx s))
          else set_err e ;;; (if err_eqb e E_FAIL || err_eqb e E_TYPEMISMATCH
             then set_state S_ERROR ;;; panic E else ret tt) ;;; ret 0)%m Q s).
  { intros t B. cbv zeta. destruct (is_ok _); [apply wp_lift, any_reg_value; auto|].
    apply wp_bind, f_set_err; auto. intros s1 F1. apply wp_bind.
    match goal with |- wp _ (if ?b then _ else _) _ _ => destruct b eqn:K end.
    - apply wp_bind, f_set_state; auto.
      + apply S2. unfold safe_index in K. destruct (_ <? 0); [discriminate|].
        destruct (reg_bank t (s_ctx s)) as [[nl q]|] eqn:RB; [|congruence].
        destruct nl; [|destruct (_ <=? _); discriminate].
        assert (X : bank_missing (s_ctx s)).
        { unfold reg_bank in RB. destruct t; try discriminate;
          match type of RB with context[is_null (arr_of ?b _)] => left; exists b | _ => right end;
          injection RB as RB _; simpl; rewrite ?arr_of_bank in RB;
          match type of RB with is_null ?p = true => destruct p eqn:Z0; [discriminate|] end;
          simpl in Z0; rewrite ?Z0; reflexivity. }
        destruct X as [[b X]|X]; [left; exists b|right]; rewrite <- X; symmetry; apply fr_layout; simpl; auto; intros; discriminate.
      + intros s2 F2. apply f_panic; auto. intros. apply wp_ret; auto.
    - apply wp_ret, wp_ret; auto. }
  destruct (v_type v) eqn:VT; try (apply H; assumption); try (apply T; discriminate);
    (destruct (_ <=? _); [apply H; auto|apply wp_lift]); first [apply any_out | apply any_in]; auto.
Qed.

(** A completed write changed at most the target of its operand. *)
Lemma set_data_target r col i w c c' e : set_data_value r col i w c = Ok (e, c') ->
  exists v m, x_exec c = Some m /\ peek c (LData m r col i) = Some (VVal v)
    /\ changes_only c c' (fun l => target c v = Some l).
Proof.
  intros H. unfold set_data_value in H. destruct (ex_data r col i c) as [v|u|] eqn:X; try discriminate. simpl in H.
  assert (exists m, x_exec c = Some m /\ peek c (LData m r col i) = Some (VVal v)) as (m & M1 & M2).
  { pose proof (any_ex_data r col i c (fun v' => exists m, x_exec c = Some m /\ peek c (LData m r col i) = Some (VVal v'))) as A.
    rewrite X in A. simpl in A. apply A. eauto. }
  exists v, m. split; [auto|split;[auto|]].
  assert (BK : forall b z, bank_of (v_type v) = Some b -> is_ok (safe_index (v_type v) (v_raw v) c) = true ->
     bk_put b (v_raw v) z c = Ok c' -> changes_only c c' (fun l => target c v = Some l)).
  { intros b z B SI P. unfold bk_put in P. apply rbind_inv in P as (a & P & Q). injection Q as <-.
    pose proof (any_pset (arr_of b c) (v_raw v) z (fun a' => 0 <= v_raw v /\ a' = option_map (fun l => lset l (ix (v_raw v)) z) (arr_of b c))) as A.
    rewrite P in A. simpl in A. destruct A as [A1 ->]; [auto|].
    intros l L. rewrite arr_of_bank. apply (put_reg_frame b (ix (v_raw v)) z). intros ->. apply L.
    rewrite (target_reg _ _ _ B). unfold safe_index in SI. destruct (v_raw v <? 0) eqn:N; [discriminate|].
    assert (RB : exists nl, reg_bank (v_type v) c = Some (nl, bank_qty b (x_q c))).
    { destruct (v_type v); try discriminate; injection B as <-; simpl; eauto. }
    destruct RB as [nl RB]. rewrite RB in SI. destruct nl; [discriminate|]. unfold below.
    destruct (Z.of_nat (bank_qty b (x_q c)) <=? v_raw v) eqn:K; [discriminate|].
    replace ((0 <=? v_raw v) && (v_raw v <? Z.of_nat (bank_qty b (x_q c)))) with true by lia. auto. }
  assert (OT : forall k z om, v_type v = match k with K_Q => R_Q | _ => R_QW end -> (k = K_Q \/ k = K_QW) ->
     safe_port (v_type v) (v_module v) (v_port v) c = Ok E_OK -> pget (x_out c) (v_module v) = Ok om ->
     out_put k (v_module v) (v_port v) z c = Ok c' -> changes_only c c' (fun l => target c v = Some l)).
  { intros k z om T KK SP PG P. unfold out_put in P. rewrite PG in P. simpl in P.
    destruct (pset (o_arr k om) (v_port v) z) as [a| |] eqn:PS; try discriminate. simpl in P.
    assert (exists a0, elem (out_arr k om) (ix (v_port v)) = Some a0) as [a0 A0].
    { pose proof (any_pset (o_arr k om) (v_port v) z (fun _ => exists a0, elem (out_arr k om) (ix (v_port v)) = Some a0)) as A.
      rewrite PS in A. simpl in A. apply A. rewrite o_arr_out. eauto. }
    destruct (pget_ok _ _ _ PG) as [G1 G2].
    assert (P' : out_put k (v_module v) (v_port v) z c = Ok c').
    { unfold out_put. rewrite PG. simpl. rewrite PS. exact P. }
    rewrite (out_put_ok k (v_module v) (v_port v) z c om a0) in P'; auto; [|apply v_port_nn].
    injection P' as <-. intros l L. apply put_out_frame. intros ->. apply L.
    unfold target. rewrite T. unfold safe_port in SP. rewrite T in SP.
    rewrite PG in SP. pose proof (v_port_nn v).
    destruct KK as [-> | ->]; (destruct (is_null (x_out c)); [discriminate|]);
    destruct (Z.of_nat (io_wq (x_io c)) <=? v_module v) eqn:B1; try discriminate; simpl in SP;
    unfold below; replace ((0 <=? v_module v) && (v_module v <? Z.of_nat (io_wq (x_io c)))) with true by lia;
    unfold peek; rewrite G2; simpl;
    match type of SP with Ok (if ?b then _ else _) = _ => destruct b eqn:B2; [discriminate|] end;
    match goal with |- (if ?b then _ else _) = _ => replace b with true by lia end; auto. }
  assert (IT : forall k z om, v_type v = match k with K_I => R_I | _ => R_IW end -> (k = K_I \/ k = K_IW) ->
     safe_port (v_type v) (v_module v) (v_port v) c = Ok E_OK -> pget (x_in c) (v_module v) = Ok om ->
     in_put k (v_module v) (v_port v) z c = Ok c' -> changes_only c c' (fun l => target c v = Some l)).
  { intros k z om T KK SP PG P. unfold in_put in P. rewrite PG in P. simpl in P.
    destruct (pset (i_arr k om) (v_port v) z) as [a| |] eqn:PS; try discriminate. simpl in P.
    assert (exists a0, elem (in_arr k om) (ix (v_port v)) = Some a0) as [a0 A0].
    { pose proof (any_pset (i_arr k om) (v_port v) z (fun _ => exists a0, elem (in_arr k om) (ix (v_port v)) = Some a0)) as A.
      rewrite PS in A. simpl in A. apply A. rewrite i_arr_in. eauto. }
    destruct (pget_ok _ _ _ PG) as [G1 G2].
    assert (P' : in_put k (v_module v) (v_port v) z c = Ok c').
    { unfold in_put. rewrite PG. simpl. rewrite PS. exact P. }
    rewrite (in_put_ok k (v_module v) (v_port v) z c om a0) in P'; auto; [|apply v_port_nn].
    injection P' as <-. intros l L. apply put_in_frame. intros ->. apply L.
    unfold target. rewrite T. unfold safe_port in SP. rewrite T in SP.
    rewrite PG in SP. pose proof (v_port_nn v).
    destruct KK as [-> | ->]; (destruct (is_null (x_in c)); [discriminate|]);
    destruct (Z.of_nat (io_rq (x_io c)) <=? v_module v) eqn:B1; try discriminate; simpl in SP;
    unfold below; replace ((0 <=? v_module v) && (v_module v <? Z.of_nat (io_rq (x_io c)))) with true by lia;
    unfold peek; rewrite G2; simpl;
    match type of SP with Ok (if ?b then _ else _) = _ => destruct b eqn:B2; [discriminate|] end;
    match goal with |- (if ?b then _ else _) = _ => replace b with true by lia end; auto. }
  assert (ID : forall e', Ok (e', c) = Ok (e, c') -> changes_only c c' (fun l => target c v = Some l)).
  { intros e' K. injection K as _ <-. apply changes_refl. }
  destruct (v_type v) eqn:VT; cbv zeta in H; try (eapply ID; exact H);
  try (destruct (is_ok (safe_index _ _ _)) eqn:SI; [|eapply ID; exact H]; apply rbind_inv in H as (c1 & H & H2);
       injection H2 as _ <-; eapply BK; [reflexivity|first [assumption|reflexivity]|exact H]);
  (apply rbind_inv in H as (e1 & SP & H); destruct e1; cbv iota beta in H; try (eapply ID; exact H);
   change (is_ok E_OK) with true in H; cbv iota in H; apply rbind_inv in H as (om & PG & H);
   match type of H with (if ?b then _ else _) = _ => destruct b; [eapply ID; exact H|] end;
   apply rbind_inv in H as (c1 & H & H2); injection H2 as _ <-).
  - eapply (OT K_Q); eauto.
  - eapply (IT K_I); eauto.
  - eapply (IT K_IW); eauto.
  - eapply (OT K_QW); eauto.
Qed.
Lemma any_bk_put b z v c (Q : ctx -> Prop) : (forall c', Q c') -> wpr any (bk_put b z v c) Q.
Proof. intros H. unfold bk_put. apply wpr_bind, any_pset. intros. exact (H _). Qed.
Lemma any_out_put k m p v c (Q : ctx -> Prop) : (forall c', Q c') -> wpr any (out_put k m p v c) Q.
Proof. intros H. unfold out_put. apply wpr_bind, any_pget. intros. apply wpr_bind, any_pset. intros. apply wpr_bind, any_pset. intros. exact (H _). Qed.
Lemma any_in_put k m p v c (Q : ctx -> Prop) : (forall c', Q c') -> wpr any (in_put k m p v c) Q.
Proof. intros H. unfold in_put. apply wpr_bind, any_pget. intros. apply wpr_bind, any_pset. intros. apply wpr_bind, any_pset. intros. exact (H _). Qed.
Lemma any_safe_port t m p c (Q : err -> Prop) : (forall c', Q c') -> wpr any (safe_port t m p c) Q.
Proof. intros H. unfold safe_port. destruct t; try exact (H _);
  repeat first [ apply wpr_bind | apply any_pget; intros | exact (H _) | match goal with |- wpr _ (if ?b then _ else _) _ => destruct b end ]. Qed.
Lemma any_set_data r col i w c (Q : err * ctx -> Prop) :
  (forall e c', set_data_value r col i w c = Ok (e, c') -> Q (e, c')) -> wpr any (set_data_value r col i w c) Q.
Proof.
  intros H. destruct (set_data_value r col i w c) as [[e c']|u|] eqn:K; simpl; [auto|exact I|].
  assert (X : wpr any (set_data_value r col i w c) (fun _ => True)); [|rewrite K in X; exact X].
  clear. unfold set_data_value. apply wpr_bind, any_ex_data. intros m v _ _. cbv zeta.
  destruct (v_type v); try exact I;
  repeat first [ apply any_bk_put; intros | apply any_out_put; intros | apply any_in_put; intros | apply any_safe_port; intros
     | apply wpr_bind | apply any_pget; intros | exact I | match goal with |- wpr _ (if ?b then _ else _) _ => destruct b end ].
Qed.
Lemma f_set r col i w (Q : err -> st -> Prop) s :
  (forall v l, peek c0 (LData n r col i) = Some (VVal v) -> target c0 v = Some l -> W l) ->
  (forall e s', fr s' -> Q e s') -> fr s -> wp any (set_data r col i w) Q s.
Proof.
  intros S H F. unfold wp, set_data.
  pose proof (any_set_data r col i w (s_ctx s) (fun p => Q (fst p) (inc s (snd p)))) as A.
  destruct (set_data_value r col i w (s_ctx s)) as [[e c']|u|] eqn:K; simpl in *; auto.
  - apply H, (fr_step s); auto. simpl. destruct (set_data_target _ _ _ _ _ _ _ K) as (v & m & X & V & C).
    rewrite (fr_exec s F) in X. injection X as <-. rewrite fr_data in V by auto. eapply changes_mono; [|exact C].
    intros l L. simpl in L. rewrite fr_target in L by auto. eauto.
  - exact I.
  - apply A. intros; discriminate.
Qed.

(** Table writes touch first operands of the table's network only. *)
Lemma any_slot nt pos c (Q : err + nat * nat * value -> Prop) : (forall x, Q x) -> wpr any (table_slot nt pos c) Q.
Proof. intros H. unfold table_slot.
  repeat first [ apply any_cell_in; intros | apply wpr_bind | apply any_pget; intros | exact (H _) | exact I | match goal with |- wpr _ (if ?b then _ else _) _ => destruct b end ]. Qed.
Lemma any_read k nt pos c (Q : err + list Z -> Prop) : (forall x, Q x) -> wpr any (read_table k nt pos c) Q.
Proof. revert pos Q. induction k as [|k IH]; intros pos Q H; simpl; [apply H|]. apply wpr_bind. unfold get_table.
  apply wpr_bind, any_slot. intros [e|[[x y] v]]; simpl; [apply H|]. apply wpr_bind, IH. intros [e|zs]; exact (H _). Qed.
Lemma of_cell_dec m r col l : of_cell m r col l \/ ~ of_cell m r col l.
Proof.
  unfold of_cell. destruct l as [| | | | | | | | | | | | |n' r' c'|n' r' c'|n' r' c' i|n' r' c'| | | | | | | | | | | | | | |];
    try (right; intros [A|[A|[A|[i0 A]]]]; discriminate);
    (destruct (Nat.eq_dec n' m) as [->|]; [destruct (Nat.eq_dec r' r) as [->|]; [destruct (Nat.eq_dec c' col) as [->|]|]|];
     [left; eauto|right; intros [A|[A|[A|[i0 A]]]]; congruence..]).
Qed.
Lemma table_put_frame m r col z c x l : cell_of c m r col = Some x -> l <> LData m r col 0 ->
  peek (put_cell m r col (set_data0 z x) c) l = peek c l.
Proof.
  intros C L. destruct (of_cell_dec m r col l) as [O|O]; [|now apply put_cell_frame].
  destruct O as [->|[->|[->|[i ->]]]]; unfold peek; rewrite (put_cell_same _ _ _ _ _ _ C), C; simpl;
    unfold set_data0; destruct (c_data x) as [[|v0 t]|] eqn:D; try reflexivity; simpl; rewrite ?D; simpl; auto.
  destruct i; [congruence|reflexivity].
Qed.
Lemma any_write zs m pos (Q : err * ctx -> Prop) c (T : loc -> Prop) : (forall r col, T (LData m r col 0)) ->
  (forall e c', changes_only c c' T -> Q (e, c')) -> wpr any (write_table zs (Z.of_nat m) pos c) Q.
Proof.
  intros HT. revert pos c. induction zs as [|z t IH]; intros pos c H; simpl; [apply H, changes_refl|].
  apply wpr_bind. unfold set_table. apply wpr_bind, any_slot. intros [e|[[r cl] v]]; simpl.
  - destruct (is_ok e); [|apply H, changes_refl]. apply IH. intros; apply H; auto.
  - rewrite Nat2Z.id. destruct (cell_of c m r cl) as [x|] eqn:C.
    + rewrite (upd_cell_ok _ _ _ _ _ _ C). simpl. apply IH. intros e c' K. apply H. eapply changes_trans; [|exact K].
      intros l L. apply table_put_frame; auto. intros ->. auto.
    + apply wpr_bind. unfold upd_cell. apply wpr_bind, any_net. intros nt N. apply wpr_bind, any_cell_in. intros x K.
      rewrite (cell_of_net _ _ _ _ _ N) in C. congruence.
Qed.
Lemma f_foreign id col r (Q : err -> st -> Prop) s : (forall e s', fr s' -> Q e s') -> fr s -> wp any (call_foreign E id col r) Q s.
Proof. intros H F. unfold wp, call_foreign. destruct (fexec E (length (s_tr s)) id col r (s_ctx s)) as [e c'] eqn:K. simpl.
  apply H, (fr_step s); auto. simpl. replace c' with (snd (fexec E (length (s_tr s)) id col r (s_ctx s))) by (rewrite K; auto). apply HE. Qed.
End F.
