(** Whole scans of well-formed machines. *)
From Verif Require Export Safe CronStep.
From Verif Require Import P_Cron.

Lemma map_first_good {A} n (f : A -> res A) l : (forall i, (i < n)%nat -> exists x y, nth_error l i = Some x /\ f x = Ok y) -> exists l', map_first n f l = Ok l'.
Proof.
  revert l. induction n as [|n IH]; intros l H; simpl; [eauto|]. destruct (H 0%nat ltac:(lia)) as (x & y & X & Y). destruct l as [|z t]; [discriminate|].
  simpl in X. injection X as ->. rewrite Y. simpl. destruct (IH t) as (t' & ->); [|simpl; eauto]. intros i I0. apply (H (S i)). lia.
Qed.
Lemma clear_good nt : n_cells nt <> None -> (forall r col, (r < n_rows nt)%nat -> (col < n_cols nt)%nat -> exists x, ncell nt r col = Some x) ->
  exists nt', clear_states nt = Ok nt'.
Proof.
  intros NC CE. unfold clear_states. destruct (_ || _) eqn:Z0; [eauto|]. apply orb_false_iff in Z0 as [Z1 Z2]. apply Nat.eqb_neq in Z1, Z2.
  unfold ncell in CE. destruct (n_cells nt) as [rs|]; [|congruence]. simpl in CE.
  destruct (map_first_good (n_rows nt) (map_first (n_cols nt) (fun x => Ok (set_c_state false x))) rs) as (l' & ->); [|simpl; eauto].
  intros r R. destruct (CE r 0%nat R ltac:(lia)) as (x & X). unfold obind in X. destruct (nth_error rs r) as [rw|] eqn:RW; [|discriminate].
  destruct (map_first_good (n_cols nt) (fun x => Ok (set_c_state false x)) rw) as (y & Y); [|eauto 10].
  intros col C. destruct (CE r col R C) as (z & Z). rewrite RW in Z. simpl in Z. eauto.
Qed.

Section S.
Variables (U : ub -> Prop) (E : env) (WE : loc -> Prop) (c0 : ctx).
Hypothesis HP : polite E WE.
Hypothesis H0 : well_formed_ctx c0.
Hypothesis HX : exact_program c0 \/ forall u, arithmetic u -> U u.

Definition L (s : st) : Prop := keeps c0 s /\ typed (s_ctx s).
Definition at_net (n : nat) (s : st) : st := inc s (set_x_exec (Some n) (s_ctx s)).
Lemma L_exec x s : L s -> L (inc s (set_x_exec x (s_ctx s))).
Proof.
  intros [A B]. split.
  - intros l L0 X Y. rewrite <- (A l L0 X Y). destruct l; try reflexivity. congruence.
  - intros l z Z. apply B. unfold holds in *. rewrite <- Z. destruct l; try reflexivity; discriminate.
Qed.
Lemma L_at n s : L s -> K c0 n (at_net n s).
Proof. intros [A B]. destruct (L_exec (Some n) s (conj A B)) as [C D]. split; [exact C|split; [exact D|reflexivity]]. Qed.
Lemma K_L n s : K c0 n s -> L s. Proof. intros (A & B & _). split; auto. Qed.
Lemma L_step s s' D : L s -> changes_only (s_ctx s) (s_ctx s') D -> (forall l, D l -> ~ is_layout l) -> typed (s_ctx s') -> L s'.
Proof. intros (A & B) CH N T. split; auto. intros l L0 X Y. rewrite CH; [apply A; auto|]. intros Z. eapply N; eauto. Qed.
Lemma l_emit ev (Q : unit -> st -> Prop) s : scan_event ev -> (forall s', L s' -> Q tt s') -> L s -> wp U (emit E ev) Q s.
Proof.
  intros S H F. apply H. destruct HP as [A B C D]. apply (L_step s _ WE); auto.
  - simpl. now apply A.
  - simpl. apply C; auto. apply F.
Qed.
Lemma l_panic (Q : unit -> st -> Prop) s : (forall s', L s' -> Q tt s') -> L s -> wp U (panic E) Q s.
Proof. intros H F. unfold panic. apply wp_bind, wp_getc. destruct (h_panic _); [apply l_emit; simpl; auto|]. apply H; auto. Qed.
Lemma L_state x s : L s -> L (inc s (set_x_state x (s_ctx s))).
Proof.
  intros [A B]. split.
  - intros l L0 X Y. rewrite <- (A l L0 X Y). destruct l; try reflexivity. contradiction.
  - intros l z Z. apply B. unfold holds in *. rewrite <- Z. destruct l; try reflexivity; discriminate.
Qed.
Lemma l_set_state x (Q : unit -> st -> Prop) s : (forall s', L s' -> Q tt s') -> L s -> wp U (set_state x) Q s.
Proof. intros H F. apply wp_modc, H, L_state, F. Qed.
Lemma L_meta s l : L s -> match l with LQty | LIo | LOutMeta _ | LInMeta _ | LNet _ | LNets | LCell _ _ _ | LDataLen _ _ _ | LCron | LRegLen _ | LTmLen | LInLen _ _ | LOutLen _ _ | LForeign | LHooks => True | _ => False end ->
  peek (s_ctx s) l = peek c0 l.
Proof. intros [H _] L0. apply H; destruct l; try contradiction; simpl; auto; try discriminate. Qed.
Lemma L_qty s : L s -> x_q (s_ctx s) = x_q c0. Proof. intros H. apply peek_qty, L_meta; simpl; auto. Qed.

Lemma l_network net (Q : bool -> st -> Prop) s : (net < q_nets (x_q c0))%nat -> L s -> (forall b s', L s' -> Q b s') -> wp U (scan_network E net) Q s.
Proof.
  intros Hn F H. pose proof (L_at net s F) as F1. destruct (K_net c0 net H0 _ net F1 Hn) as (en & a & b & nt & P & N & EN & A & B & CE).
  change (net_of (s_ctx (at_net net s)) net) with (net_of (s_ctx s) net) in N.
  unfold scan_network. apply wp_bind, wp_getc, wp_bind, wp_lift. rewrite (net_at_of _ _ _ N). cbn [wpr].
  destruct (is_null (n_cells nt)) eqn:NC.
  { apply wp_bind, l_set_state; auto. intros s1 F2. apply wp_bind, l_panic; auto. intros s2 F3. apply wp_ret; auto. }
  rewrite EN. destruct en; [|apply wp_ret; auto].
  assert (SC : scanned c0 net a b) by (split; auto).
  apply wp_bind, wp_modc. fold (at_net net s). apply wp_bind, wp_updc.
  destruct (clear_good nt) as (nt' & CG); [destruct (n_cells nt); discriminate| |].
  { intros r col R C. destruct (CE r col) as (x & X & _); [lia|lia|eauto]. }
  assert (UN : exists c', upd_net net clear_states (s_ctx (at_net net s)) = Ok c').
  { unfold upd_net. rewrite (net_at_of net (s_ctx (at_net net s)) nt) by exact N. simpl. rewrite CG. simpl.
    unfold net_of, elem in N. destruct (x_net (s_ctx s)) as [l|]; [|discriminate]. eauto. }
  destruct UN as (c' & UN). rewrite UN. cbn [wpr]. pose proof (clear_net_ok _ _ _ UN) as [CH _].
  assert (COLS : (0 < b)%nat).
  { destruct (wc_cells _ H0 net Hn) as (en' & a' & b' & P' & Q' & _). rewrite P in P'. injection P' as <- <- <-. auto. }
  rewrite A. apply (s_rows U E WE c0 net a b HP H0 SC HX); auto; [|intros bb s' F2; apply H; eapply K_L; eauto].
  eapply K_step; [exact F1|exact CH|intros l (r & col & ->) X; exact X|].
  intros l z Z. destruct F1 as (_ & T & _). apply T. unfold holds in *. cbn [s_ctx inc] in Z. rewrite <- Z. symmetry. apply CH.
  intros (r & col & ->). simpl in Z. destruct (cell_of _ _ _ _) in Z; discriminate.
Qed.
Lemma l_networks f net (Q : unit -> st -> Prop) s : (q_nets (x_q c0) <= net + f)%nat -> L s -> (forall s', L s' -> Q tt s') -> wp U (scan_networks E f net) Q s.
Proof.
  revert net s. induction f as [|f IH]; intros net s Hf F H; simpl; apply wp_bind, wp_getc; rewrite L_qty by auto.
  - replace (net <? q_nets (x_q c0))%nat with false by (symmetry; apply Nat.ltb_ge; lia). apply wp_ret; auto.
  - destruct (net <? q_nets (x_q c0))%nat eqn:LT; [|apply wp_ret; auto]. apply Nat.ltb_lt in LT.
    apply wp_bind, l_network; auto. intros b s1 F1. destruct b; [|apply wp_ret; auto]. apply IH; auto; lia.
Qed.

(** Cron jobs: they copy memory registers. *)
Definition mreg (l : loc) : Prop := exists i, l = LReg B_M i.
Lemma typed_mput c z v : 0 <= z -> elem (bank_arr B_M c) (ix z) <> None -> 0 <= v <= 255 -> typed c -> typed (put_reg B_M (ix z) v c).
Proof.
  intros Z0 EL V T. destruct (elem (bank_arr B_M c) (ix z)) as [a|] eqn:A; [|congruence].
  apply (typed_put c _ (LReg B_M (ix z)) v); [exact T|intros l L0; apply put_reg_frame; congruence|unfold holds; eapply put_reg_here; eauto|exact V].
Qed.
Lemma typed_clear f m js c (Q : ctx -> Prop) : typed c -> (forall c', typed c' -> changes_only c c' mreg -> Q c') -> wpr any (cron_clear f m js c) Q.
Proof.
  revert m c. induction f as [|f IH]; intros m c T H; simpl; [apply H; auto using changes_refl|].
  apply wpr_bind, any_pget. intros j _ Hj. apply wpr_bind. destruct (j_en j && j_auto j); [|apply IH; auto].
  unfold bk_put. apply wpr_bind, any_pset. intros a P A.
  change (wpr any (cron_clear f (S m) js (put_reg B_M (ix (j_flag j)) 0 c)) Q).
  apply IH; [apply typed_mput; auto; [simpl in *; congruence|lia]|]. intros c' T' C. apply H; auto. eapply changes_trans; [|exact C].
  intros l N. apply put_reg_frame. intros ->. apply N. red; eauto.
Qed.
Lemma typed_jobs f m t js c (Q : ctx -> Prop) : typed c -> (forall c', typed c' -> changes_only c c' mreg -> Q c') -> wpr any (cron_jobs_eval f m t js c) Q.
Proof.
  revert m c. induction f as [|f IH]; intros m c T H; simpl; [apply H; auto using changes_refl|].
  apply wpr_bind, any_pget. intros j _ Hj. apply wpr_bind.
  assert (SAME : wpr any (cron_jobs_eval f (S m) t js c) Q) by (apply IH; auto).
  destruct (j_en j); [|exact SAME].
  apply wpr_bind, any_cron_valid. intros [|]; [|exact SAME]. unfold bk_get. apply wpr_bind, any_pget. intros z Z1 Z2.
  unfold bk_put. apply wpr_bind, any_pset. intros a P A.
  change (wpr any (cron_jobs_eval f (S m) t js (put_reg B_M (ix (j_flag j)) z c)) Q).
  apply IH.
  - apply typed_mput; auto; [simpl in *; congruence|]. apply (T (LReg B_M (ix (j_enreg j)))). unfold holds. simpl in *. now rewrite Z2.
  - intros c' T' C. apply H; auto. eapply changes_trans; [|exact C]. intros l N. apply put_reg_frame. intros ->. apply N. red; eauto.
Qed.
Lemma L_mreg s s' : L s -> typed (s_ctx s') -> changes_only (s_ctx s) (s_ctx s') mreg -> L s'.
Proof. intros F T CH. eapply L_step; eauto. intros l (i & ->) X. exact X. Qed.
Lemma L_cron (Q : bool -> st -> Prop) s : L s -> (forall b s', L s' -> Q b s') -> wp any (scan_cron E) Q s.
Proof.
  intros F H. unfold scan_cron. apply wp_bind, wp_getc. destruct (x_cron (s_ctx s)) as [k|] eqn:X; [|apply wp_ret; auto].
  apply wp_bind, wp_updc. apply typed_clear; [apply F|]. intros c1 T1 C1.
  assert (F1 : L (inc s c1)) by (eapply L_mreg; eauto). apply wp_bind. unfold cron_eval.
  apply wp_bind, wp_getc. assert (X1 : x_cron (s_ctx (inc s c1)) = Some k).
  { pose proof (L_meta _ LCron F1 I) as A. pose proof (L_meta _ LCron F I) as B. simpl in A, B |- *. congruence. }
  unfold cron_of. rewrite X1. apply wp_bind, wp_lift. simpl.
  destruct (_ || _); [apply wp_ret; simpl; apply wp_bind, wp_modc, wp_ret, H, L_state; auto|].
  apply wp_bind. unfold wp at 1, localtime. simpl. apply wp_bind, wp_updc. apply typed_jobs; [exact T1|].
  intros c2 T2 C2. apply wp_ret. simpl. apply wp_ret, H. eapply (L_mreg (inc s c1)); eauto.
Qed.
Lemma l_cron (Q : bool -> st -> Prop) s : (forall i, calendar (wall E i)) -> L s -> (forall b s', L s' -> Q b s') -> wp U (scan_cron E) Q s.
Proof.
  intros CA F H. assert (X : exists go s', scan_cron E s = Ok (go, s')).
  { destruct (x_cron (s_ctx s)) as [k|] eqn:XC; [|unfold scan_cron, bind, getc, ret; rewrite XC; eauto].
    assert (PK : peek (s_ctx s) LCron = Some (VCron (Some k))) by (simpl; now rewrite XC).
    destruct (wc_sized _ H0) as [SB _]. pose proof (SB B_M) as (nm & SM & SL).
    apply (C46_evaluation_safe_l E s k nm PK); auto.
    - rewrite L_qty by auto. apply (wc_extras _ H0). now rewrite <- (L_meta s LCron F I).
    - now rewrite (L_meta s (LRegLen B_M) F I).
    - rewrite L_qty by auto. auto. }
  destruct X as (go & s' & X). pose proof (L_cron (fun b s' => L s') s F ltac:(auto)) as Y. unfold wp in *. rewrite X in *. simpl in *. auto.
Qed.
Lemma l_scan (Q : unit -> st -> Prop) s : (forall i, calendar (wall E i)) -> L s -> (forall s', L s' -> Q tt s') -> wp U (ladder_scan E) Q s.
Proof.
  intros CA F H. unfold ladder_scan. apply wp_bind, wp_modc. pose proof (L_exec None s F) as F1.
  apply wp_bind, l_cron; auto. intros b s2 F2. destruct b; [|apply wp_ret; auto]. apply wp_bind, wp_getc.
  destruct (is_null _).
  - apply wp_bind, l_set_state; auto. intros s3 F3. apply l_panic; auto.
  - apply l_networks; auto. rewrite L_qty by auto. lia.
Qed.
End S.

(** What is well formed stays so. *)
Section W.
Variables (c0 : ctx) (s : st).
Hypothesis H0 : well_formed_ctx c0.
Hypothesis F : L c0 s.
Let c := s_ctx s.

Lemma W_scanned n rows cols : scanned c n rows cols -> scanned c0 n rows cols.
Proof. unfold scanned, c. now rewrite (L_qty c0), (L_meta c0 s (LNet n) F I). Qed.
Section C.
Variables (n rows cols : nat).
Hypothesis HN : scanned c0 n rows cols.
Lemma W_data r col j : peek c (LData n r col j) = peek c0 (LData n r col j).
Proof. apply F; [exact I|discriminate|]. intros n' r' c' i' a b X. injection X as <- _ _ _. destruct HN as [_ X]. rewrite X. discriminate. Qed.
Lemma W_cell r col : peek c (LCell n r col) = peek c0 (LCell n r col). Proof. now apply L_meta. Qed.
Lemma W_arg r col j : arg c n r col j = arg c0 n r col j. Proof. unfold arg. now rewrite W_data. Qed.
Lemma W_input r col j : input c n r col j = input c0 n r col j. Proof. unfold input. now rewrite W_cell, W_arg. Qed.
Lemma W_code r col : code_at c n r col = code_at c0 n r col. Proof. unfold code_at. now rewrite W_cell. Qed.
Lemma W_has r col j : has_operand c n r col j <-> has_operand c0 n r col j. Proof. unfold has_operand. now rewrite W_data. Qed.
End C.
Lemma W_qty : x_q c = x_q c0. Proof. now apply L_qty. Qed.
Lemma W_io : x_io c = x_io c0. Proof. apply peek_io, L_meta; simpl; auto. Qed.
Lemma W_target v : target c v = target c0 v. Proof. apply target_meta. intros l L0. apply L_meta; auto. destruct l; auto. Qed.
Lemma W_port v : port_ok c v <-> port_ok c0 v. Proof. unfold port_ok. now rewrite W_io, W_target. Qed.
Lemma W_read v : read_ok c v <-> read_ok c0 v. Proof. unfold read_ok. now rewrite W_port. Qed.
Lemma W_past v : past_ok c v <-> past_ok c0 v.
Proof. unfold past_ok, bad_index. rewrite W_qty. destruct (v_type v); rewrite ?W_port; tauto. Qed.
Lemma W_safe n rows cols r col : scanned c0 n rows cols -> cell_safe c0 n rows r col -> cell_safe c n rows r col.
Proof.
  intros HN. unfold cell_safe. cbv zeta. rewrite W_code, ?(W_input n rows cols), ?(W_arg n rows cols), W_qty by auto.
  destruct (code_at c0 n r col); rewrite ?W_read, ?W_past, ?(W_has n rows cols HN); auto.
Qed.
Lemma W_exact n rows cols r col : scanned c0 n rows cols -> cell_exact c0 n r col -> cell_exact c n r col.
Proof.
  intros HN. unfold cell_exact. cbv zeta. rewrite W_code, ?(W_input n rows cols) by auto. intros [A B]. split; auto.
  intros j J. rewrite (W_input n rows cols) by auto. auto.
Qed.
Lemma W_wf : well_formed_ctx c.
Proof.
  assert (M : forall l, match l with LQty | LIo | LOutMeta _ | LInMeta _ | LNet _ | LNets | LCell _ _ _ | LDataLen _ _ _ | LCron | LRegLen _ | LTmLen | LInLen _ _ | LOutLen _ _ | LForeign | LHooks => True | _ => False end ->
    peek c l = peek c0 l) by (intros; now apply L_meta).
  pose proof (L_at c0 0 s F) as K0. constructor.
  - exact (K_sized c0 0 H0 _ K0).
  - exact (K_modules c0 0 H0 _ K0).
  - intros n N. rewrite W_qty in N. destruct (wc_cells _ H0 n N) as (en & rows & cols & P & C & X). exists en, rows, cols. rewrite M by exact I.
    split; auto. split; auto. intros r col R CC. destruct (X r col R CC) as (bar & i & dq & X1 & X2 & X3). exists bar, i, dq.
    rewrite (M (LCell n r col) I), (M (LDataLen n r col) I). auto.
  - destruct (wc_extras _ H0) as [A B]. split.
    + intros k. rewrite M by exact I. rewrite W_qty. auto.
    + intros f. rewrite M by exact I. auto.
  - destruct (wc_nets _ H0) as [A B]. rewrite M by exact I. auto.
  - apply F.
  - intros n rows cols r col HN R C. apply W_scanned in HN. eapply W_safe; eauto. eapply wc_safe; eauto.
Qed.
Lemma W_exact_all : exact_program c0 -> exact_program c.
Proof. intros X n rows cols r col HN R C. apply W_scanned in HN. eapply W_exact; eauto. Qed.
End W.
