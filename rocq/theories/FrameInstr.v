(** What executing one instruction may change, whatever the context. *)
From Verif Require Export Frame.

Lemma target_place c v l : target c v = Some l -> match l with LReg _ _ | LOut _ _ _ | LIn _ _ _ => True | _ => False end.
Proof.
  unfold target. intros H.
  destruct (v_type v); cbn [bank_of] in H; try discriminate;
    repeat match type of H with
    | (if ?b then _ else _) = _ => destruct b
    | match ?x with _ => _ end = _ => destruct x
    end; try discriminate; injection H as <-; exact I.
Qed.

Section FI.
Variables (E : env) (WE : loc -> Prop) (s0 : st) (n r col : nat) (code : ins).
Let c0 := s_ctx s0.
Let W (l : loc) : Prop := writes c0 code n r col l \/ WE l.
Hypothesis HE : env_writes E WE.
Hypothesis HL : forall l, WE l -> ~ is_layout l.
Hypothesis HX : peek c0 LExec = Some (VExec (Some n)).
Hypothesis HN : forall rows cols, peek c0 (LNet n) <> Some (VNet false rows cols).
Hypothesis HS : forall k, peek c0 LNets = Some (VN k) -> Z.of_nat k <= 2 ^ 32.

Lemma HE' : env_writes E W.
Proof. destruct HE as [A B]. split; intros; (eapply changes_mono; [|eauto]); unfold W; auto. Qed.
Lemma HW' : forall l, W l -> is_layout l ->
  exists n' r col rows cols, peek c0 (LNet n') = Some (VNet false rows cols) /\ l = LData n' r col 0.
Proof.
  intros l [K|K] L; [|exfalso; apply (HL l); auto].
  destruct K as [-> |[[-> _]|[(k & _ & ->)|[(j & v & _ & _ & T)|[(_ & v & _ & _ & T)|[(_ & v & _ & _ & T)|(_ & n' & r' & c' & a & b & A & ->)]]]]]];
    try contradiction.
  - apply target_place in T. destruct l; contradiction.
  - simpl in T. repeat destruct T as [<-|T]; contradiction.
  - simpl in T. repeat destruct T as [<-|T]; contradiction.
  - eauto 10.
Qed.
Lemma W_err : W LErr. Proof. left; left; auto. Qed.
Lemma W_state : bank_missing c0 -> W LState. Proof. intros; left; right; left; auto. Qed.
Lemma W_pow k : In k (footprint code r) -> W (LPow n k col).
Proof. intros; left; right; right; left; eauto. Qed.
Lemma W_dest j : dest_operand code = Some j -> forall v l, peek c0 (LData n r col j) = Some (VVal v) -> target c0 v = Some l -> W l.
Proof. intros; left; right; right; right; left. eauto 6. Qed.
Lemma W_timer : is_timer code -> forall l v, peek c0 (LData n r col 0) = Some (VVal v) -> 0 <= v_raw v -> In l (timer_regs (ix (v_raw v))) -> W l.
Proof. intros; left; right; right; right; right; left. eauto 6. Qed.
Lemma W_counter : is_counter code -> forall l v, peek c0 (LData n r col 0) = Some (VVal v) -> 0 <= v_raw v -> In l (counter_regs (ix (v_raw v))) -> W l.
Proof. intros; left; right; right; right; right; right; left. eauto 6. Qed.
Lemma W_table : code = I_TMOVE -> forall n' r' col' rows cols, peek c0 (LNet n') = Some (VNet false rows cols) -> W (LData n' r' col' 0).
Proof. intros; left; right; right; right; right; right; right. eauto 10. Qed.

End FI.

Definition wset (WE : loc -> Prop) (c : ctx) (code : ins) (n r col : nat) (l : loc) : Prop := writes c code n r col l \/ WE l.

Ltac side :=
  solve [ assumption | apply W_err | apply W_state | exact I
        | apply W_pow; simpl; rewrite ?Nat.add_1_r, ?Nat.add_succ_r, ?Nat.add_0_r; auto
        | apply W_dest; reflexivity
        | intros; eapply W_timer; [exact I|eassumption|assumption|simpl; auto 6]
        | intros; split; (eapply W_timer; [exact I|eassumption|assumption|simpl; auto 6])
        | intros; eapply W_counter; [exact I|eassumption|assumption|simpl; auto 6] ].
Ltac fstep :=
  lazymatch goal with
  | |- wp _ (mleft _ _) _ _ => apply f_mleft; intros
  | |- wp _ (mstate _ _) _ _ => apply f_mstate; intros
  | |- wp _ (mprev _ _ _) _ _ => apply f_mprev; intros
  | |- wp _ (mpreset _ _) _ _ => apply f_mpreset; intros
  | |- wp _ (mfactor _ _) _ _ => apply f_mfactor; intros
  | |- wp _ (mflag _ _ _) _ _ => eapply f_mflag; [eassumption..|intros|eassumption]
  | |- wp _ (mcount _ _) _ _ => eapply f_mcount; [eassumption..|intros|eassumption]
  | |- wp _ (mts _ _) _ _ => eapply f_mts; [eassumption..|intros|eassumption]
  | |- wp _ (millis _) _ _ => eapply f_millis; [eassumption..|intros|eassumption]
  | |- wp _ (set_err _) _ _ => eapply f_set_err; [side|intros|eassumption]
  | |- wp _ (get_data_value _ _ _ _) _ _ => eapply f_get; [eassumption..|side|side|intros|eassumption]
  | |- wp _ (set_data _ _ _ _) _ _ => eapply f_set; [eassumption..|side|intros|eassumption]
  | |- wp _ (mflag_set _ _ _ _) _ _ => eapply f_mflag_set; [eassumption..|side|intros|eassumption]
  | |- wp _ (mcount_set _ _ _) _ _ => eapply f_mcount_set; [eassumption..|side|intros|eassumption]
  | |- wp _ (mts_set _ _ _) _ _ => eapply f_mts_set; [eassumption..|side|intros|eassumption]
  | |- wp _ (macc_set _ _ _) _ _ => eapply f_macc_set; [eassumption..|side|intros|eassumption]
  | |- wp _ (mput _ _ _) _ _ => eapply f_mput; [eassumption..|side|intros|eassumption]
  | |- wp _ (call_foreign _ _ _ _) _ _ => eapply f_foreign; [eassumption..|intros|eassumption]
  | |- wp _ (getc) _ _ => apply wp_getc
  | |- wp _ (bad _) _ _ => apply wp_bad; exact I
  | |- wp _ (ret _) _ _ => apply wp_ret
  | |- wp _ (bind _ _) _ _ => apply wp_bind
  | |- wp _ (if ?b then _ else _) _ _ => destruct b
  | |- wp _ (match ?b with _ => _ end) _ _ => destruct b
  end.

Section All.
Variables (E : env) (WE : loc -> Prop) (s0 : st) (n r col : nat).
Hypothesis HE : env_writes E WE.
Hypothesis HL : forall l, WE l -> ~ is_layout l.
Hypothesis HX : peek (s_ctx s0) LExec = Some (VExec (Some n)).
Hypothesis HN : forall rows cols, peek (s_ctx s0) (LNet n) <> Some (VNet false rows cols).
Hypothesis HS : forall k, peek (s_ctx s0) LNets = Some (VN k) -> Z.of_nat k <= 2 ^ 32.

Lemma instr_frame code f : ladder_function E code = Some f ->
  wp any (f col r) (fun e s' => changes_only (s_ctx s0) (s_ctx s') (wset WE (s_ctx s0) code n r col)) s0.
Proof.
  intros Hf.
  pose proof (HE' E WE s0 n r col code HE) as HE1.
  pose proof (HW' WE s0 n r col code HL) as HW1.
  assert (F0 : fr (wset WE (s_ctx s0) code n r col) (s_ctx s0) s0) by apply changes_refl.
  change (wp any (f col r) (fun _ s' => fr (wset WE (s_ctx s0) code n r col) (s_ctx s0) s') s0).
  fold (wset WE (s_ctx s0) code n r col) in HE1.
  change (forall l, wset WE (s_ctx s0) code n r col l -> is_layout l ->
    exists n' r col rows cols, peek (s_ctx s0) (LNet n') = Some (VNet false rows cols) /\ l = LData n' r col 0) in HW1.
  change (env_writes E (wset WE (s_ctx s0) code n r col)) in HE1.
  destruct code; try discriminate; injection Hf as <-.
  all: try (unfold fn_NOP, fn_CONN, fn_NEG, fn_NO, fn_NC, fn_RE, fn_FE, fn_COIL, fn_COILL, fn_COILU; repeat fstep; assumption).
  all: try (unfold fn_ADD, fn_MUL, fn_MOD, fn_DIV, fn_SUB, fn_AND, fn_OR, fn_XOR, fn_NOT, binop, chk; repeat fstep; assumption).
  all: try (unfold fn_EQ, fn_GT, fn_GE, fn_LT, fn_LE, fn_NE, cmpop; repeat fstep; assumption).
  all: try (unfold fn_TON, fn_TOF, fn_TP, timer_reset, timer_start, timer_run, timer_elapsed; repeat fstep; assumption).
  all: try (unfold fn_CTU, fn_CTD, counter_reset_cond, counter_reset, counter_count; repeat fstep; assumption).
  - unfold fn_MOVE. repeat fstep; try assumption. 
    apply wp_lift, any_ex_cell. intros m x _ _. fstep; [fstep; assumption|].
    fstep. apply wp_lift, any_ex_data. intros m0 v0 _ _. fstep. apply wp_lift, any_ex_data. intros m1 v1 _ _. fstep.
    assert (MS : forall Q : err + Z * bool -> st -> Prop, (forall x s', fr (wset WE (s_ctx s0) I_MOVE n r col) (s_ctx s0) s' -> Q x s') ->
              wp any (move_src E v0 col r) Q s0).
    { intros Q H. unfold move_src. destruct (v_type v0); repeat fstep; auto.
      apply wp_lift. unfold bk_get. apply any_pget. intros. repeat fstep; auto. }
    apply MS. intros [e|[z fl]] s' F'; repeat fstep; assumption.
  - unfold fn_SHL, shiftop. do 4 fstep. fstep. apply wp_lift. match goal with |- wpr _ ?x _ => destruct x eqn:K; simpl end;
      [repeat fstep; assumption|exact I|unfold shl32 in K; destruct (_ && _) in K; discriminate].
  - unfold fn_SHR, shiftop. do 4 fstep. fstep. apply wp_lift. match goal with |- wpr _ ?x _ => destruct x eqn:K; simpl end;
      [repeat fstep; assumption|exact I|unfold shr32 in K; destruct (_ && _) in K; discriminate].
  - unfold fn_ROL, shiftop. do 4 fstep. fstep. apply wp_lift. match goal with |- wpr _ ?x _ => destruct x eqn:K; simpl end;
      [repeat fstep; assumption|exact I|unfold shl32, shr32, rbind in K; repeat (destruct (_ && _) in K; try discriminate); discriminate].
  - unfold fn_ROR, shiftop. do 4 fstep. fstep. apply wp_lift. match goal with |- wpr _ ?x _ => destruct x eqn:K; simpl end;
      [repeat fstep; assumption|exact I|unfold shl32, shr32, rbind in K; repeat (destruct (_ && _) in K; try discriminate); discriminate].
  - unfold fn_FOREIGN. repeat fstep; try assumption. apply wp_lift, any_pget. intros. repeat fstep; assumption.
  - unfold fn_TMOVE. repeat fstep; try assumption.
    match goal with F : fr _ _ ?s |- wp _ _ _ ?s => rename s into s1; rename F into F1 end.
    apply wp_lift, any_pget. intros dnet D0 D1. fstep.
    assert (DN : exists m, z = Z.of_nat m /\ u32 z = Z.of_nat m /\ net_of (s_ctx s1) m = Some dnet).
    { exists (ix z). split; [unfold ix; lia|]. split; [|exact D1]. unfold u32. rewrite Z.mod_small; [unfold ix; lia|].
      split; [lia|]. unfold elem, obind in D1. destruct (x_net (s_ctx s1)) as [l|] eqn:X; [|discriminate].
      apply nth_some_lt in D1. assert (K : peek (s_ctx s0) LNets = Some (VN (length l))).
      { rewrite <- (fr_layout (wset WE (s_ctx s0) I_TMOVE n r col) (s_ctx s0) n HN HW1 s1 LNets F1 I) by discriminate.
        simpl. rewrite X. reflexivity. }
      apply HS in K. unfold ix in D1. lia. }
    destruct DN as (m & -> & UM & DM).
    assert (EN : forall Q : bool -> st -> Prop, (n_en dnet = false -> Q false s1) -> Q true s1 ->
      wp any (if n_en dnet then ret true else snet <- lift (pget (x_net (s_ctx s1)) z1) ;; ret (n_en snet))%m Q s1).
    { intros Q A B. destruct (n_en dnet); [exact B|]. fstep. apply wp_lift, any_pget. intros sn _ _. fstep. destruct (n_en sn); auto. }
    apply EN; [intros EF|]; repeat fstep; try assumption.
    apply wp_lift, any_pget. intros snet _ _. repeat fstep; try assumption.
    apply wp_lift, any_read. intros [e|zs]; repeat fstep; try assumption.
    rewrite UM. apply wp_lift.
    assert (ND : exists rows cols, peek (s_ctx s0) (LNet m) = Some (VNet false rows cols)).
    { exists (n_rows dnet), (n_cols dnet).
      rewrite <- (fr_layout (wset WE (s_ctx s0) I_TMOVE n r col) (s_ctx s0) n HN HW1 s1 (LNet m) F1 I) by discriminate.
      simpl. rewrite DM. simpl. rewrite EF. auto. }
    destruct ND as (rows & cols & ND).
    apply (any_write zs m _ _ _ (wset WE (s_ctx s0) I_TMOVE n r col)).
    { intros; eapply W_table; eauto. }
    intros e c' C. fstep. apply wp_modc.
    assert (F2 : fr (wset WE (s_ctx s0) I_TMOVE n r col) (s_ctx s0) (inc s1 c')) by (eapply fr_step; eauto).
    simpl inc in *. repeat fstep; assumption.
Qed.
End All.
