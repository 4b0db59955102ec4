(** Machines built with the functions of the library are well formed. *)
From Verif Require Export SafeTask P_Cron P_Place P_Setup.

Lemma q_keep c c' : peek c' LQty = peek c LQty -> x_q c' = x_q c. Proof. simpl. congruence. Qed.
Lemma io_keep c c' : peek c' LIo = peek c LIo -> x_io c' = x_io c. Proof. simpl. congruence. Qed.
Lemma foreign_keep c c' : peek c' LForeign = peek c LForeign -> x_for c' = x_for c. Proof. simpl. congruence. Qed.
Lemma cron_keep c c' : peek c' LCron = peek c LCron -> x_cron c' = x_cron c. Proof. simpl. congruence. Qed.

(** Operand counts never exceed the operand arrays. *)
Definition counted (c : ctx) : Prop := forall n r col bar i dq, peek c (LCell n r col) = Some (VCell bar i dq) ->
  dq = 0%nat \/ exists k, peek c (LDataLen n r col) = Some (VN k) /\ (dq <= k)%nat.
(** All networks and their cells are there. *)
Definition laid_out (c : ctx) : Prop := forall n, (n < q_nets (x_q c))%nat ->
  exists en rows cols, peek c (LNet n) = Some (VNet en rows cols) /\ (0 < cols)%nat /\ forall r col, (r < rows)%nat -> (col < cols)%nat -> peek c (LCell n r col) <> None.

Record configured (c : ctx) : Prop := {
  cf_sized : sized c;
  cf_modules : modules_ok c;
  cf_reads : reads_wf c;
  cf_writes : writes_wf c;
  cf_laid : laid_out c;
  cf_counted : counted c;
  cf_foreign : exactly (fo_qty (x_for c)) (fo_fn (x_for c));
  cf_cron : exists k, peek c LCron = Some (VCron (Some k)) /\ table_ok (q_m (x_q c)) k;
  cf_m : (0 < q_m (x_q c))%nat /\ Z.of_nat (q_m (x_q c)) <= 2 ^ 32;
  cf_nets : peek c LNets <> None /\ forall k, peek c LNets = Some (VN k) -> Z.of_nat k <= 2 ^ 32;
  cf_typed : typed c;
  cf_idle : all_disabled c }.

Lemma exactly_covers n (p : option (list bool)) : exactly n p -> covers n p.
Proof. intros [A _] t ->. simpl in A. lia. Qed.
Lemma conf_tables c : configured c -> tables_ok c.
Proof.
  intros H. destruct (cf_reads c H) as (_ & A & _). destruct (cf_writes c H) as (_ & B & _). exists (x_io c). split; [reflexivity|]. split; apply exactly_covers; auto.
Qed.
Lemma conf_extras c : configured c -> extras_ok c.
Proof.
  intros H. split.
  - destruct (cf_cron c H) as (k & A & B). intros k' A'. rewrite A in A'. injection A' as <-. auto.
  - intros f F i I0. simpl in F. injection F as <-. destruct (cf_foreign c H) as [A _]. intros N. unfold elem, obind in N. destruct (fo_fn (x_for c)) as [l|]; simpl in A; [|lia].
    apply nth_error_None in N. lia.
Qed.

(** What the user enters keeps a configured machine well formed if the program is in order. *)
Lemma conf_entered c c' : configured c -> entered c c' -> program_ok c' -> well_formed_ctx c' /\ tables_ok c'.
Proof.
  intros H [CH NE] PO.
  assert (Q : x_q c' = x_q c) by (apply q_keep, CH; auto).
  assert (IO : x_io c' = x_io c) by (apply io_keep, CH; auto).
  assert (KP : forall l, (match l with LNet _ | LData _ _ _ _ | LHooks | LState => False | _ => True end) -> peek c' l = peek c l).
  { intros l L. apply CH. intros K. destruct l; auto. }
  pose proof (conf_extras c H) as [EX1 EX2]. pose proof (conf_tables c H) as (io & T1 & T2). split.
  - constructor.
    + destruct (cf_sized c H) as [A B]. split; [intros b|]; rewrite Q, KP by exact I; auto.
    + destruct (cf_modules c H) as [A B]. unfold modules_ok. rewrite IO. split; intros m M.
      * destruct (A m M) as (id & qd & qa & A1 & A2). exists id, qd, qa. rewrite KP by exact I. split; auto. intros k. rewrite KP by exact I. apply A2.
      * destruct (B m M) as (id & qd & qa & A1 & A2). exists id, qd, qa. rewrite KP by exact I. split; auto. intros k. rewrite KP by exact I. apply A2.
    + intros n N. rewrite Q in N. destruct (cf_laid c H n N) as (en & rows & cols & A & B & C). destruct (NE n _ _ _ A) as (en' & A').
      exists en', rows, cols. split; auto. split; auto. intros r col R L. specialize (C r col R L).
      destruct (peek c (LCell n r col)) as [v|] eqn:P; [|congruence].
      assert (exists bar i dq, v = VCell bar i dq) as (bar & i & dq & ->). { simpl in P. destruct (cell_of c n r col); [|discriminate]. injection P as <-. eauto. }
      exists bar, i, dq. rewrite !KP by exact I. split; auto. split; [|apply (cf_counted c H) in P; auto].
      intros ->. assert (SC : scanned c' n rows cols) by (split; [now rewrite Q|auto]). destruct (PO n rows cols r col SC R L) as [K _].
      unfold code_at in K. rewrite KP, P in K by exact I. auto.
    + split; [intros k|intros f]; rewrite KP by exact I; [rewrite Q; apply EX1|apply EX2].
    + rewrite KP by exact I. apply (cf_nets c H).
    + eapply typed_change; [apply (cf_typed c H)|exact CH|]. intros l z K _. destruct l; try destruct K; exact I.
    + intros n rows cols r col SC R L. now apply (PO n rows cols r col).
  - exists io. rewrite KP by exact I. auto.
Qed.
Lemma conf_wf c : configured c -> well_formed_ctx c.
Proof.
  intros H. apply (conf_entered c c H).
  - split; [apply changes_refl|eauto].
  - intros n rows cols r col SC. destruct (cf_idle c H _ _ _ SC).
Qed.

(** ** Initialisation *)
Lemma conf_init alloc a c c' : ctx_init alloc a c = (true, c') -> a_init a = true -> Z.of_nat (a_nets a) <= 2 ^ 32 -> Z.of_nat (a_m a) <= 2 ^ 32 -> configured c'.
Proof.
  intros H IN NQ MQ. pose proof (C35_fresh_l _ _ _ _ H) as F. pose proof (C35_usable_l _ _ _ _ H) as [ST _].
  assert (V : valid_args a) by (apply (C35_accepts_l alloc a c); now rewrite H).
  pose proof (C46_fresh_l _ _ _ _ H) as CR.
  assert (Q : x_q c' = mk_qty (a_m a) (a_c a) (a_t a) (a_d a) (a_r a) (a_nets a) (if a_delay a =? 0 then 1 else a_delay a) (a_wdg a) /\ x_io c' = io0 /\ x_in c' = None /\ x_out c' = None
    /\ x_net c' = Some (repeat (net0 (a_rows a) (a_cols a)) (a_nets a)) /\ x_for c' = mk_foreign 0 None
    /\ (forall b i z, elem (bank_arr b c') i = Some z -> z = 0) /\ forall i t, elem (x_tm c') i = Some t -> t = mk_timer 0 0).
  { unfold ctx_init in H. destruct (args_ok a); [|discriminate]. rewrite IN in H. destruct (forallb _ _); [|discriminate]. injection H as <-. repeat (split; [reflexivity|]).
    assert (RP : forall A (x : A) k i y, elem (Some (repeat x k)) i = Some y -> y = x) by (intros A x k i y K; apply nth_error_In, repeat_spec in K; auto).
    split; [|intros i t; apply RP]. intros b i z. destruct b; apply RP. }
  destruct Q as (Q & IO & XI & XO & XN & XF & BZ & TZ).
  assert (CE : forall n r col x, cell_of c' n r col = Some x -> x = cell0).
  { intros n r col x. unfold cell_of, row_of, net_of, elem. rewrite XN. simpl. destruct (nth_error (repeat _ _) n) as [nt|] eqn:N; [|discriminate]. simpl.
    apply nth_error_In, repeat_spec in N. subst nt. simpl. destruct (nth_error (repeat _ _) r) as [rw|] eqn:R; [|discriminate]. simpl. apply nth_error_In, repeat_spec in R. subst rw.
    intros K. apply nth_error_In, repeat_spec in K. auto. }
  constructor.
  - destruct ST as [A _]. split; [intros b; exists (bank_len a b); split; [apply (fr_size _ _ F)|rewrite Q; destruct b; simpl; lia]|].
    exists (a_t a). split; [apply (fr_timers _ _ F)|rewrite Q; simpl; lia].
  - split; rewrite IO; simpl; intros m M; lia.
  - unfold reads_wf. rewrite IO, XI. repeat split; auto.
  - unfold writes_wf. rewrite IO, XO. repeat split; auto.
  - intros n N. rewrite Q in N. simpl in N. destruct (fr_net _ _ F n IN N) as [A B]. exists false, (a_rows a), (a_cols a). split; auto. split; [apply V|].
    intros r col R C. destruct (B r col R C) as (K & _). rewrite K. discriminate.
  - intros n r col bar i dq K. left. simpl in K. destruct (cell_of c' n r col) as [x|] eqn:X; [|discriminate]. apply CE in X. subst x. simpl in K. congruence.
  - rewrite XF. split; simpl; tauto.
  - auto.
  - rewrite Q. simpl. split; [apply V|auto].
  - rewrite (fr_nets _ _ F IN). split; [discriminate|]. intros k [= <-]. auto.
  - assert (T0 : forall l, typed_at l 0) by (intros l; unfold typed_at, fits; destruct l; try exact I; try (destruct b); try (destruct k); try exact I; lia).
    intros l z Z. unfold holds in Z. destruct l; try exact I; simpl in Z.
    + destruct (elem (bank_arr b c') i) as [y|] eqn:Y; [|discriminate]. injection Z as <-. apply BZ in Y. subst y. apply T0.
    + destruct (elem (x_tm c') i) as [y|] eqn:Y; [|discriminate]. injection Z as <-. apply TZ in Y. subst y. apply T0.
    + rewrite XI in Z. discriminate.
    + rewrite XO in Z. discriminate.
  - intros n rows cols (N & K). rewrite Q in N. destruct (fr_net _ _ F n IN N) as [A _]. congruence.
Qed.

(** ** Placing and clearing *)

(** A step that changes only cells and keeps them all. *)
Definition cell_step (c c' : ctx) : Prop :=
  changes_only c c' (fun l => (exists n r col, of_cell n r col l) \/ l = LErr)
  /\ forall n r col, peek c (LCell n r col) <> None -> peek c' (LCell n r col) <> None.
Lemma cs_refl c : cell_step c c. Proof. split; [apply changes_refl|auto]. Qed.
Lemma cs_trans a b c : cell_step a b -> cell_step b c -> cell_step a c.
Proof. intros [A1 A2] [B1 B2]. split; [eapply changes_trans; eauto|auto]. Qed.
Lemma cs_err c e : cell_step c (set_last_err e c).
Proof. split; [|auto]. intros l L. destruct l; try reflexivity. destruct L. auto. Qed.
Lemma no_cell_err l : (exists n r col, of_cell n r col l) \/ l = LErr -> match l with LPow _ _ _ | LCell _ _ _ | LDataLen _ _ _ | LData _ _ _ _ | LErr => True | _ => False end.
Proof. intros [(n & r & col & [->|[->|[->|(i & ->)]]])| ->]; exact I. Qed.
Lemma conf_cells c c' : configured c -> cell_step c c' -> counted c' -> configured c'.
Proof.
  intros H [CH EX] CO.
  assert (KP : forall l, (match l with LPow _ _ _ | LCell _ _ _ | LDataLen _ _ _ | LData _ _ _ _ | LErr => False | _ => True end) -> peek c' l = peek c l).
  { intros l L. apply CH. intros K. apply no_cell_err in K. destruct l; auto. }
  assert (Q : x_q c' = x_q c) by (apply q_keep, KP; exact I).
  assert (IO : x_io c' = x_io c) by (apply io_keep, KP; exact I).
  assert (FO : x_for c' = x_for c) by (apply foreign_keep, KP; exact I).
  constructor.
  - destruct (cf_sized c H) as [A B]. split; [intros b|]; rewrite Q, KP by exact I; auto.
  - destruct (cf_modules c H) as [A B]. unfold modules_ok. rewrite IO. split; intros m M.
    + destruct (A m M) as (id & qd & qa & A1 & A2). exists id, qd, qa. rewrite KP by exact I. split; auto. intros k. rewrite KP by exact I. apply A2.
    + destruct (B m M) as (id & qd & qa & A1 & A2). exists id, qd, qa. rewrite KP by exact I. split; auto. intros k. rewrite KP by exact I. apply A2.
  - destruct (cf_reads c H) as (A & B & C). unfold reads_wf. rewrite IO. split; auto. eapply exactly_size; [exact A|]. apply (KP LInCount). exact I.
  - destruct (cf_writes c H) as (A & B & C). unfold writes_wf. rewrite IO. split; auto. eapply exactly_size; [exact A|]. apply (KP LOutCount). exact I.
  - intros n N. rewrite Q in N. destruct (cf_laid c H n N) as (en & rows & cols & A & B & C). exists en, rows, cols. rewrite KP by exact I. eauto.
  - auto.
  - rewrite FO. apply H.
  - rewrite Q, KP by exact I. apply H.
  - rewrite Q. apply H.
  - rewrite KP by exact I. apply H.
  - intros l z Z. destruct (typed_dec l z) as [|N]; auto. apply (cf_typed c H). unfold holds in *. rewrite <- KP; auto.
    destruct l; try exact I; apply N; exact I.
  - intros n rows cols (N & K). apply (cf_idle c H n rows cols). split; [now rewrite <- Q|]. rewrite <- KP by exact I. auto.
Qed.
Definition fair (x : cell) : Prop := c_dq x = 0%nat \/ exists d, c_data x = Some d /\ (c_dq x <= length d)%nat.
(** All cells except the exempted ones. *)
Definition fair_but (X : nat -> nat -> nat -> cell -> Prop) (c : ctx) : Prop := forall n r col x, cell_of c n r col = Some x -> X n r col x \/ fair x.
Definition none : nat -> nat -> nat -> cell -> Prop := fun _ _ _ _ => False.
Lemma fair_counted c : counted c <-> fair_but none c.
Proof.
  split.
  - intros H n r col x X. right. destruct (H n r col (c_bar x) (c_code x) (c_dq x)) as [K|(k & K & L)]; [simpl; now rewrite X|left; auto|].
    right. simpl in K. rewrite X in K. simpl in K. destruct (c_data x) as [d|]; [|discriminate]. injection K as <-. eauto.
  - intros H n r col bar i dq K. simpl in *. destruct (cell_of c n r col) as [x|] eqn:X; [|discriminate]. injection K as <- <- <-.
    destruct (H n r col x X) as [[]|[F|(d & F & L)]]; auto. right. simpl. rewrite F. simpl. eauto.
Qed.
Lemma upd_cell_put n r col f c c' : upd_cell n r col f c = Ok c' -> exists x, cell_of c n r col = Some x /\ c' = put_cell n r col (f x) c.
Proof.
  intros H. pose proof H as H0. unfold upd_cell in H. apply rbind_inv in H as (nt & N & H). apply rbind_inv in H as (x & X & H). apply net_at_inv in N. apply cell_in_inv in X.
  assert (C : cell_of c n r col = Some x) by (rewrite (cell_of_net _ _ _ _ _ N); auto). exists x. split; auto. rewrite (upd_cell_ok _ _ _ _ _ _ C) in H0. congruence.
Qed.
Lemma upd_cell_fair n r col f c c' (X Y : nat -> nat -> nat -> cell -> Prop) : upd_cell n r col f c = Ok c' -> fair_but X c ->
  (forall n' r' col' x, X n' r' col' x -> (n, r, col) <> (n', r', col') -> Y n' r' col' x) -> (forall x, cell_of c n r col = Some x -> X n r col x \/ fair x -> Y n r col (f x) \/ fair (f x)) ->
  cell_step c c' /\ fair_but Y c'.
Proof.
  intros H F XY FX. apply upd_cell_put in H as (x & C & ->). split.
  - split; [intros l L; apply put_cell_frame; intros K; apply L; eauto|].
    intros n' r' col'. destruct (Nat.eq_dec n n') as [<-|D]; [destruct (Nat.eq_dec r r') as [<-|D]; [destruct (Nat.eq_dec col col') as [<-|D]|]|].
    + simpl. rewrite (put_cell_same _ _ _ _ _ _ C). simpl. intros _. discriminate.
    + simpl. rewrite put_cell_other by congruence. auto.
    + simpl. rewrite put_cell_other by congruence. auto.
    + simpl. rewrite put_cell_other by congruence. auto.
  - intros n' r' col' y. assert (DEC : (n, r, col) = (n', r', col') \/ (n, r, col) <> (n', r', col')).
    { destruct (Nat.eq_dec n n') as [<-|D]; [destruct (Nat.eq_dec r r') as [<-|D]; [destruct (Nat.eq_dec col col') as [<-|D]|]|]; auto; right; congruence. }
    destruct DEC as [D|D].
    + injection D as <- <- <-. rewrite (put_cell_same _ _ _ _ _ _ C). intros [= <-]. apply FX; eauto.
    + rewrite put_cell_other by auto. intros Y0. destruct (F _ _ _ _ Y0); auto.
Qed.
Lemma upd_cells_fair n rows col f X : (forall r x y, f x = Ok y -> X n r col x \/ fair x -> X n r col y \/ fair y) ->
  forall c c', upd_cells n rows col f c = Ok c' -> fair_but X c -> cell_step c c' /\ fair_but X c'.
Proof.
  intros HF. induction rows as [|r t IH]; intros c c' H F; simpl in H.
  - injection H as <-. split; [apply cs_refl|auto].
  - apply rbind_inv in H as (nt & N & H). apply rbind_inv in H as (x & XX & H). apply rbind_inv in H as (y & Y & H). apply rbind_inv in H as (c1 & U & H).
    assert (C : cell_of c n r col = Some x) by (rewrite (cell_of_net _ _ _ _ _ (net_at_inv _ _ _ N)); now apply cell_in_inv).
    destruct (upd_cell_fair n r col (fun _ => y) c c1 X X U F) as [S1 F1]; auto.
    + intros x0 _ _. eapply HF; eauto.
    + destruct (IH _ _ H F1) as [S2 F2]. split; auto. eapply cs_trans; eauto.
Qed.
Lemma upd_cells_fix n rows col f : (forall x y, f x = Ok y -> fair y) -> forall X c c', upd_cells n rows col f c = Ok c' -> fair_but X c ->
  cell_step c c' /\ fair_but (fun n' r' col' x => X n' r' col' x /\ ~ (n' = n /\ col' = col /\ In r' rows)) c'.
Proof.
  intros HF. induction rows as [|r t IH]; intros X c c' H F; simpl in H.
  - injection H as <-. split; [apply cs_refl|]. intros n' r' col' x C. destruct (F _ _ _ _ C); auto. left. simpl. tauto.
  - apply rbind_inv in H as (nt & N & H). apply rbind_inv in H as (x & XX & H). apply rbind_inv in H as (y & Y & H). apply rbind_inv in H as (c1 & U & H).
    destruct (upd_cell_fair n r col (fun _ => y) c c1 X (fun n' r' col' x => X n' r' col' x /\ (n, r, col) <> (n', r', col')) U F) as [S1 F1]; auto.
    + intros x0 _ _. right. eapply HF; eauto.
    + destruct (IH _ _ _ H F1) as [S2 F2]. split; [eapply cs_trans; eauto|]. intros n' r' col' z C. destruct (F2 _ _ _ _ C) as [[[K1 K2] K3]|K]; auto.
      left. split; auto. intros (-> & -> & [->|K]); [now apply K2|]. apply K3. auto.
Qed.
Lemma fn_cell_step alloc n r col f fid c b c' : fn_cell alloc n r col f fid c = Ok (b, c') -> counted c ->
  (forall d, f = I_FOREIGN -> elem (fo_fn (x_for c)) fid = Some d -> (1 <= d_cells (f_iocd d))%nat) -> cell_step c c' /\ counted c'.
Proof.
  intros H CO FC. assert (ERR : forall e, cell_step c (set_last_err e c) /\ counted (set_last_err e c)) by (intros e; split; [apply cs_err|exact CO]).
  unfold fn_cell in H. destruct (_ <=? _)%nat; [injection H as <- <-; auto|]. apply rbind_inv in H as (nt & N & H).
  destruct (_ <=? _)%nat; [injection H as <- <-; auto|]. destruct (_ <=? _)%nat; [injection H as <- <-; auto|].
  destruct (_ && _); [injection H as <- <-; auto|]. apply rbind_inv in H as (d & D & H). destruct (_ <? _)%nat; [injection H as <- <-; auto|].
  apply rbind_inv in H as (fr & FR & H). destruct (negb fr); [injection H as <- <-; auto|].
  assert (D1 : (1 <= d_cells d)%nat).
  { destruct f; simpl in D; try discriminate; try (injection D as <-; simpl; lia). apply rbind_inv in D as (fd & P & D). injection D as <-. apply (FC fd); auto.
    destruct (fo_fn (x_for c)) as [l|]; simpl in P; [|discriminate]. unfold lget in P. destruct (idx_ok _ _); [|discriminate]. rewrite Nat2Z.id in P. simpl.
    destruct (nth_error l fid); congruence. }
  clear D FC. apply rbind_inv in H as (c1 & U1 & H). apply rbind_inv in H as (c2 & U2 & H). apply fair_counted in CO.
  apply upd_cells_fair with (X := none) in U1 as [S1 F1]; auto.
  2:{ intros r0 x y Y FX. unfold drop_data in Y. destruct (c_data x) as [dd|] eqn:CD; [destruct (_ <=? _)%nat; [injection Y as <-; right; left; reflexivity|discriminate]|].
      injection Y as <-. auto. }
  set (X := fun n' r' col' (_ : cell) => (n', r', col') = (n, r, col)).
  pose proof U2 as U2'. apply upd_cell_put in U2' as (x1 & X1 & P2).
  apply upd_cell_fair with (X := none) (Y := X) in U2 as [S2 F2]; auto; try (intros ? ? ? ? []).
  2:{ intros x _ _. left. reflexivity. }
  assert (HD : forall x, cell_of c2 n r col = Some x -> c_dq x = d_dq d) by (intros x K; subst c2; rewrite (put_cell_same _ _ _ _ _ _ X1) in K; injection K as <-; reflexivity).
  clear x1 X1 P2. pose proof (cs_trans _ _ _ S1 S2) as S12.
  assert (OFF : forall n' r' col' x, X n' r' col' x -> (n, r, col) <> (n', r', col') -> none n' r' col' x) by (unfold X; intros n' r' col' x K; congruence).
  destruct (d_dq d =? 0)%nat eqn:DQ.
  - apply rbind_inv in H as (c3 & U3 & H). injection H as <- <-. apply Nat.eqb_eq in DQ.
    apply upd_cell_fair with (X := X) (Y := none) in U3 as [S3 F3]; auto.
    + split; [eapply cs_trans; eauto|]. now apply fair_counted.
    + intros x K _. right. left. simpl. rewrite (HD x K). auto.
  - destruct (negb alloc).
    + apply rbind_inv in H as (c3 & U3 & H). apply rbind_inv in H as (c4 & U4 & H). injection H as <- <-.
      apply upd_cell_fair with (X := X) (Y := X) in U3 as [S3 F3]; auto.
      2:{ intros x _ _. left. reflexivity. }
      apply upd_cells_fix with (X := X) in U4 as [S4 F4]; auto.
      2:{ intros x y [= <-]. left. reflexivity. }
      split; [eapply cs_trans; [eapply cs_trans; [|exact S4]|apply cs_err]; eapply cs_trans; eauto|].
      apply fair_counted. intros n' r' col' x C. destruct (F4 n' r' col' x C) as [[K1 K2]|K]; auto.
      exfalso. unfold X in K1. injection K1 as -> -> ->. apply K2. split; auto. split; auto. apply in_seq. lia.
    + apply rbind_inv in H as (c3 & U3 & H). apply rbind_inv in H as (c4 & U4 & H). apply rbind_inv in H as (c5 & U5 & H).
      apply upd_cell_fair with (X := X) (Y := none) in U3 as [S3 F3]; auto.
      2:{ intros x K _. right. right. eexists. split; [reflexivity|]. rewrite repeat_length. simpl. rewrite (HD x K). auto. }
      apply upd_cells_fair with (X := none) in U4 as [S4 F4]; auto.
      2:{ intros r0 x y [= <-] K. auto. }
      apply upd_cells_fair with (X := none) in U5 as [S5 F5]; auto.
      2:{ intros r0 x y [= <-] K. auto. }
      destruct (r + d_cells d)%nat as [|b0]; [discriminate|]. apply rbind_inv in H as (c6 & U6 & H). injection H as <- <-.
      apply upd_cell_fair with (X := none) (Y := none) in U6 as [S6 F6]; auto; try (intros ? ? ? ? []).
      split; [|now apply fair_counted]. eauto using cs_trans.
Qed.

(** ** The calls *)
Lemma conf_cell alloc n r col f fid c b c' : configured c -> fn_cell alloc n r col f fid c = Ok (b, c') ->
  (forall d, f = I_FOREIGN -> elem (fo_fn (x_for c)) fid = Some d -> (1 <= d_cells (f_iocd d))%nat) -> configured c'.
Proof. intros H F FC. destruct (fn_cell_step _ _ _ _ _ _ _ _ _ F (cf_counted c H) FC) as [A B]. eapply conf_cells; eauto. Qed.
Lemma conf_whole c : configured c -> whole_program c.
Proof.
  intros H n N. destruct (cf_laid c H n N) as (en & rows & cols & A & B & C). exists en, rows, cols. split; auto. intros r col R L. specialize (C r col R L).
  destruct (peek c (LCell n r col)) as [v|] eqn:P; [|congruence].
  assert (exists x, cell_of c n r col = Some x) as (x & X). { simpl in P. destruct (cell_of c n r col); [eauto|discriminate]. }
  simpl in P. rewrite X in P. simpl in P. injection P as <-. exists (c_bar x), (c_code x), (c_dq x). split; auto.
  destruct (cf_counted c H n r col (c_bar x) (c_code x) (c_dq x)) as [K|K]; [simpl; now rewrite X| |auto].
  simpl. rewrite X. simpl. rewrite K. destruct (c_data x); simpl; [right; eexists; split; [reflexivity|lia]|auto].
Qed.
Lemma program_cell_dec c n r col : program_cell c n r col \/ ~ program_cell c n r col.
Proof.
  unfold program_cell. destruct (le_lt_dec (q_nets (x_q c)) n) as [N|N]; [right; lia|]. destruct (peek c (LNet n)) as [v|]; [|right; intros (_ & en & rows & cols & K & _); discriminate].
  destruct v; try (right; intros (_ & en' & rows' & cols' & K & _); discriminate).
  destruct (le_lt_dec rows r) as [R|R]; [right; intros (_ & en' & rows' & cols' & K & K1 & K2); injection K as <- <- <-; lia|].
  destruct (le_lt_dec cols col) as [C|C]; [right; intros (_ & en' & rows' & cols' & K & K1 & K2); injection K as <- <- <-; lia|].
  left. split; auto. exists en, rows, cols. auto.
Qed.
Lemma conf_program c c' : configured c -> clear_program c = Ok c' -> configured c'.
Proof.
  intros H CP. destruct (C36_program_l c (conf_whole c H)) as (c1 & CP' & A & B). rewrite CP in CP'. injection CP' as <-.
  assert (OUT : forall n r col l, ~ program_cell c n r col -> cell_place n r col l -> peek c' l = peek c l).
  { intros n r col l NP CL. apply B. intros (n' & r' & col' & P & K). apply NP.
    replace (program_cell c n r col) with (program_cell c n' r' col'); auto.
    destruct CL as [->|[->|[->|(i & ->)]]], K as [K|[K|[K|(i' & K)]]]; try discriminate; injection K as -> -> ->; auto. }
  assert (ST : cell_step c c').
  { split.
    - intros l L. apply B. intros (n & r & col & _ & K). apply L. left. exists n, r, col. exact K.
    - intros n r col K. destruct (program_cell_dec c n r col) as [P|P].
      + destruct (A n r col P) as (_ & _ & dq & K1 & _). rewrite K1. discriminate.
      + rewrite (OUT n r col); auto. right. left. reflexivity. }
  eapply conf_cells; eauto. intros n r col bar i dq K. destruct (program_cell_dec c n r col) as [P|P].
  - left. destruct (A n r col P) as (_ & _ & dq' & K1 & K2 & K3). rewrite K in K1. injection K1 as -> -> <-.
    destruct (peek c (LDataLen n r col)) as [v|] eqn:DL; [apply K2; discriminate|]. destruct (K3 eq_refl) as (bar & i & K4).
    destruct (cf_counted c H _ _ _ _ _ _ K4) as [|(k & K5 & _)]; [auto|congruence].
  - rewrite (OUT n r col) in K by (auto; right; left; reflexivity). rewrite (OUT n r col (LDataLen n r col)) by (auto; right; right; left; reflexivity).
    eapply cf_counted; eauto.
Qed.
(** Steps that leave the layout alone. *)
Lemma conf_values c c' (D : loc -> Prop) : configured c -> changes_only c c' D -> (forall l, D l -> ~ is_layout l) -> typed c' -> configured c'.
Proof.
  intros H CH DL T.
  assert (KP : forall l, is_layout l -> peek c' l = peek c l) by (intros l L; apply CH; intros K; now apply DL in K).
  assert (Q : x_q c' = x_q c) by (apply q_keep, KP; exact I).
  assert (IO : x_io c' = x_io c) by (apply io_keep, KP; exact I).
  assert (FO : x_for c' = x_for c) by (apply foreign_keep, KP; exact I).
  constructor; auto.
  - destruct (cf_sized c H) as [A B]. split; [intros b|]; rewrite Q, KP by exact I; auto.
  - destruct (cf_modules c H) as [A B]. unfold modules_ok. rewrite IO. split; intros m M.
    + destruct (A m M) as (id & qd & qa & A1 & A2). exists id, qd, qa. rewrite KP by exact I. split; auto. intros k. rewrite KP by exact I. apply A2.
    + destruct (B m M) as (id & qd & qa & A1 & A2). exists id, qd, qa. rewrite KP by exact I. split; auto. intros k. rewrite KP by exact I. apply A2.
  - destruct (cf_reads c H) as (A & B & C). unfold reads_wf. rewrite IO. split; auto. eapply exactly_size; [exact A|]. apply (KP LInCount). exact I.
  - destruct (cf_writes c H) as (A & B & C). unfold writes_wf. rewrite IO. split; auto. eapply exactly_size; [exact A|]. apply (KP LOutCount). exact I.
  - intros n N. rewrite Q in N. destruct (cf_laid c H n N) as (en & rows & cols & A & B & C). exists en, rows, cols. rewrite KP by exact I. split; auto. split; auto.
    intros r col R L. rewrite KP by exact I. auto.
  - intros n r col bar i dq. rewrite !KP by exact I. apply (cf_counted c H).
  - rewrite FO. apply H.
  - rewrite Q, KP by exact I. apply H.
  - rewrite Q. apply H.
  - rewrite KP by exact I. apply H.
  - intros n rows cols (N & K). apply (cf_idle c H n rows cols). split; [now rewrite <- Q|]. rewrite <- KP by exact I. auto.
Qed.
Lemma conf_memory c c' : configured c -> clear_memory c = Ok c' -> configured c'.
Proof.
  intros H CM. destruct (C36_memory_l c) as (c1 & CM' & A & B).
  { apply sized_banks, H. }
  rewrite CM in CM'. injection CM' as <-. eapply conf_values; [eauto|exact B| |].
  - intros l (b & i & _ & _ & ->). auto.
  - eapply typed_change; [apply (cf_typed c H)|exact B|]. intros l z (b & i & BI & L & ->) Z. unfold holds in Z. rewrite A in Z by auto. injection Z as <-. apply zero_typed.
Qed.
Lemma conf_cron c x e c' : configured c -> u32_call x -> setup x c = Ok (e, c') -> configured c'.
Proof.
  intros H U S. destruct (cf_cron c H) as (k & PK & TB). destruct (cf_m c H) as [M1 M2].
  destruct (setup_keeps x c e c' k U M1 M2 PK TB S) as (CH & k' & PK' & TB' & _).
  assert (KP : forall l, l <> LCron -> peek c' l = peek c l) by (intros l L; apply CH; auto).
  assert (Q : x_q c' = x_q c) by (apply q_keep, KP; discriminate).
  assert (IO : x_io c' = x_io c) by (apply io_keep, KP; discriminate).
  assert (FO : x_for c' = x_for c) by (apply foreign_keep, KP; discriminate).
  constructor.
  - destruct (cf_sized c H) as [A B]. split; [intros b|]; rewrite Q, KP by discriminate; auto.
  - destruct (cf_modules c H) as [A B]. unfold modules_ok. rewrite IO. split; intros m M.
    + destruct (A m M) as (id & qd & qa & A1 & A2). exists id, qd, qa. rewrite KP by discriminate. split; auto. intros k0. rewrite KP by discriminate. apply A2.
    + destruct (B m M) as (id & qd & qa & A1 & A2). exists id, qd, qa. rewrite KP by discriminate. split; auto. intros k0. rewrite KP by discriminate. apply A2.
  - destruct (cf_reads c H) as (A & B & C). unfold reads_wf. rewrite IO. split; auto. eapply exactly_size; [exact A|]. apply (KP LInCount). discriminate.
  - destruct (cf_writes c H) as (A & B & C). unfold writes_wf. rewrite IO. split; auto. eapply exactly_size; [exact A|]. apply (KP LOutCount). discriminate.
  - intros n N. rewrite Q in N. destruct (cf_laid c H n N) as (en & rows & cols & A & B & C). exists en, rows, cols. rewrite KP by discriminate. split; auto. split; auto.
    intros r col R L. rewrite KP by discriminate. auto.
  - intros n r col bar i dq. rewrite !KP by discriminate. apply (cf_counted c H).
  - rewrite FO. apply H.
  - rewrite Q. eauto.
  - rewrite Q. apply H.
  - rewrite KP by discriminate. apply H.
  - eapply typed_change; [apply (cf_typed c H)|exact CH|]. intros l z ->. intros _. exact I.
  - intros n rows cols (N & K). apply (cf_idle c H n rows cols). split; [now rewrite <- Q|]. rewrite <- KP by discriminate. auto.
Qed.

(** ** Registration *)
Lemma elem_grow_lt {A} n (p : option (list A)) x m : exactly n p -> (m < n)%nat -> elem (grow n p x) m = elem p m.
Proof.
  intros [A0 _] M. unfold grow, elem. simpl. unfold items. destruct p as [l|]; simpl in *; [|lia].
  rewrite nth_error_app1 by (rewrite firstn_length; lia). rewrite <- (firstn_skipn n l) at 2. rewrite nth_error_app1; auto. rewrite firstn_length. lia.
Qed.
Lemma elem_grow_eq {A} n (p : option (list A)) x : exactly n p -> elem (grow n p x) n = Some x.
Proof.
  intros [A0 _]. unfold grow, elem. simpl. unfold items. rewrite nth_error_app2 by (rewrite firstn_length; lia). rewrite firstn_length.
  replace (n - Nat.min n (length (match p with Some l => l | None => [] end)))%nat with 0%nat by (destruct p; simpl in *; lia). reflexivity.
Qed.
Lemma elem_grow_gt {A} n (p : option (list A)) x m : exactly n p -> (n < m)%nat -> elem (grow n p x) m = None.
Proof.
  intros [A0 _] M. unfold grow, elem. simpl. apply nth_error_None. unfold items. rewrite app_length, firstn_length. simpl. lia.
Qed.
Local Opaque grow.
Lemma typed_grow_in n c io : typed c -> exactly n (x_in c) -> typed (set_x_in (grow n (x_in c) inmod0) (set_x_io io c)).
Proof.
  intros T X l z Z. destruct (typed_dec l z) as [|N]; auto. apply T. unfold holds in *. destruct l; try exact Z; try (destruct N; exact I). simpl in Z. simpl.
  destruct (Nat.lt_trichotomy m n) as [M|[->|M]]; [now rewrite elem_grow_lt in Z|rewrite elem_grow_eq in Z by auto; destruct k; discriminate|rewrite elem_grow_gt in Z by auto; discriminate].
Qed.
Lemma typed_grow_out n c io : typed c -> exactly n (x_out c) -> typed (set_x_out (grow n (x_out c) outmod0) (set_x_io io c)).
Proof.
  intros T X l z Z. destruct (typed_dec l z) as [|N]; auto. apply T. unfold holds in *. destruct l; try exact Z; try (destruct N; exact I). simpl in Z. simpl.
  destruct (Nat.lt_trichotomy m n) as [M|[->|M]]; [now rewrite elem_grow_lt in Z|rewrite elem_grow_eq in Z by auto; destruct k; discriminate|rewrite elem_grow_gt in Z by auto; discriminate].
Qed.
Lemma typed_io c io : typed c -> typed (set_x_io io c).
Proof. intros T l z Z. destruct l; try (apply T; exact Z); exact I. Qed.
(** The new module, its descriptor and its numbers. *)
Lemma read_added E alloc fn ini s s' : sound_init E -> typed (s_ctx s) -> reads_wf (s_ctx s) -> add_read_fn E alloc fn ini s = Ok (true, s') ->
  typed (s_ctx s') /\ exists id qd qa, peek (s_ctx s') (LInMeta (io_rq (x_io (s_ctx s)))) = Some (VMeta id qd qa) /\ in_ports_ok (s_ctx s') (io_rq (x_io (s_ctx s))) qd qa.
Proof.
  intros SI T W H. destruct s as [c tr]. cbn [s_ctx] in *. set (n := io_rq (x_io c)) in *. destruct W as (W1 & _). fold n in W1.
  unfold add_read_fn in H. destruct fn; cbn [negb] in H; [|discriminate]. unfold bind at 1, getc in H. cbn [s_ctx] in H. fold n in H.
  destruct (255 <=? n)%nat; [discriminate|]. destruct (alloc 0%nat); cbn [negb] in H; [|discriminate]. destruct (alloc 1%nat); cbn [negb] in H; [|discriminate].
  destruct (alloc 2%nat); cbn [negb] in H; [|discriminate]. unfold bind at 1, modc at 1 in H. cbn [s_ctx s_tr] in H.
  match type of H with _ (mk_st ?x _) = _ => set (c1 := x) in H end.
  assert (T1 : typed c1) by (apply typed_grow_in; auto).
  assert (M1 : peek c1 (LInMeta n) = Some (VMeta 0 0 0)) by (simpl; rewrite elem_grow_eq by auto; reflexivity).
  destruct ini.
  - unfold bind at 1, call_init in H. cbn [s_tr] in H. unfold bind at 1, emit in H. cbn [s_ctx s_tr] in H.
    unfold ret at 1 in H. destruct (ext_ok E (length tr)) eqn:OK.
    + unfold bind, modc, ret in H. cbn [s_ctx s_tr] in H. injection H as <-. cbn [s_ctx].
      split; [apply typed_io, (sn_typed E SI (length tr) n true c1); auto|]. apply (sn_read E SI (length tr) n c1); auto. split; [exact M1|]. intros k. cbn [peek]. simpl. rewrite elem_grow_eq by auto. destruct k; reflexivity.
    + unfold bind, modc, emit, set_err, ret in H. cbn [s_ctx s_tr] in H. discriminate.
  - unfold bind, modc, ret in H. cbn [s_ctx s_tr] in H. injection H as <-. cbn [s_ctx]. split; [apply typed_io; exact T1|]. exists 0, 0%nat, 0%nat. split; [exact M1|].
    intros k. simpl. rewrite elem_grow_eq by auto. destruct k; simpl; auto.
Qed.
Lemma write_added E alloc fn ini s s' : sound_init E -> typed (s_ctx s) -> writes_wf (s_ctx s) -> add_write_fn E alloc fn ini s = Ok (true, s') ->
  typed (s_ctx s') /\ exists id qd qa, peek (s_ctx s') (LOutMeta (io_wq (x_io (s_ctx s)))) = Some (VMeta id qd qa) /\ out_ports_ok (s_ctx s') (io_wq (x_io (s_ctx s))) qd qa.
Proof.
  intros SI T W H. destruct s as [c tr]. cbn [s_ctx] in *. set (n := io_wq (x_io c)) in *. destruct W as (W1 & _). fold n in W1.
  unfold add_write_fn in H. destruct fn; cbn [negb] in H; [|discriminate]. unfold bind at 1, getc in H. cbn [s_ctx] in H. fold n in H.
  destruct (255 <=? n)%nat; [discriminate|]. destruct (alloc 0%nat); cbn [negb] in H; [|discriminate]. destruct (alloc 1%nat); cbn [negb] in H; [|discriminate].
  destruct (alloc 2%nat); cbn [negb] in H; [|discriminate]. unfold bind at 1, modc at 1 in H. cbn [s_ctx s_tr] in H.
  match type of H with _ (mk_st ?x _) = _ => set (c1 := x) in H end.
  assert (T1 : typed c1) by (apply typed_grow_out; auto).
  assert (M1 : peek c1 (LOutMeta n) = Some (VMeta 0 0 0)) by (simpl; rewrite elem_grow_eq by auto; reflexivity).
  destruct ini.
  - unfold bind at 1, call_init in H. cbn [s_tr] in H. unfold bind at 1, emit in H. cbn [s_ctx s_tr] in H.
    unfold ret at 1 in H. destruct (ext_ok E (length tr)) eqn:OK.
    + unfold bind, modc, ret in H. cbn [s_ctx s_tr] in H. injection H as <-. cbn [s_ctx].
      split; [apply typed_io, (sn_typed E SI (length tr) n true c1); auto|]. apply (sn_write E SI (length tr) n c1); auto. split; [exact M1|]. intros k. cbn [peek]. simpl. rewrite elem_grow_eq by auto. destruct k; reflexivity.
    + unfold bind, modc, emit, set_err, ret in H. cbn [s_ctx s_tr] in H. discriminate.
  - unfold bind, modc, ret in H. cbn [s_ctx s_tr] in H. injection H as <-. cbn [s_ctx]. split; [apply typed_io; exact T1|]. exists 0, 0%nat, 0%nat. split; [exact M1|].
    intros k. simpl. rewrite elem_grow_eq by auto. destruct k; simpl; auto.
Qed.
(** Steps that change only modules, foreign functions and the last error. *)
Lemma conf_extra c c' : configured c ->
  changes_only c c' (fun l => match l with LIn _ _ _ | LInLen _ _ | LInMeta _ | LInCount | LOut _ _ _ | LOutLen _ _ | LOutMeta _ | LOutCount | LIo | LForeign | LErr => True | _ => False end) ->
  modules_ok c' -> reads_wf c' -> writes_wf c' -> exactly (fo_qty (x_for c')) (fo_fn (x_for c')) -> typed c' -> configured c'.
Proof.
  intros H CH M R W F T.
  assert (KP : forall l, match l with LIn _ _ _ | LInLen _ _ | LInMeta _ | LInCount | LOut _ _ _ | LOutLen _ _ | LOutMeta _ | LOutCount | LIo | LForeign | LErr => False | _ => True end -> peek c' l = peek c l)
    by (intros l L; apply CH; intros K; destruct l; auto).
  assert (Q : x_q c' = x_q c) by (apply q_keep, KP; exact I).
  constructor; auto.
  - destruct (cf_sized c H) as [A B]. split; [intros b|]; rewrite Q, KP by exact I; auto.
  - intros n N. rewrite Q in N. destruct (cf_laid c H n N) as (en & rows & cols & A & B & C). exists en, rows, cols. rewrite KP by exact I. split; auto. split; auto.
    intros r col R' L. rewrite KP by exact I. auto.
  - intros n r col bar i dq. rewrite !KP by exact I. apply (cf_counted c H).
  - rewrite Q, KP by exact I. apply H.
  - rewrite Q. apply H.
  - rewrite KP by exact I. apply H.
  - intros n rows cols (N & K). apply (cf_idle c H n rows cols). split; [now rewrite <- Q|]. rewrite <- KP by exact I. auto.
Qed.
Lemma conf_err c c' : configured c -> changes_only c c' (fun l => l = LErr) -> configured c'.
Proof.
  intros H CH. apply (conf_values c c' (fun l => l = LErr)); auto; [intros l ->; auto|]. eapply typed_change; [apply H|exact CH|]. intros l z -> _. exact I.
Qed.
Lemma conf_read E alloc fn ini b s s' : sound_init E -> configured (s_ctx s) -> add_read_fn E alloc fn ini s = Ok (b, s') -> configured (s_ctx s').
Proof.
  intros SI H A. destruct (C38_read_l E alloc fn ini s _ (sn_polite E SI) (cf_reads _ H) eq_refl) as (b' & s1 & A' & R & _ & OKC & BADC). rewrite A in A'. injection A' as <- <-.
  destruct b; [|eapply conf_err; eauto]. destruct (OKC eq_refl) as (CNT & CH & io & IO & Q1 & _ & _ & Q2 & Q3 & Q4).
  destruct (read_added E alloc fn ini s s' SI (cf_typed _ H) (cf_reads _ H) A) as (T & NEW). set (n := io_rq (x_io (s_ctx s))) in *.
  assert (XIO : x_io (s_ctx s') = io) by (simpl in IO; congruence).
  assert (KP : forall l, ~ in_place n l -> l <> LInCount -> l <> LIo -> peek (s_ctx s') l = peek (s_ctx s) l) by (intros l X Y Z; apply CH; intros [K|[K|K]]; auto).
  assert (NI : forall l m, in_place n l -> in_place m l -> m = n).
  { unfold in_place. intros l m K1 K2. decompose [ex or] K1; decompose [ex or] K2; subst; try discriminate; congruence. }
  assert (FO : x_for (s_ctx s') = x_for (s_ctx s)) by (apply foreign_keep, KP; try discriminate; unfold in_place; intros K; decompose [ex or] K; discriminate).
  apply (conf_extra (s_ctx s)); auto.
  - intros l L. apply KP; [|intros ->; apply L; exact I|intros ->; apply L; exact I]. intros K. apply L. unfold in_place in K. decompose [ex or] K; subst; exact I.
  - destruct (cf_modules _ H) as [M1 M2]. split; intros m M.
    + rewrite XIO, Q1 in M. destruct (Nat.eq_dec m n) as [->|D]; [auto|]. destruct (M1 m) as (id & qd & qa & P1 & P2); [fold n; lia|]. exists id, qd, qa.
      rewrite KP; try discriminate; [|intros K; apply D; eapply NI; eauto; left; auto]. split; auto. intros k. rewrite KP; try discriminate; [apply P2|].
      intros K. apply D. eapply NI; eauto. right. left. eauto.
    + rewrite XIO, Q2 in M. destruct (M2 m M) as (id & qd & qa & P1 & P2). exists id, qd, qa. rewrite KP; try discriminate; [|unfold in_place; intros K; decompose [ex or] K; discriminate].
      split; auto. intros k. rewrite KP; try discriminate; [apply P2|unfold in_place; intros K; decompose [ex or] K; discriminate].
  - destruct (cf_writes _ H) as (W1 & W2 & W3). unfold writes_wf. rewrite XIO, Q2, Q3, Q4. split; auto. eapply exactly_size; [exact W1|].
    apply (KP LOutCount); try discriminate. unfold in_place; intros K; decompose [ex or] K; discriminate.
  - rewrite FO. apply H.
Qed.
Lemma conf_write E alloc fn ini b s s' : sound_init E -> configured (s_ctx s) -> add_write_fn E alloc fn ini s = Ok (b, s') -> configured (s_ctx s').
Proof.
  intros SI H A. destruct (C38_write_l E alloc fn ini s _ (sn_polite E SI) (cf_writes _ H) eq_refl) as (b' & s1 & A' & R & _ & OKC & BADC). rewrite A in A'. injection A' as <- <-.
  destruct b; [|eapply conf_err; eauto]. destruct (OKC eq_refl) as (CNT & CH & io & IO & Q1 & _ & _ & Q2 & Q3 & Q4).
  destruct (write_added E alloc fn ini s s' SI (cf_typed _ H) (cf_writes _ H) A) as (T & NEW). set (n := io_wq (x_io (s_ctx s))) in *.
  assert (XIO : x_io (s_ctx s') = io) by (simpl in IO; congruence).
  assert (KP : forall l, ~ out_place n l -> l <> LOutCount -> l <> LIo -> peek (s_ctx s') l = peek (s_ctx s) l) by (intros l X Y Z; apply CH; intros [K|[K|K]]; auto).
  assert (NI : forall l m, out_place n l -> out_place m l -> m = n).
  { unfold out_place. intros l m K1 K2. decompose [ex or] K1; decompose [ex or] K2; subst; try discriminate; congruence. }
  assert (FO : x_for (s_ctx s') = x_for (s_ctx s)) by (apply foreign_keep, KP; try discriminate; unfold out_place; intros K; decompose [ex or] K; discriminate).
  apply (conf_extra (s_ctx s)); auto.
  - intros l L. apply KP; [|intros ->; apply L; exact I|intros ->; apply L; exact I]. intros K. apply L. unfold out_place in K. decompose [ex or] K; subst; exact I.
  - destruct (cf_modules _ H) as [M1 M2]. split; intros m M.
    + rewrite XIO, Q2 in M. destruct (M1 m M) as (id & qd & qa & P1 & P2). exists id, qd, qa. rewrite KP; try discriminate; [|unfold out_place; intros K; decompose [ex or] K; discriminate].
      split; auto. intros k. rewrite KP; try discriminate; [apply P2|unfold out_place; intros K; decompose [ex or] K; discriminate].
    + rewrite XIO, Q1 in M. destruct (Nat.eq_dec m n) as [->|D]; [auto|]. destruct (M2 m) as (id & qd & qa & P1 & P2); [fold n; lia|]. exists id, qd, qa.
      rewrite KP; try discriminate; [|intros K; apply D; eapply NI; eauto; left; auto]. split; auto. intros k. rewrite KP; try discriminate; [apply P2|].
      intros K. apply D. eapply NI; eauto. right. left. eauto.
  - destruct (cf_reads _ H) as (W1 & W2 & W3). unfold reads_wf. rewrite XIO, Q2, Q3, Q4. split; auto. eapply exactly_size; [exact W1|].
    apply (KP LInCount); try discriminate. unfold out_place; intros K; decompose [ex or] K; discriminate.
  - rewrite FO. apply H.
Qed.
Lemma conf_foreign E alloc fn n b s s' : polite_foreign E -> configured (s_ctx s) -> add_foreign E alloc fn n s = Ok (b, s') -> configured (s_ctx s').
Proof.
  intros PF H A. destruct (C47_adds_l E alloc fn n s _ PF eq_refl (cf_foreign _ H)) as (b' & s1 & A' & OKC & BADC). rewrite A in A'. injection A' as <- <-.
  destruct b; [|eapply conf_err; eauto]. destruct (OKC eq_refl) as (_ & _ & _ & d & _ & PF' & CH).
  assert (KP : forall l, l <> LForeign -> peek (s_ctx s') l = peek (s_ctx s) l) by (intros l L; apply CH; auto).
  assert (IO : x_io (s_ctx s') = x_io (s_ctx s)) by (apply io_keep, KP; discriminate).
  apply (conf_extra (s_ctx s)); auto.
  - intros l L. apply KP. intros ->. apply L. exact I.
  - destruct (cf_modules _ H) as [M1 M2]. split; intros m M; rewrite IO in M.
    + destruct (M1 m M) as (id & qd & qa & P1 & P2). exists id, qd, qa. rewrite KP by discriminate. split; auto. intros k. rewrite KP by discriminate. apply P2.
    + destruct (M2 m M) as (id & qd & qa & P1 & P2). exists id, qd, qa. rewrite KP by discriminate. split; auto. intros k. rewrite KP by discriminate. apply P2.
  - destruct (cf_reads _ H) as (X & Y & Z). unfold reads_wf. rewrite IO. split; auto. eapply exactly_size; [exact X|]. apply (KP LInCount). discriminate.
  - destruct (cf_writes _ H) as (X & Y & Z). unfold writes_wf. rewrite IO. split; auto. eapply exactly_size; [exact X|]. apply (KP LOutCount). discriminate.
  - simpl in PF'. injection PF' as ->. simpl. destruct (cf_foreign _ H) as [X _]. split; [rewrite app_length; simpl; lia|]. split; [discriminate|lia].
  - eapply typed_change; [apply H|exact CH|]. intros l z -> _. exact I.
Qed.
Lemma conf_built E s s' : sound_init E -> polite_foreign E -> built E s s' -> configured (s_ctx s) -> configured (s_ctx s').
Proof.
  intros SI PF B. induction B as [s|s s1 s2 B1 B2 IH]; auto. intros H. apply IH. destruct B1; cbn [s_ctx].
  - eapply conf_read; eauto.
  - eapply conf_write; eauto.
  - eapply conf_foreign; eauto.
  - eapply conf_cron; eauto.
  - eapply conf_cell; eauto.
  - eapply conf_memory; eauto.
  - eapply conf_program; eauto.
Qed.
