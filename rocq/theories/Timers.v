(** Exact behaviour of the timer instructions. *)
From Verif Require Export Effects SpecTime.

(** Contents of a timer. *)
Record tv : Type := mk_tv { tv_tr : bool; tv_td : bool; tv_ts : Z; tv_acc : Z }.
Definition shows (c : ctx) (i : nat) (V : tv) : Prop :=
  holds c (LReg B_Tr i) (b2z (tv_tr V)) /\ holds c (LReg B_Td i) (b2z (tv_td V))
  /\ holds c (LTs i) (tv_ts V) /\ holds c (LAcc i) (tv_acc V).
(** One run of a timer whose clock readings start at [k]. *)
Definition run_fn (now : nat -> Z) (k : nat) (p f : Z) (V : tv) : tv :=
  if tv_tr V then
    if u32 (p * f) <=? u64 (now (S k) - tv_ts V) then mk_tv false true (tv_ts V) (u32 p)
    else mk_tv true (tv_td V) (tv_ts V) (u16 (u64 (now k - tv_ts V) / f))
  else V.
Definition run_k (k : nat) (V : tv) : nat := if tv_tr V then S (S k) else k.

Lemma b2z_bool b : (if b2z b =? 0 then Ok false else if b2z b =? 1 then Ok true else Bad UB_trap) = Ok b.
Proof. destruct b; reflexivity. Qed.

Lemma factor_ok t f : basetime t = Some f -> basetime_factor (reg_code t) = Ok f /\ 0 < f.
Proof.
  intros Hf. unfold basetime in Hf. destruct t as [| | | | | | | | | | | | | | | |z]; simpl in Hf; try discriminate;
    try (inversion Hf; subst; split; [reflexivity|lia]).
  simpl. do 5 (destruct z as [|z|z]; try discriminate; try (inversion Hf; subst; split; [reflexivity|lia]);
   destruct z; try discriminate; try (inversion Hf; subst; split; [reflexivity|lia])).
Qed.

Section T.
Context (E : env) (c0 : ctx) (tr0 : list event) (n r col i : nat) (v0 v1 : value) (f : Z).
Hypothesis Hq : quiet_clock E.
Hypothesis He : executing c0 n r col.
Hypothesis Hc : has_cell c0 n (r + 1) col.
Hypothesis Hv0 : peek c0 (LData n r col 0) = Some (VVal v0).
Hypothesis Hi : v_raw v0 = Z.of_nat i.
Hypothesis Hv1 : peek c0 (LData n r col 1) = Some (VVal v1).
Hypothesis Hf : basetime (v_type v1) = Some f.
Notation p := (v_raw v1).
Definition now (j : nat) : Z := u64 (clk E (length tr0 + j)).
Definition tpl (l : loc) : Prop := In l (timer_regs i) \/ l = LPow n r col \/ l = LPow n (r + 1) col.
Definition tinv (k : nat) (V : tv) (s : st) : Prop :=
  changes_only c0 (s_ctx s) tpl /\ shows (s_ctx s) i V
  /\ s_tr s = rev (map (fun j => EvMillis (now j)) (seq 0 k)) ++ tr0.

Lemma tpl_not l : match l with LReg B_Tr _ | LReg B_Td _ | LTs _ | LAcc _ | LPow _ _ _ => False | _ => True end -> ~ tpl l.
Proof. intros H [K|[->| ->]]; [|destruct H..]. simpl in K. destruct K as [<-|[<-|[<-|[<-|[]]]]]; destruct H. Qed.
Lemma ti_exec k V s : tinv k V s -> executing (s_ctx s) n r col.
Proof.
  intros (H & _). destruct He as (A & B & D). unfold executing. rewrite !H by (apply tpl_not; exact I). auto.
Qed.
Lemma ti_data k V s j v : tinv k V s -> peek c0 (LData n r col j) = Some (VVal v) -> ex_data r col j (s_ctx s) = Ok v.
Proof. intros H Hd. eapply ex_data_ok; [eapply ti_exec; eauto|]. rewrite (proj1 H); auto. apply tpl_not; exact I. Qed.
Lemma ti_left k V s b : tinv k V s -> left_powered c0 n r col b -> left_powered (s_ctx s) n r col b.
Proof.
  intros (H & _). destruct col as [|q] eqn:Hcol; auto. simpl. unfold powered. intros Hb. rewrite H; auto.
  unfold tpl; rewrite Hcol. intros [K|[[= K]|[= K]]]; [|lia|lia]. simpl in K. destruct K as [K|[K|[K|[K|[]]]]]; discriminate.
Qed.
Lemma ti_has k V s r' : tinv k V s -> has_cell c0 n r' col -> has_cell (s_ctx s) n r' col.
Proof. intros (H & _). apply has_same. apply H, tpl_not; exact I. Qed.
Lemma tpl_reg l : In l (timer_regs i) -> tpl l. Proof. left; auto. Qed.

Lemma midx_ok k V s : tinv k V s -> midx col r s = Ok (Z.of_nat i, s).
Proof.
  intros H. unfold midx. rewrite bind_getc. erewrite bind_ok; [|apply lift_ok; eapply ti_data; eauto]. unfold ret. rewrite Hi. auto.
Qed.
Lemma mpreset_ok k V s : tinv k V s -> mpreset col r s = Ok (p, s).
Proof.
  intros H. unfold mpreset. rewrite bind_getc. erewrite bind_ok; [|apply lift_ok; eapply ti_data; eauto]. auto.
Qed.
Lemma mfactor_ok k V s : tinv k V s -> mfactor col r s = Ok (f, s).
Proof.
  intros H. unfold mfactor. rewrite bind_getc. erewrite bind_ok; [|apply lift_ok; eapply ti_data; eauto].
  apply lift_ok. apply factor_ok; auto.
Qed.
Lemma pget_bank c b z : holds c (LReg b i) z -> bk_get b (Z.of_nat i) c = Ok z.
Proof. intros H. apply holds_get; [lia|]. unfold ix; rewrite Nat2Z.id; auto. Qed.
Lemma mflag_ok k V s b x : tinv k V s -> holds (s_ctx s) (LReg b i) (b2z x) -> mflag b col r s = Ok (x, s).
Proof.
  intros H Hb. unfold mflag. rewrite (bind_ok _ _ _ _ _ (midx_ok _ _ _ H)), bind_getc. apply lift_ok.
  unfold bk_bool, bget. change (pget (arr_of b (s_ctx s)) (Z.of_nat i)) with (bk_get b (Z.of_nat i) (s_ctx s)).
  rewrite (pget_bank _ _ _ Hb). simpl. apply b2z_bool.
Qed.
Lemma mtr_ok k V s : tinv k V s -> mflag B_Tr col r s = Ok (tv_tr V, s).
Proof. intros H. eapply mflag_ok; eauto. apply H. Qed.
Lemma mtd_ok k V s : tinv k V s -> mflag B_Td col r s = Ok (tv_td V, s).
Proof. intros H. eapply mflag_ok; eauto. apply H. Qed.
Lemma mts_ok k V s : tinv k V s -> mts col r s = Ok (tv_ts V, s).
Proof.
  intros H. unfold mts. rewrite (bind_ok _ _ _ _ _ (midx_ok _ _ _ H)), bind_getc.
  destruct H as (_ & (_ & _ & H & _) & _). unfold holds in H; simpl in H.
  destruct (elem (x_tm (s_ctx s)) i) as [t|] eqn:Ht; [|discriminate]. inversion H.
  rewrite (bind_ok _ _ _ _ _ (lift_ok _ _ _ (pget_nat _ _ _ Ht))). auto.
Qed.

(** Updates *)
Lemma put_reg_shows c b z x : holds c (LReg b i) x -> holds (put_reg b i z c) (LReg b i) z.
Proof. intros H. apply holds_elem in H. eapply put_reg_here; eauto. Qed.
Lemma put_reg_keeps c b z l x : l <> LReg b i -> holds c l x -> holds (put_reg b i z c) l x.
Proof. unfold holds. intros H. rewrite put_reg_frame; auto. Qed.
Lemma mflag_set_ok k V s b x y : tinv k V s -> holds (s_ctx s) (LReg b i) x ->
  mflag_set b col r y s = Ok (tt, inc s (put_reg b i (b2z y) (s_ctx s))).
Proof.
  intros H Hb. unfold mflag_set. rewrite (bind_ok _ _ _ _ _ (midx_ok _ _ _ H)). apply updc_ok.
  erewrite bk_put_ok; [unfold ix; rewrite Nat2Z.id; reflexivity|lia|]. unfold ix; rewrite Nat2Z.id. apply holds_elem; eauto.
Qed.
Lemma tinv_reg k V s b x z V' : tinv k V s -> holds (s_ctx s) (LReg b i) x -> tpl (LReg b i) ->
  shows (put_reg b i z (s_ctx s)) i V' -> tinv k V' (inc s (put_reg b i z (s_ctx s))).
Proof.
  intros (H1 & H2 & H3) Hb Hp HV. split; [|split; auto]. simpl. intros l Hl. rewrite put_reg_frame; auto. congruence.
Qed.
Lemma set_tr_ok k V s y : tinv k V s -> exists s', mflag_set B_Tr col r y s = Ok (tt, s')
  /\ tinv k (mk_tv y (tv_td V) (tv_ts V) (tv_acc V)) s'.
Proof.
  intros H. pose proof H as (_ & (A & B & C & D) & _). eexists; split; [eapply mflag_set_ok; eauto|].
  eapply tinv_reg; eauto; [apply tpl_reg; simpl; auto|]. unfold shows; cbn [tv_tr tv_td tv_ts tv_acc]; split; [|split; [|split]].
  - eapply put_reg_shows; eauto. - apply put_reg_keeps; auto; discriminate. - apply put_reg_keeps; auto; discriminate.
  - apply put_reg_keeps; auto; discriminate.
Qed.
Lemma set_td_ok k V s y : tinv k V s -> exists s', mflag_set B_Td col r y s = Ok (tt, s')
  /\ tinv k (mk_tv (tv_tr V) y (tv_ts V) (tv_acc V)) s'.
Proof.
  intros H. pose proof H as (_ & (A & B & C & D) & _). eexists; split; [eapply mflag_set_ok; eauto|].
  eapply tinv_reg; eauto; [apply tpl_reg; simpl; auto|]. unfold shows; cbn [tv_tr tv_td tv_ts tv_acc]; split; [|split; [|split]].
  - apply put_reg_keeps; auto; discriminate. - eapply put_reg_shows; eauto. - apply put_reg_keeps; auto; discriminate.
  - apply put_reg_keeps; auto; discriminate.
Qed.
Lemma set_tm_ok k V s t g V' : tinv k V s -> elem (x_tm (s_ctx s)) i = Some t ->
  tv_tr V' = tv_tr V -> tv_td V' = tv_td V -> t_ts (g t) = tv_ts V' -> t_acc (g t) = tv_acc V' ->
  exists s', updc (tm_put (Z.of_nat i) g) s = Ok (tt, s') /\ tinv k V' s'.
Proof.
  intros H Ht A1 A2 A3 A4. pose proof H as (H1 & (A & B & C & D) & H3). eexists; split.
  - apply updc_ok. apply tm_put_ok; [lia|]. unfold ix; rewrite Nat2Z.id; eauto.
  - unfold ix; rewrite Nat2Z.id. split; [|split; auto]; simpl.
    + intros l Hl. rewrite put_tm_frame; auto; intros ->; apply Hl, tpl_reg; simpl; auto.
    + unfold shows. rewrite A1, A2, <- A3, <- A4. unfold holds in *. rewrite !(put_tm_frame _ _ _ (LReg _ _)) by discriminate.
      repeat split; auto; simpl; erewrite elem_lset_same by eauto; auto.
Qed.
Lemma tm_elem k V s : tinv k V s -> exists t, elem (x_tm (s_ctx s)) i = Some t /\ t_ts t = tv_ts V /\ t_acc t = tv_acc V.
Proof.
  intros (_ & (_ & _ & A & B) & _). unfold holds in *; simpl in *. destruct (elem (x_tm (s_ctx s)) i) as [t|]; [|discriminate].
  exists t. inversion A; inversion B; auto.
Qed.
Lemma set_ts_ok k V s z : tinv k V s -> exists s', mts_set col r z s = Ok (tt, s') /\ tinv k (mk_tv (tv_tr V) (tv_td V) z (tv_acc V)) s'.
Proof.
  intros H. destruct (tm_elem _ _ _ H) as (t & Ht & A & B). unfold mts_set.
  rewrite (bind_ok _ _ _ _ _ (midx_ok _ _ _ H)). eapply set_tm_ok; eauto.
Qed.
Lemma set_acc_ok k V s z : tinv k V s -> exists s', macc_set col r z s = Ok (tt, s') /\ tinv k (mk_tv (tv_tr V) (tv_td V) (tv_ts V) z) s'.
Proof.
  intros H. destruct (tm_elem _ _ _ H) as (t & Ht & A & B). unfold macc_set.
  rewrite (bind_ok _ _ _ _ _ (midx_ok _ _ _ H)). eapply set_tm_ok; eauto.
Qed.
Lemma millis_ok k V s : tinv k V s -> exists s', millis E s = Ok (now k, s') /\ tinv (S k) V s'.
Proof.
  intros (H1 & H2 & H3). unfold millis, emit, bind, ret. rewrite Hq. eexists; split.
  - f_equal. f_equal. unfold now. do 2 f_equal. rewrite H3, app_length, rev_length, map_length, seq_length. lia.
  - split; [|split]; cbn [s_ctx s_tr]; auto. rewrite H3. rewrite app_length, rev_length, map_length, seq_length.
    rewrite seq_S, map_app, rev_app_distr. simpl. unfold now.
    replace (k + length tr0)%nat with (length tr0 + k)%nat by lia. auto.
Qed.
Ltac tstep L H := let s' := fresh "s'" in let Hs := fresh "Hs" in let Ht := fresh "Ht" in
  edestruct L as (s' & Hs & Ht); [exact H|]; erewrite bind_ok; [|exact Hs]; clear Hs.
Ltac tget L := erewrite bind_ok; [|eapply L; eassumption].

Lemma timer_run_ok k V s : tinv k V s -> exists s', timer_run E col r s = Ok (tt, s') /\ tinv (run_k k V) (run_fn now k p f V) s'.
Proof.
  intros H. unfold timer_run, run_fn, run_k. tget mtr_ok. destruct (tv_tr V) eqn:Htr.
  2:{ rewrite bind_ret. tget mtr_ok. rewrite Htr. eexists; split; [reflexivity|auto]. }
  rewrite bind_bind. unfold timer_elapsed at 1. rewrite bind_bind.
  destruct (millis_ok _ _ _ H) as (s1 & M1 & T1). rewrite (bind_ok _ _ _ _ _ M1). rewrite bind_bind. tget mts_ok.
  rewrite bind_ret. rewrite bind_bind. tget mfactor_ok.
  destruct (set_acc_ok _ _ _ (u16 (u64 (now k - tv_ts V) / f)) T1) as (s2 & M2 & T2). rewrite (bind_ok _ _ _ _ _ M2).
  tget mtr_ok. cbn [tv_tr]. rewrite ?Htr. cbv beta iota. unfold timer_elapsed.
  rewrite bind_bind.
  destruct (millis_ok _ _ _ T2) as (s3 & M3 & T3). rewrite (bind_ok _ _ _ _ _ M3). rewrite bind_bind. tget mts_ok. rewrite bind_ret.
  tget mpreset_ok. tget mfactor_ok. cbn [tv_ts]. destruct (u32 (p * f) <=? u64 (now (S k) - tv_ts V)).
  - destruct (set_tr_ok _ _ _ false T3) as (s4 & M4 & T4). rewrite (bind_ok _ _ _ _ _ M4).
    destruct (set_td_ok _ _ _ true T4) as (s5 & M5 & T5). rewrite (bind_ok _ _ _ _ _ M5).
    tget mpreset_ok. destruct (set_acc_ok _ _ _ (u32 p) T5) as (s6 & M6 & T6). eauto.
  - exists s3. split; auto. simpl in T3. rewrite Htr in T3. auto.
Qed.
Lemma timer_start_ok k V s : tinv k V s -> exists s', timer_start E col r s = Ok (tt, s')
  /\ tinv (S k) (mk_tv true (tv_td V) (now k) (tv_acc V)) s'.
Proof.
  intros H. unfold timer_start. destruct (set_tr_ok _ _ _ true H) as (s1 & M1 & T1). rewrite (bind_ok _ _ _ _ _ M1).
  destruct (millis_ok _ _ _ T1) as (s2 & M2 & T2). rewrite (bind_ok _ _ _ _ _ M2).
  destruct (set_ts_ok _ _ _ (now k) T2) as (s3 & M3 & T3). eauto.
Qed.
Lemma timer_reset_ok k V s : tinv k V s -> exists s', timer_reset col r s = Ok (tt, s') /\ tinv k (mk_tv false false (tv_ts V) 0) s'.
Proof.
  intros H. unfold timer_reset. destruct (set_acc_ok _ _ _ 0 H) as (s1 & M1 & T1). rewrite (bind_ok _ _ _ _ _ M1).
  destruct (set_tr_ok _ _ _ false T1) as (s2 & M2 & T2). rewrite (bind_ok _ _ _ _ _ M2).
  destruct (set_td_ok _ _ _ false T2) as (s3 & M3 & T3). eauto.
Qed.
(** The two power outputs. *)
Lemma puts_ok k V s a b : tinv k V s -> exists s1 s2, mput col (r + 1) a s = Ok (tt, s1) /\ tinv k V s1
  /\ mput col r b s1 = Ok (tt, s2) /\ tinv k V s2
  /\ powered (s_ctx s2) n r col b /\ powered (s_ctx s2) n (r + 1) col a.
Proof.
  intros H. pose proof (exec_of _ _ _ _ (ti_exec _ _ _ H)) as Hx.
  pose proof (ti_has _ _ _ _ H Hc) as HC. pose proof (ti_has _ _ _ _ H (executing_has _ _ _ _ He)) as HC2.
  assert (HT : forall s r' x, r' = r \/ r' = (r + 1)%nat -> tinv k V s -> tinv k V (inc s (put_pow n r' col x (s_ctx s)))).
  { intros s0 r' x Hr (H1 & (A & B & C & D) & H3). split; [|split; auto]; simpl.
    - intros l Hl. rewrite put_pow_frame; auto. intros ->; apply Hl; right. destruct Hr as [->| ->]; auto.
    - unfold shows, holds. rewrite !put_pow_frame by discriminate. repeat split; auto. }
  exists (inc s (put_pow n (r + 1) col a (s_ctx s))). eexists. split; [apply mput_ok; auto|]. split; [apply HT; auto|].
  split; [apply mput_ok; cbn [inc s_ctx]; [rewrite put_pow_exec; exact Hx|apply has_pow; auto]|]. cbn [inc s_ctx].
  split; [apply (HT (inc s (put_pow n (r + 1) col a (s_ctx s)))); auto|]. split.
  - apply powered_pow_here, has_pow; auto.
  - apply powered_pow_other; [intros [= ]; lia|]. apply powered_pow_here; auto.
Qed.

(** The timer state after one execution with timing phase [ph]: TON times while its input is on, TOF while off. *)
Definition begins (ph : bool) (V : tv) : bool := ph && negb (tv_tr V) && negb (tv_td V).
Definition tstep (nw : nat -> Z) (f p : Z) (ph : bool) (V : tv) : tv :=
  if ph then
    if begins ph V then run_fn nw 1 p f (mk_tv true (tv_td V) (nw 0%nat) (tv_acc V)) else run_fn nw 0 p f V
  else mk_tv false false (tv_ts V) 0.
Definition tcount (ph : bool) (V : tv) : nat := if ph then if begins ph V then 3 else run_k 0 V else 0.

Lemma ton_ok V s l : tinv 0 V s -> left_powered c0 n r col l -> exists s', fn_TON E col r s = Ok (E_OK, s')
  /\ tinv (tcount l V) (tstep now f p l V) s'
  /\ powered (s_ctx s') n r col (tv_td (tstep now f p l V)) /\ powered (s_ctx s') n (r + 1) col (tv_tr (tstep now f p l V)).
Proof.
  intros H Hl. unfold fn_TON.
  assert (HL : forall k V s, tinv k V s -> mleft col r s = Ok (l, s)).
  { intros k' V' s' H'. eapply mleft_ok; [eapply exec_of, ti_exec; eauto|eapply ti_left; eauto]. }
  assert (HO : forall k V s, tinv k V s -> exists s', (r0 <- mflag B_Tr col r;; mput col (r + 1) r0;;; d <- mflag B_Td col r;; mput col r d;;; ret E_OK) s
     = Ok (E_OK, s') /\ tinv k V s' /\ powered (s_ctx s') n r col (tv_td V) /\ powered (s_ctx s') n (r + 1) col (tv_tr V)).
  { intros k' V' s' H'. tget mtr_ok. destruct (puts_ok _ _ _ (tv_tr V') (tv_td V') H') as (s1 & s2 & P1 & T1 & P2 & T2 & W1 & W2).
    rewrite (bind_ok _ _ _ _ _ P1). tget mtd_ok. rewrite (bind_ok _ _ _ _ _ P2). eexists; split; [reflexivity|auto]. }
  rewrite (bind_ok _ _ _ _ _ (HL _ _ _ H)). destruct l.
  - rewrite bind_ret. rewrite (bind_ok _ _ _ _ _ (HL _ _ _ H)). unfold tstep, tcount, begins. simpl andb.
    rewrite bind_bind. tget mtd_ok. destruct (tv_td V) eqn:Hd.
    { rewrite bind_ret. destruct (timer_run_ok _ _ _ H) as (s1 & M1 & T1). rewrite (bind_ok _ _ _ _ _ M1).
      rewrite andb_false_r. apply HO; auto. }
    rewrite bind_bind. tget mtr_ok. destruct (tv_tr V) eqn:Htr; simpl andb; cbv iota.
    { rewrite bind_ret. destruct (timer_run_ok _ _ _ H) as (s1 & M1 & T1). rewrite (bind_ok _ _ _ _ _ M1). apply HO; auto. }
    destruct (timer_start_ok _ _ _ H) as (s1 & M1 & T1). rewrite (bind_ok _ _ _ _ _ M1). rewrite Hd in T1.
    destruct (timer_run_ok _ _ _ T1) as (s2 & M2 & T2). rewrite (bind_ok _ _ _ _ _ M2). apply HO; auto.
  - destruct (timer_reset_ok _ _ _ H) as (s1 & M1 & T1). rewrite (bind_ok _ _ _ _ _ M1).
    rewrite (bind_ok _ _ _ _ _ (HL _ _ _ T1)). rewrite bind_ret.
    destruct (timer_run_ok _ _ _ T1) as (s2 & M2 & T2). rewrite (bind_ok _ _ _ _ _ M2). apply HO; auto.
Qed.
Lemma tof_ok V s l : tinv 0 V s -> left_powered c0 n r col l -> exists s', fn_TOF E col r s = Ok (E_OK, s')
  /\ tinv (tcount (negb l) V) (tstep now f p (negb l) V) s'
  /\ powered (s_ctx s') n r col (l || tv_tr (tstep now f p (negb l) V)) /\ powered (s_ctx s') n (r + 1) col (tv_tr (tstep now f p (negb l) V)).
Proof.
  intros H Hl. unfold fn_TOF.
  assert (HL : forall k V s, tinv k V s -> mleft col r s = Ok (l, s)).
  { intros k' V' s' H'. eapply mleft_ok; [eapply exec_of, ti_exec; eauto|eapply ti_left; eauto]. }
  assert (HO : forall k V s, tinv k V s -> exists s', (r0 <- mflag B_Tr col r;; mput col (r + 1) r0;;;
      l2 <- mleft col r;; b <- (if l2 : bool then ret true else mflag B_Tr col r);; mput col r b;;; ret E_OK) s
     = Ok (E_OK, s') /\ tinv k V s' /\ powered (s_ctx s') n r col (l || tv_tr V) /\ powered (s_ctx s') n (r + 1) col (tv_tr V)).
  { intros k' V' s' H'. tget mtr_ok. destruct (puts_ok _ _ _ (tv_tr V') (l || tv_tr V') H') as (s1 & s2 & P1 & T1 & P2 & T2 & W1 & W2).
    rewrite (bind_ok _ _ _ _ _ P1). rewrite (bind_ok _ _ _ _ _ (HL _ _ _ T1)).
    destruct l; [rewrite bind_ret|tget mtr_ok]; simpl orb in P2; rewrite (bind_ok _ _ _ _ _ P2); eexists; (split; [reflexivity|auto]). }
  rewrite (bind_ok _ _ _ _ _ (HL _ _ _ H)). destruct l.
  - destruct (timer_reset_ok _ _ _ H) as (s1 & M1 & T1). rewrite (bind_ok _ _ _ _ _ M1). apply HO; auto.
  - simpl negb. unfold tstep, tcount, begins. simpl andb. rewrite !bind_bind. tget mtr_ok. destruct (tv_tr V) eqn:Htr; simpl andb; cbv iota.
    { rewrite ?bind_bind, bind_ret. destruct (timer_run_ok _ _ _ H) as (s1 & M1 & T1). rewrite (bind_ok _ _ _ _ _ M1). apply HO; auto. }
    rewrite !bind_bind. tget mtd_ok. destruct (tv_td V) eqn:Hd; simpl negb; cbv iota.
    { rewrite ?bind_bind, bind_ret. destruct (timer_run_ok _ _ _ H) as (s1 & M1 & T1). rewrite (bind_ok _ _ _ _ _ M1). apply HO; auto. }
    rewrite ?bind_bind. destruct (timer_start_ok _ _ _ H) as (s1 & M1 & T1). rewrite (bind_ok _ _ _ _ _ M1). rewrite Hd in T1.
    destruct (timer_run_ok _ _ _ T1) as (s2 & M2 & T2). rewrite (bind_ok _ _ _ _ _ M2). apply HO; auto.
Qed.
(** TP starts when powered, stopped, and the value its first operand had is 0. *)
Definition tp_begins (l : bool) (pv : Z) (V : tv) : bool := l && (pv =? 0) && negb (tv_tr V).
Definition tp_step (nw : nat -> Z) (f p : Z) (l : bool) (pv : Z) (V : tv) : tv :=
  if tp_begins l pv V then run_fn nw 1 p f (mk_tv true (tv_td V) (nw 0%nat) (tv_acc V)) else run_fn nw 0 p f V.
Definition tp_count (l : bool) (pv : Z) (V : tv) : nat := if tp_begins l pv V then 3%nat else run_k 0 V.
Lemma tp_ok V s l pv : tinv 0 V s -> left_powered c0 n r col l -> s_ctx s = c0 ->
  operand_at c0 n r col 0 v0 -> prev_reads c0 v0 pv -> exists s', fn_TP E col r s = Ok (E_OK, s')
  /\ tinv (tp_count l pv V) (tp_step now f p l pv V) s'
  /\ powered (s_ctx s') n r col (tv_tr (tp_step now f p l pv V)) /\ powered (s_ctx s') n (r + 1) col (tv_tr (tp_step now f p l pv V)).
Proof.
  intros H Hl Hc0 Ho Hp. unfold fn_TP.
  assert (HL : forall k V s, tinv k V s -> mleft col r s = Ok (l, s)).
  { intros k' V' s' H'. eapply mleft_ok; [eapply exec_of, ti_exec; eauto|eapply ti_left; eauto]. }
  assert (HO : forall k V s, tinv k V s -> exists s', (r0 <- mflag B_Tr col r;; mput col (r + 1) r0;;; r2 <- mflag B_Tr col r;; mput col r r2;;; ret E_OK) s
     = Ok (E_OK, s') /\ tinv k V s' /\ powered (s_ctx s') n r col (tv_tr V) /\ powered (s_ctx s') n (r + 1) col (tv_tr V)).
  { intros k' V' s' H'. tget mtr_ok. destruct (puts_ok _ _ _ (tv_tr V') (tv_tr V') H') as (s1 & s2 & P1 & T1 & P2 & T2 & W1 & W2).
    rewrite (bind_ok _ _ _ _ _ P1). tget mtr_ok. rewrite (bind_ok _ _ _ _ _ P2). eexists; split; [reflexivity|auto]. }
  rewrite (bind_ok _ _ _ _ _ (HL _ _ _ H)). unfold tp_step, tp_count, tp_begins. destruct l; simpl andb; cbv iota.
  - rewrite bind_bind. erewrite bind_ok; [|eapply mprev_ok; rewrite Hc0; eauto]. destruct (pv =? 0); simpl andb; cbv iota.
    + rewrite bind_bind. tget mtr_ok. destruct (tv_tr V) eqn:Htr; simpl negb; cbv iota.
      * rewrite bind_ret. destruct (timer_run_ok _ _ _ H) as (s1 & M1 & T1). rewrite (bind_ok _ _ _ _ _ M1). apply HO; auto.
      * destruct (timer_start_ok _ _ _ H) as (s1 & M1 & T1). rewrite (bind_ok _ _ _ _ _ M1).
        destruct (timer_run_ok _ _ _ T1) as (s2 & M2 & T2). rewrite (bind_ok _ _ _ _ _ M2). apply HO; auto.
    + rewrite bind_ret. destruct (timer_run_ok _ _ _ H) as (s1 & M1 & T1). rewrite (bind_ok _ _ _ _ _ M1). apply HO; auto.
  - rewrite bind_ret. destruct (timer_run_ok _ _ _ H) as (s1 & M1 & T1). rewrite (bind_ok _ _ _ _ _ M1). apply HO; auto.
Qed.
End T.
