(** Exact behaviour of the counter instructions. *)
From Verif Require Export Timers.

(** Contents of a counter and power of the two cells of its block. *)
Record cv : Type := mk_cv { cv_n : Z; cv_d : bool; cv_r : bool; cv_p0 : bool; cv_p1 : bool }.
Definition cshows (c : ctx) (n r col i : nat) (V : cv) : Prop :=
  holds c (LReg B_C i) (cv_n V) /\ holds c (LReg B_Cd i) (b2z (cv_d V)) /\ holds c (LReg B_Cr i) (b2z (cv_r V))
  /\ powered c n r col (cv_p0 V) /\ powered c n (r + 1) col (cv_p1 V).
Definition creset (z : Z) : cv := mk_cv (u32 z) false false false false.
Definition ccount (d : Z) (l : bool) (V : cv) : cv :=
  if l then (if cv_r V || cv_d V then V else mk_cv (u32 (cv_n V + d)) (cv_d V) true (cv_p0 V) true)
  else mk_cv (cv_n V) (cv_d V) false (cv_p0 V) false.
Definition cdone (b : bool) (V : cv) : cv := if b then mk_cv (cv_n V) true (cv_r V) true (cv_p1 V) else V.
Definition ctu_step (p : Z) (l rs : bool) (V : cv) : cv :=
  let W := ccount 1 l (if rs then creset 0 else V) in cdone (u32 p <=? cv_n W) W.
Definition ctd_step (p : Z) (l rs : bool) (V : cv) : cv :=
  let W := ccount (-1) l (if rs then creset p else V) in cdone (cv_n W =? 0) W.

Section C.
Context (E : env) (c0 : ctx) (tr0 : list event) (n r col i : nat) (v0 v1 : value).
Hypothesis He : executing c0 n r col.
Hypothesis Hv0 : peek c0 (LData n r col 0) = Some (VVal v0).
Hypothesis Hi : v_raw v0 = Z.of_nat i.
Hypothesis Hv1 : peek c0 (LData n r col 1) = Some (VVal v1).
Notation p := (v_raw v1).
Definition cpl (l : loc) : Prop := In l (counter_regs i) \/ l = LPow n r col \/ l = LPow n (r + 1) col.
Definition cinv (V : cv) (s : st) : Prop :=
  changes_only c0 (s_ctx s) cpl /\ cshows (s_ctx s) n r col i V /\ s_tr s = tr0.

Lemma cpl_not l : match l with LReg B_C _ | LReg B_Cd _ | LReg B_Cr _ | LPow _ _ _ => False | _ => True end -> ~ cpl l.
Proof. intros H [K|[->| ->]]; [|destruct H..]. simpl in K. destruct K as [<-|[<-|[<-|[]]]]; destruct H. Qed.
Lemma ci_exec V s : cinv V s -> executing (s_ctx s) n r col.
Proof.
  intros (H & _). destruct He as (A & B & D). unfold executing. rewrite !H by (apply cpl_not; exact I). auto.
Qed.
Lemma ci_data V s j v : cinv V s -> peek c0 (LData n r col j) = Some (VVal v) -> ex_data r col j (s_ctx s) = Ok v.
Proof. intros H Hd. eapply ex_data_ok; [eapply ci_exec; eauto|]. rewrite (proj1 H); auto. apply cpl_not; exact I. Qed.
Lemma ci_left V s r' b : cinv V s -> left_powered c0 n r' col b -> left_powered (s_ctx s) n r' col b.
Proof.
  intros (H & _). destruct col as [|q] eqn:Hcol; auto. simpl. unfold powered. intros Hb. rewrite H; auto.
  unfold cpl; rewrite Hcol. intros [K|[[= _ K]|[= _ K]]]; [|lia|lia]. simpl in K. destruct K as [K|[K|[K|[]]]]; discriminate.
Qed.
Lemma cmidx V s : cinv V s -> midx col r s = Ok (Z.of_nat i, s).
Proof. intros H. unfold midx. rewrite bind_getc. erewrite bind_ok; [|apply lift_ok; eapply ci_data; eauto]. unfold ret. rewrite Hi. auto. Qed.
Lemma cpreset V s : cinv V s -> mpreset col r s = Ok (p, s).
Proof. intros H. unfold mpreset. rewrite bind_getc. erewrite bind_ok; [|apply lift_ok; eapply ci_data; eauto]. auto. Qed.
Lemma cflag V s b x : cinv V s -> holds (s_ctx s) (LReg b i) (b2z x) -> mflag b col r s = Ok (x, s).
Proof.
  intros H Hb. unfold mflag. rewrite (bind_ok _ _ _ _ _ (cmidx _ _ H)), bind_getc. apply lift_ok.
  unfold bk_bool, bget. change (pget (arr_of b (s_ctx s)) (Z.of_nat i)) with (bk_get b (Z.of_nat i) (s_ctx s)).
  rewrite (pget_bank i _ _ _ Hb). simpl. apply b2z_bool.
Qed.
Lemma cflag_d V s : cinv V s -> mflag B_Cd col r s = Ok (cv_d V, s).
Proof. intros H. eapply cflag; eauto. apply H. Qed.
Lemma cflag_r V s : cinv V s -> mflag B_Cr col r s = Ok (cv_r V, s).
Proof. intros H. eapply cflag; eauto. apply H. Qed.
Lemma cmcount V s : cinv V s -> mcount col r s = Ok (cv_n V, s).
Proof.
  intros H. unfold mcount. rewrite (bind_ok _ _ _ _ _ (cmidx _ _ H)), bind_getc. apply lift_ok. apply pget_bank. apply H.
Qed.
Lemma creg V s b x z V' : cinv V s -> holds (s_ctx s) (LReg b i) x -> cpl (LReg b i) ->
  cshows (put_reg b i z (s_ctx s)) n r col i V' -> exists s', updc (bk_put b (Z.of_nat i) z) s = Ok (tt, s') /\ cinv V' s'.
Proof.
  intros (H1 & H2 & H3) Hb Hp HV. eexists; split.
  - apply updc_ok. eapply bk_put_ok; [lia|]. unfold ix; rewrite Nat2Z.id. apply holds_elem; eauto.
  - unfold ix; rewrite Nat2Z.id. split; [|split; auto]. simpl. intros l Hl. rewrite put_reg_frame; auto. congruence.
Qed.
Lemma put_reg_pow c b z a1 a2 a3 x : powered c a1 a2 a3 x -> powered (put_reg b i z c) a1 a2 a3 x.
Proof. unfold powered. rewrite put_reg_frame by discriminate. auto. Qed.
Ltac shows5 := unfold cshows; cbn [cv_n cv_d cv_r cv_p0 cv_p1]; repeat match goal with |- _ /\ _ => split end;
  try (eapply put_reg_shows; eassumption); try (apply put_reg_keeps; [discriminate|assumption]); try (apply put_reg_pow; assumption).
Lemma cset_n V s z : cinv V s -> exists s', mcount_set col r z s = Ok (tt, s') /\ cinv (mk_cv (u32 z) (cv_d V) (cv_r V) (cv_p0 V) (cv_p1 V)) s'.
Proof.
  intros H. pose proof H as (_ & (A & B & C & D & F) & _). unfold mcount_set. rewrite (bind_ok _ _ _ _ _ (cmidx _ _ H)).
  eapply creg; eauto; [left; simpl; auto|]. shows5.
Qed.
Lemma cset_d V s y : cinv V s -> exists s', mflag_set B_Cd col r y s = Ok (tt, s') /\ cinv (mk_cv (cv_n V) y (cv_r V) (cv_p0 V) (cv_p1 V)) s'.
Proof.
  intros H. pose proof H as (_ & (A & B & C & D & F) & _). unfold mflag_set. rewrite (bind_ok _ _ _ _ _ (cmidx _ _ H)).
  eapply creg; eauto; [left; simpl; auto|]. shows5.
Qed.
Lemma cset_r V s y : cinv V s -> exists s', mflag_set B_Cr col r y s = Ok (tt, s') /\ cinv (mk_cv (cv_n V) (cv_d V) y (cv_p0 V) (cv_p1 V)) s'.
Proof.
  intros H. pose proof H as (_ & (A & B & C & D & F) & _). unfold mflag_set. rewrite (bind_ok _ _ _ _ _ (cmidx _ _ H)).
  eapply creg; eauto; [left; simpl; auto|]. shows5.
Qed.
Lemma powered_has c a1 a2 a3 b : powered c a1 a2 a3 b -> has_cell c a1 a2 a3.
Proof. unfold powered; simpl. destruct (cell_of c a1 a2 a3) eqn:H; [|discriminate]. eexists; eauto. Qed.
Lemma cset_p0 V s y : cinv V s -> exists s', mput col r y s = Ok (tt, s') /\ cinv (mk_cv (cv_n V) (cv_d V) (cv_r V) y (cv_p1 V)) s'.
Proof.
  intros H. pose proof (exec_of _ _ _ _ (ci_exec _ _ H)) as Hx. destruct H as (H1 & (A & B & C & D & F) & H3).
  eexists; split; [apply mput_ok; [exact Hx|eapply powered_has; eauto]|]. split; [|split; auto]; cbn [inc s_ctx].
  - intros l Hl. rewrite put_pow_frame; auto. intros ->; apply Hl; right; auto.
  - unfold cshows, holds; cbn [cv_n cv_d cv_r cv_p0 cv_p1]. rewrite !put_pow_frame by discriminate. repeat match goal with |- _ /\ _ => split end; auto.
    + apply powered_pow_here. eapply powered_has; eauto.
    + apply powered_pow_other; auto. intros [= ]; lia.
Qed.
Lemma cset_p1 V s y : cinv V s -> exists s', mput col (r + 1) y s = Ok (tt, s') /\ cinv (mk_cv (cv_n V) (cv_d V) (cv_r V) (cv_p0 V) y) s'.
Proof.
  intros H. pose proof (exec_of _ _ _ _ (ci_exec _ _ H)) as Hx. destruct H as (H1 & (A & B & C & D & F) & H3).
  eexists; split; [apply mput_ok; [exact Hx|eapply powered_has; eauto]|]. split; [|split; auto]; cbn [inc s_ctx].
  - intros l Hl. rewrite put_pow_frame; auto. intros ->; apply Hl; right; auto.
  - unfold cshows, holds; cbn [cv_n cv_d cv_r cv_p0 cv_p1]. rewrite !put_pow_frame by discriminate. repeat match goal with |- _ /\ _ => split end; auto.
    + apply powered_pow_other; auto. intros [= ]; lia.
    + apply powered_pow_here. eapply powered_has; eauto.
Qed.
Ltac cst L H := let s' := fresh "s" in let Hs := fresh "Hs" in let Ht := fresh "T" in
  destruct L as (s' & Hs & Ht); [exact H|]; rewrite (bind_ok _ _ _ _ _ Hs); clear Hs; cbn [cv_n cv_d cv_r cv_p0 cv_p1] in Ht.
Lemma creset_ok V s z : cinv V s -> exists s', counter_reset col r z s = Ok (tt, s') /\ cinv (creset z) s'.
Proof.
  intros H. unfold counter_reset. edestruct (cset_n _ _ z H) as (s1 & A1 & T1). rewrite (bind_ok _ _ _ _ _ A1).
  edestruct (cset_d _ _ false T1) as (s2 & A2 & T2). rewrite (bind_ok _ _ _ _ _ A2).
  edestruct (cset_r _ _ false T2) as (s3 & A3 & T3). rewrite (bind_ok _ _ _ _ _ A3).
  edestruct (cset_p0 _ _ false T3) as (s4 & A4 & T4). rewrite (bind_ok _ _ _ _ _ A4).
  edestruct (cset_p1 _ _ false T4) as (s5 & A5 & T5). eauto.
Qed.
Ltac cget L := erewrite bind_ok; [|eapply L; eassumption].
Lemma ccount_ok V s d l : cinv V s -> left_powered c0 n r col l ->
  exists s', counter_count col r d s = Ok (tt, s') /\ cinv (ccount d l V) s'.
Proof.
  intros H Hl. unfold counter_count.
  assert (HL : forall V s, cinv V s -> mleft col r s = Ok (l, s)).
  { intros V' s' H'. eapply mleft_ok; [eapply exec_of, ci_exec; eauto|eapply ci_left; eauto]. }
  rewrite (bind_ok _ _ _ _ _ (HL _ _ H)). unfold ccount. destruct l.
  - rewrite bind_bind. cget cflag_r. destruct (cv_r V) eqn:Hr; cbv iota; cbn [orb].
    { rewrite bind_ret. rewrite (bind_ok _ _ _ _ _ (HL _ _ H)). eexists; split; [reflexivity|auto]. }
    rewrite bind_bind. cget cflag_d. destruct (cv_d V) eqn:Hd; cbv iota.
    { rewrite bind_ret. rewrite (bind_ok _ _ _ _ _ (HL _ _ H)). eexists; split; [reflexivity|auto]. }
    rewrite bind_bind. edestruct (cset_r _ _ true H) as (s1 & A1 & T1). rewrite (bind_ok _ _ _ _ _ A1).
    rewrite bind_bind. edestruct (cset_p1 _ _ true T1) as (s2 & A2 & T2). rewrite (bind_ok _ _ _ _ _ A2).
    rewrite bind_bind. cget cmcount. edestruct (cset_n _ _ (cv_n V + d) T2) as (s3 & A3 & T3). cbn [cv_n cv_d cv_r cv_p0 cv_p1] in *.
    rewrite (bind_ok _ _ _ _ _ A3). rewrite (bind_ok _ _ _ _ _ (HL _ _ T3)). eexists; split; [reflexivity|]. rewrite Hd in T3; auto.
  - rewrite bind_ret. rewrite (bind_ok _ _ _ _ _ (HL _ _ H)). edestruct (cset_r _ _ false H) as (s1 & A1 & T1). rewrite (bind_ok _ _ _ _ _ A1).
    edestruct (cset_p1 _ _ false T1) as (s2 & A2 & T2). eauto.
Qed.
Lemma cdone_ok V s b : cinv V s ->
  exists s', ((if b : bool then mflag_set B_Cd col r true ;;; mput col r true else ret tt) ;;; ret E_OK) s = Ok (E_OK, s') /\ cinv (cdone b V) s'.
Proof.
  intros H. destruct b; [|eexists; split; [reflexivity|auto]]. rewrite bind_bind.
  edestruct (cset_d _ _ true H) as (s1 & A1 & T1). rewrite (bind_ok _ _ _ _ _ A1).
  edestruct (cset_p0 _ _ true T1) as (s2 & A2 & T2). rewrite (bind_ok _ _ _ _ _ A2). eexists; split; [reflexivity|exact T2].
Qed.
Section R.
Context (rs : bool).
Hypothesis Hrs : forall V s, cinv V s -> counter_reset_cond col r s = Ok (rs, s).
Lemma ctu_ok V s l : cinv V s -> left_powered c0 n r col l ->
  exists s', fn_CTU E col r s = Ok (E_OK, s') /\ cinv (ctu_step p l rs V) s'.
Proof.
  intros H Hl. unfold fn_CTU, ctu_step. rewrite (bind_ok _ _ _ _ _ (Hrs _ _ H)).
  assert (HR : exists s1, (if rs then counter_reset col r 0 else ret tt) s = Ok (tt, s1) /\ cinv (if rs then creset 0 else V) s1).
  { destruct rs; [eapply creset_ok; eauto|eexists; split; [reflexivity|auto]]. }
  destruct HR as (s1 & A1 & T1). rewrite (bind_ok _ _ _ _ _ A1).
  edestruct (ccount_ok _ _ 1 l T1 Hl) as (s2 & A2 & T2). rewrite (bind_ok _ _ _ _ _ A2).
  cget cmcount. cget cpreset. apply cdone_ok; auto.
Qed.
Lemma ctd_ok V s l : cinv V s -> left_powered c0 n r col l ->
  exists s', fn_CTD E col r s = Ok (E_OK, s') /\ cinv (ctd_step p l rs V) s'.
Proof.
  intros H Hl. unfold fn_CTD, ctd_step. rewrite (bind_ok _ _ _ _ _ (Hrs _ _ H)).
  assert (HR : exists s1, (if rs then p <- mpreset col r;; counter_reset col r p else ret tt) s = Ok (tt, s1) /\ cinv (if rs then creset p else V) s1).
  { destruct rs; [cget cpreset; eapply creset_ok; eauto|eexists; split; [reflexivity|auto]]. }
  destruct HR as (s1 & A1 & T1). rewrite (bind_ok _ _ _ _ _ A1).
  edestruct (ccount_ok _ _ (-1) l T1 Hl) as (s2 & A2 & T2). rewrite (bind_ok _ _ _ _ _ A2).
  cget cmcount. apply cdone_ok; auto.
Qed.
End R.
Lemma cond_right V s rs q : col = S q -> powered c0 n (r + 1) q rs -> cinv V s -> counter_reset_cond col r s = Ok (rs, s).
Proof.
  intros Hc Hp H. unfold counter_reset_cond. destruct col eqn:Hcol; [discriminate|]. inversion Hc; subst q. rewrite <- Hcol in *.
  eapply mleft_ok; [eapply exec_of, ci_exec; eauto|]. rewrite Hcol. 
  eapply ci_left with (r' := (r + 1)%nat) in H; [rewrite Hcol in H; eauto|]. rewrite Hcol. auto.
Qed.
Lemma cond_left V s : col = 0%nat -> cinv V s -> peek c0 LState = Some (VState S_RUNNING) -> counter_reset_cond col r s = Ok (true, s).
Proof.
  intros Hc (H & _) Hs. unfold counter_reset_cond. rewrite Hc. rewrite bind_getc. rewrite <- H in Hs by (apply cpl_not; exact I).
  simpl in Hs. inversion Hs. rewrite H1. reflexivity.
Qed.
End C.
