(** Lemmas: the executions of a scan that is not broken off, one by one. *)
From Verif Require Export P_Order SpecTask.

(** ** Scans within the limit *)
Lemma wp_two {A} (mm : M A) (P Q : A -> st -> Prop) s : wp any mm P s -> wp any mm Q s -> wp any mm (fun a s' => P a s' /\ Q a s') s.
Proof. unfold wp. destruct (mm s) as [[a s']| |]; simpl; auto. Qed.
Lemma networks_done E W c0 m : env_writes E W -> (forall l, W l -> ~ is_layout l) -> (forall l, In l [LState; LErr; LLast; LStats] -> ~ W l) ->
  (forall k, peek c0 LNets = Some (VN k) -> Z.of_nat k <= 2 ^ 32) -> ~ bank_missing c0 -> limit c0 m -> 0 <= m -> wf_program c0 ->
  forall f n s, (n + f = q_nets (x_q c0))%nat -> J W c0 s -> peek (s_ctx s) LState = peek c0 LState ->
  wp any (scan_networks E f n) (fun _ s' => exists lg b, Forall (fair_turn E W c0) lg /\ nets_run E W c0 (seq n f) lg s b s'
     /\ (b = false -> peek (s_ctx s') LState = Some (VState S_INV) \/ exists k, (k < q_nets (x_q c0))%nat /\ m < cost c0 k)) s.
Proof.
  intros HE HL HW HS HB HM M0 WF. induction f as [|f IH]; intros n s Hf H HST; simpl; apply wp_bind, wp_getc;
    rewrite (peek_qty c0 (s_ctx s)) by (apply (J_meta W c0 HL); auto; exact I).
  - replace (n <? q_nets (x_q c0))%nat with false by (symmetry; apply Nat.ltb_ge; lia). apply wp_ret. exists [], true. split; [constructor|]. split; [constructor|discriminate].
  - replace (n <? q_nets (x_q c0))%nat with true by (symmetry; apply Nat.ltb_lt; lia). apply wp_bind.
    assert (K := network_run E W c0 HE HL HW HS n s WF ltac:(lia) H).
    assert (K2 := network_out E W c0 m HE HL HW HS HB HM n s M0 WF ltac:(lia) H HST).
    eapply wp_mono; [|exact (wp_two _ _ _ _ K K2)]. intros b s1 [(H1 & lg & FA & R) O]. destruct b.
    + destruct O as (_ & O2 & _ & _). eapply wp_mono; [|apply IH; auto; lia]. intros [] s2 (lg2 & b & FA2 & NR & BF).
      exists (lg ++ lg2), b. split; [apply Forall_app; auto|auto].
    + apply wp_ret. exists lg, false. split; auto. split; auto. intros _. destruct O as [[_ O]|[O _]]; [auto|right; exists n; split; auto; lia].
Qed.
Lemma scan_done E W s s' m : scan_ready E W (s_ctx s) m -> scans E s s' -> peek (s_ctx s') LState <> Some (VState S_INV) -> in_time (s_ctx s) m ->
  exists lg, Forall (fair_turn E W (s_ctx s)) lg /\ scan_run E W lg s true s'.
Proof.
  intros [HE HL HW HS HB HM M0 WF CR] R NI IT. set (c0 := s_ctx s) in *.
  assert (K : wp any (ladder_scan E) (fun _ s' => exists lg b, Forall (fair_turn E W c0) lg /\ scan_run E W lg s b s'
     /\ (b = false -> peek (s_ctx s') LState = Some (VState S_INV) \/ exists k, (k < q_nets (x_q c0))%nat /\ m < cost c0 k)) s).
  { unfold ladder_scan. apply wp_bind, wp_modc. match goal with |- wp _ _ _ ?st1 => set (s1 := st1) end.
    assert (C1 : changes_only c0 (s_ctx s1) (eq LExec)).
    { intros l L. unfold s1. simpl. destruct l; simpl; auto. congruence. }
    assert (H1 : J W c0 s1).
    { eapply changes_mono; [|exact C1]. intros l <-. left; left; simpl; auto. }
    apply wp_bind. eapply wp_mono; [|apply (cron_out E W c0); auto]. intros b s2 (-> & H2 & C2 & D2).
    assert (C3 : changes_only (s_ctx s) (s_ctx s2) (fun l => l = LExec \/ cron_flag c0 l)).
    { eapply changes_trans; [eapply changes_mono; [|exact C1]; intros l <-; auto|eapply changes_mono; [|exact C2]; intros l K; right; exact K]. }
    apply wp_bind, wp_getc. replace (is_null (x_net (s_ctx s2))) with false.
    2:{ pose proof (J_meta W c0 HL s2 LNets H2 I) as K. simpl in K. destruct WF as [WF _]. destruct (x_net (s_ctx s2)); [reflexivity|].
        exfalso. apply WF. exact (eq_sym K). }
    rewrite (peek_qty c0 (s_ctx s2)) by (apply (J_meta W c0 HL); auto; exact I).
    eapply wp_mono; [|apply (networks_done E W c0 m); auto].
    - intros [] s3 (lg & b & FA & K & B). exists lg, b. split; auto. split; auto. exists s2. split; [|exact K]. split; [|exact D2]. exact C3.
    - apply C3. intros [K|(? & ? & ? & _ & _ & _ & _ & _ & K)]; discriminate. }
  destruct (wp_ok _ _ _ _ _ _ K R) as (lg & b & FA & SR & B). exists lg. split; auto. destruct b; auto.
  destruct (B eq_refl) as [B1|(k & K1 & K2)]; [contradiction|]. pose proof (IT k K1). lia.
Qed.

(** ** The turns of a run are visits *)
Section V.
Variables (E : env) (W : loc -> Prop) (prog : ctx).
Inductive chain : list turn -> st -> st -> Prop :=
| ch_nil s s' : changes_only (s_ctx s) (s_ctx s') (glue W) -> chain [] s s'
| ch_cons n r col l s s1 s2 s3 : changes_only (s_ctx s) (s_ctx s1) (glue W) -> executed E n r col s1 E_OK s2 -> chain l s2 s3 ->
    chain (mk_turn n r col s1 E_OK s2 :: l) s s3.
Lemma chain_pre l s0 s s' : changes_only (s_ctx s0) (s_ctx s) (glue W) -> chain l s s' -> chain l s0 s'.
Proof. intros C K. inversion K; subst; constructor; auto; eapply changes_trans; eauto. Qed.
Lemma chain_post l s s1 s2 : chain l s s1 -> changes_only (s_ctx s1) (s_ctx s2) (glue W) -> chain l s s2.
Proof. induction 1; intros C; econstructor; eauto; eapply changes_trans; eauto. Qed.
Lemma chain_app l1 l2 s s1 s2 : chain l1 s s1 -> chain l2 s1 s2 -> chain (l1 ++ l2) s s2.
Proof. induction 1; intros C; simpl; [eapply chain_pre; eauto|econstructor; eauto]. Qed.
Lemma chain_executes l s s' : chain l s s' -> executes E W (map place_of l) s s'.
Proof. induction 1; simpl; econstructor; eauto. Qed.
Lemma chain_split l1 t l2 s s' : chain (l1 ++ t :: l2) s s' ->
  executes E W (map place_of l1) s (pre_of t) /\ executed E (at_net t) (at_row t) (at_col t) (pre_of t) E_OK (post_of t) /\ executes E W (map place_of l2) (post_of t) s'.
Proof.
  revert s. induction l1 as [|x l1 IH]; intros s C; inversion C; subst; simpl.
  - split; [constructor; auto|]. split; auto. now apply chain_executes.
  - match goal with K : chain _ _ _ |- _ => destruct (IH _ K) as (A & B & D) end. split; [econstructor; eauto|auto].
Qed.
Lemma noted_glue l : noted W l -> glue W l.
Proof. intros [->|[->|K]]; [right; left; simpl; auto|right; left; simpl; auto|right; auto]. Qed.
Lemma group_chain n col rs lg s b s' : group_run E W prog n col rs lg s b s' -> b = true -> chain lg s s'.
Proof.
  induction 1 as [s|r rs lg s s1 b s' MU C1 G IH|r rs lg s s1 s2 s3 b s' MU C1 EX C2 G IH|r rs s s1 e s2 s' MU C1 EX NE C2 PE]; intros B.
  - constructor. apply changes_refl.
  - eapply chain_pre; [|apply IH; auto]. eapply changes_mono; [|exact C1]. exact noted_glue.
  - constructor; auto. { eapply changes_mono; [|exact C1]. exact noted_glue. } eapply chain_pre; [|apply IH; auto]. eapply changes_mono; [|exact C2]. exact noted_glue.
  - discriminate.
Qed.
Lemma steps_chain n l lg s b s' : steps_run E W prog n l lg s b s' -> b = true -> chain lg s s'.
Proof.
  induction 1 as [s|l lg s s1 b s' C1 R IH|l s s' C1 P1 P2|col rs l lg lg2 s s1 s2 b s' G C1 R IH|col rs l lg s s1 s' G C1 P1|l lg s s1 b s' C1 R IH]; intros B; try discriminate.
  - constructor. apply changes_refl.
  - eapply chain_pre; [|apply IH; auto]. eapply changes_mono; [|exact C1]. intros z Z. right; auto.
  - eapply chain_app; [eapply chain_post; [eapply group_chain; eauto|]|apply IH; auto].
    destruct C1 as (v & _ & _ & C1). eapply changes_mono; [|exact C1]. intros z (x & _ & ->). left; eauto.
  - eapply chain_pre; [|apply IH; auto]. eapply changes_mono; [|exact C1]. intros z Z. right; auto.
Qed.
Lemma nets_chain l lg s b s' : nets_run E W prog l lg s b s' -> b = true -> chain lg s s'.
Proof.
  induction 1 as [s|n l rows cols lg s b s' N R IH|n l rows cols lg lg2 s s1 s2 b s' N B S1 R IH|n l rows cols lg s s1 s' N B S1]; intros T; try discriminate; auto.
  - constructor. apply changes_refl.
  - eapply chain_app; [|apply IH; auto]. eapply chain_pre; [|eapply steps_chain; eauto]. destruct B as (_ & _ & B).
    eapply changes_mono; [|exact B]. intros z [->|(x & y & ->)]; [right; left; simpl; auto|left; eauto].
Qed.
End V.
Lemma run_places E W lg s s' : scan_run E W lg s true s' -> map place_of lg = program_cells (s_ctx s).
Proof.
  intros (s0 & _ & R). destruct (nets_cells _ _ _ _ _ _ _ _ R) as (rest & PC & B). destruct (B eq_refl) as [-> _].
  unfold program_cells. now rewrite PC, app_nil_r.
Qed.
Lemma run_visits E W lg a b l1 t l2 : scan_run E (during_scan W) lg a true b -> lg = l1 ++ t :: l2 ->
  visits E W a b (at_net t) (at_row t) (at_col t) (pre_of t) (post_of t).
Proof.
  intros R ->. pose proof (run_places _ _ _ _ _ R) as PL. destruct R as (a0 & CS & R). apply nets_chain in R; auto.
  apply chain_split in R as (A & B & D). exists a0, (map place_of l1), (map place_of l2). split; auto. split; [|auto].
  rewrite <- PL, map_app. reflexivity.
Qed.

(** ** What stands in front of an instruction *)
Section Last.
Variables (E : env) (W : loc -> Prop) (prog : ctx).
Notation code := (code_at prog).
Notation fair := (fair_turn E W prog).
Hypothesis MK : marked prog.
Variables (n y k : nat).
Hypothesis NM : multi (code n y k) = false.
Hypothesis WY : ~ W (LPow n y k).
Hypothesis B1 : bar_at prog n y k = false.
Hypothesis B2 : bar_at prog n (S y) k = false.
Notation pw s := (peek (s_ctx s) (LPow n y k)).
(** Since the last execution of the cell in [h] nothing changed its power. *)
Definition left_as (h : list turn) (s : st) : Prop :=
  forall e1 u e2 v, h = e1 ++ u :: e2 -> place_of u = (n, y, k) -> ~ In (n, y, k) (map place_of e2) -> powered (s_ctx (post_of u)) n y k v -> pw s = Some (VB v).
Lemma left_more h h' s s' : ~ In (n, y, k) (map place_of h') -> pw s' = pw s -> left_as h s -> left_as (h ++ h') s'.
Proof.
  intros NI EQ L e1 u e2 v Q PU N2 PW. rewrite EQ. apply app_eq_app in Q as (l & [[Q1 Q2]|[Q1 Q2]]).
  - destruct l as [|x l]; simpl in Q2.
    + exfalso. apply NI. rewrite <- Q2. simpl. auto.
    + injection Q2 as <- Q2. apply (L e1 u l v Q1 PU); auto. intros K. apply N2. rewrite Q2, map_app. apply in_or_app. auto.
  - exfalso. apply NI. rewrite Q2, map_app. apply in_or_app. simpl. auto.
Qed.
Lemma alone col rs : In (Run col rs) (plan prog n) -> col = k -> In y rs -> rs = [y].
Proof.
  intros IN -> YR. unfold plan in IN. destruct (peek prog (LNet n)) as [[]|]; try contradiction. destruct en; [|contradiction].
  assert (G : exists g, rs = group rows (bar_at prog n) g k).
  { revert IN. generalize rows at 2 as f. generalize 0%nat as g. intros g f. revert g. induction f as [|f IH]; intros g IN; cbn [net_steps] in IN; [contradiction|].
    destruct (g <? rows)%nat; [|contradiction]. apply in_app_iff in IN as [IN|IN]; [|eapply IH; eauto].
    unfold rung_steps in IN. destruct IN as [IN|IN]; [discriminate|]. destruct (multi (code n g 0)); [contradiction|].
    apply in_app_iff in IN as [IN|[IN|[]]]; [|discriminate]. apply columns_runs in IN as [_ ->]. eauto. }
  destruct G as (g & ->). destruct (in_group prog n rows g k y YR) as [G1 G2].
  destruct (Nat.eq_dec g y) as [->|D]; [|rewrite (G2 y ltac:(lia)) in B1; discriminate].
  unfold group. destruct (rows - S y)%nat; simpl; [reflexivity|]. now rewrite B2.
Qed.
Lemma last_steps l lg s b s' : steps_run E W prog n l lg s b s' -> incl l (plan prog n) -> Forall fair lg ->
  forall h, left_as h s -> (forall l1 t l2, lg = l1 ++ t :: l2 -> left_as (h ++ l1) (pre_of t)) /\ (b = true -> left_as (h ++ lg) s').
Proof.
  intros R IN FA h LA.
  refine (steps_walk E W prog n left_as (fun h t => left_as h (pre_of t)) (fun col rs => col = k -> In y rs -> rs = [y]) _ _ l lg s b s' R h _ FA LA).
  - intros h' a a' C H e1 u e2 v Q PU N2 PW. rewrite <- (H e1 u e2 v Q PU N2 PW). apply C. intros [K|[K|K]]; try discriminate; auto.
  - intros h' col rs lg' a b' a1 HG G F H.
    pose proof (group_where _ _ _ _ _ _ _ _ _ _ G) as WH.
    assert (CA : (col = k /\ rs = [y]) \/ (col = k -> ~ In y rs)).
    { destruct (Nat.eq_dec col k) as [->|D]; [|right; congruence]. destruct (in_dec Nat.eq_dec y rs) as [IY|NY]; auto. }
    destruct CA as [[-> ->]|NI].
    + inversion G as [|? ? ? ? sa ? ? MU C1 G'|? ? ? ? sa sb sc ? ? MU C1 EX C2 G'|? ? ? sa e sb ? MU C1 EX NE C2 PE]; subst; [congruence| |].
      * inversion G'; subst. apply (note_keep _ _ _ _ WY) in C1. apply (note_keep _ _ _ _ WY) in C2. split.
        -- intros l1 t l2 Q. destruct l1 as [|x [|]]; simpl in Q; try discriminate. injection Q as <- <-. simpl pre_of. apply (left_more h' [] a); auto.
        -- intros _ a2 (v & V1 & V2 & _) e1 u e2 w Q PU N2 PW.
           assert (Q' : e2 = [] /\ u = mk_turn n y k sa E_OK sb).
           { apply app_eq_app in Q as (l3 & [[Q1 Q2]|[Q1 Q2]]).
             - destruct l3 as [|z l3]; simpl in Q2; [injection Q2 as -> <-; auto|]. injection Q2 as <- Q2. exfalso. apply N2. rewrite Q2, map_app. apply in_or_app. right. left. reflexivity.
             - destruct l3 as [|z [|]]; simpl in Q2; try discriminate. injection Q2 as -> <-. auto. }
           destruct Q' as [-> ->]. simpl in PW. unfold powered in PW. rewrite <- C2 in PW. pose proof (V2 y (or_introl eq_refl)) as V3.
           assert (VW : v = w).
           { destruct w; [apply V1; exists y; split; [left; auto|exact PW]|]. destruct v; auto. destruct (proj1 V1 eq_refl) as (z & [<-|[]] & Z). unfold powered in Z. congruence. }
           now rewrite <- VW.
      * apply (note_keep _ _ _ _ WY) in C1. split; [|discriminate].
        intros l1 t l2 Q. destruct l1 as [|x [|]]; simpl in Q; try discriminate. injection Q as <- <-. simpl pre_of. apply (left_more h' [] a); auto.
    + assert (NP : forall zl, incl zl lg' -> ~ In (n, y, k) (map place_of zl)).
      { intros zl INC K. apply in_map_iff in K as (t & PT & TI). rewrite Forall_forall in WH. destruct (WH t (INC t TI)) as (_ & A & B).
        unfold place_of in PT. injection PT as P1 P2 P3. apply NI; congruence. }
      destruct (group_keep E W prog n y k MK NM WY _ _ _ _ _ _ _ G F) as [K1 K2]. { intros _ A B. exfalso. now apply (NI A). }
      rewrite Forall_forall in K1. split.
      * intros l1 t l2 ->. apply (left_more h' l1 a); [apply NP; intros z Z; apply in_or_app; auto|apply K1; apply in_or_app; simpl; auto|auto].
      * intros -> a2 CO. apply (left_more h' lg' a); auto. { apply NP. intros z Z; auto. } rewrite <- K2. apply (carry_keep n y k _ _ _ _ _ CO). intros _; exact NI.
  - intros col rs K. apply alone. apply IN, K.
Qed.
Lemma last_nets l lg s b s' : nets_run E W prog l lg s b s' -> NoDup l -> Forall fair lg ->
  forall l1 t l2, lg = l1 ++ t :: l2 -> at_net t = n -> left_as l1 (pre_of t).
Proof.
  assert (NIL : forall s, left_as [] s) by (intros ? [|] ? ? ? Q; discriminate).
  induction 1 as [s|n' l rows cols lg s b s' N R IH|n' l rows cols lg lg2 s s1 s2 b s' N B S1 R IH|n' l rows cols lg s s1 s' N B S1]; intros ND FA l1 t l2 EQ TN.
  - destruct l1; discriminate.
  - inversion ND; subst. eapply IH; eauto.
  - inversion ND as [|? ? D1 D2]; subst. apply Forall_app in FA as [F1 F2]. pose proof (steps_where _ _ _ _ _ _ _ _ _ S1) as WH. rewrite Forall_forall in WH.
    assert (SEC : forall l3, l1 = lg ++ l3 -> lg2 = l3 ++ t :: l2 -> left_as l1 (pre_of t)).
    { intros l3 -> Q. specialize (IH D2 F2 l3 t l2 Q TN).
      intros e1 u e2 v QE PU N2 PW. apply app_eq_app in QE as (l4 & [[Q1 Q2]|[Q1 Q2]]).
      - destruct l4 as [|x l4]; simpl in Q2; [eapply (IH [] u e2); eauto|]. injection Q2 as <- Q2. exfalso.
        destruct (WH u) as [A _]; [rewrite Q1; apply in_or_app; simpl; auto|]. unfold place_of in PU. injection PU as P1 _ _.
        destruct (nets_turn _ _ _ _ _ _ _ _ R l3 t l2 Q) as (? & ? & ? & ? & ? & ? & ? & ? & ? & IN & _). apply D1. congruence.
      - eapply (IH l4 u e2); eauto. }
    apply app_eq_app in EQ as (l3 & [[EQ1 EQ2]|[EQ1 EQ2]]).
    + destruct l3 as [|x l3]; simpl in EQ2; [apply (SEC []); [now rewrite app_nil_r in EQ1; rewrite app_nil_r|auto]|]. injection EQ2 as <- EQ2.
      destruct (WH t) as [A _]; [rewrite EQ1; apply in_or_app; simpl; auto|]. subst n'.
      rewrite TN in *. destruct (last_steps _ _ _ _ _ S1 (fun z Z => Z) F1 [] (NIL _)) as [K _]. exact (K l1 t l3 EQ1).
    + eapply SEC; eauto.
  - pose proof (steps_where _ _ _ _ _ _ _ _ _ S1) as WH. rewrite Forall_forall in WH.
    destruct (WH t) as [A _]; [rewrite EQ; apply in_or_app; simpl; auto|]. subst n'.
    rewrite TN in *. destruct (last_steps _ _ _ _ _ S1 (fun z Z => Z) FA [] (NIL _)) as [K _]. exact (K l1 t l2 EQ).
Qed.
End Last.

(** The cell below the one in front of an instruction. *)
Lemma reset_of_run E W c lg s0 b s' : marked c -> nets_run E W c (seq 0 (q_nets (x_q c))) lg s0 b s' -> Forall (fair_turn E W c) lg ->
  forall t k rows cols, In t lg -> at_col t = S k -> scanned c (at_net t) rows cols -> (S (at_row t) < rows)%nat ->
    multi (code_at c (at_net t) (S (at_row t)) k) = false -> ~ W (LPow (at_net t) (S (at_row t)) k) ->
    bar_at c (at_net t) (S (at_row t)) k = false -> powered (s_ctx (pre_of t)) (at_net t) (S (at_row t)) k false.
Proof.
  intros MK R FA t k rows cols TI TC SN RR NM WR BF.
  assert (KEY : pair_inv c (at_net t) (at_row t) k (pre_of t)).
  { assert (UP : bar_at c (at_net t) (S (at_row t)) k = true -> multi (code_at c (at_net t) (at_row t) k) = false /\ ~ W (LPow (at_net t) (at_row t) k)) by congruence.
    apply in_split in TI as (l1 & l2 & EQ).
    destruct (nets_turn _ _ _ _ _ _ _ _ R l1 t l2 EQ) as (rw & cl & lc & la & lb & sa & sb & b1 & sc & _ & PN & -> & ST & SR & IN).
    pose proof SN as [SN1 SN2]. rewrite PN in SN2. injection SN2 as -> ->.
    assert (F1 : Forall (fair_turn E W c) (la ++ t :: lb)) by (rewrite Forall_forall in *; auto).
    unfold plan in SR. rewrite PN in SR.
    refine (pair_net E W c MK (at_net t) rows cols (at_row t) k RR NM WR UP rows 0%nat _ _ _ _ SR F1 _ t _ eq_refl _).
    - destruct ST as (_ & OFF & _). rewrite Forall_forall in FA. destruct (FA t) as (rw & cl & [_ SN'] & R1 & C1 & _).
      { rewrite EQ. apply in_or_app. simpl; auto. }
      rewrite PN in SN'. injection SN' as <- <-. rewrite TC in C1.
      pose proof (OFF (S (at_row t)) k ltac:(lia) ltac:(lia)) as O1. pose proof (OFF (at_row t) k ltac:(lia) ltac:(lia)) as O2.
      unfold pair_inv. destruct (bar_at _ _ _ _); auto. unfold powered in *. congruence.
    - apply in_or_app. simpl; auto.
    - rewrite TC. lia. }
  unfold pair_inv in KEY. rewrite BF in KEY. exact KEY.
Qed.
(** The last of the executions of a cell. *)
Lemma last_of (x : nat * nat * nat) lg : In x (map place_of lg) -> exists e1 u e2, lg = e1 ++ u :: e2 /\ place_of u = x /\ ~ In x (map place_of e2).
Proof.
  assert (DEC : forall a b : nat * nat * nat, {a = b} + {a <> b}) by (repeat decide equality).
  induction lg as [|t lg IH]; intros IN; [contradiction|]. destruct (in_dec DEC x (map place_of lg)) as [K|K].
  - destruct (IH K) as (e1 & u & e2 & -> & P & N). exists (t :: e1), u, e2. auto.
  - destruct IN as [IN|IN]; [|contradiction]. exists [], t, lg. auto.
Qed.
