(** scans of programs made of any instructions (C02, C04, C15, C48). *)
From Verif Require Export SpecOrder OrderFacts P_Rung P_Counter Lib.

(* Cells of a run. *)

Section R.
Variables (E : env) (W : loc -> Prop) (prog : ctx).
Notation code := (code_at prog).
Lemma group_cells n col rs lg s b s' : group_run E W prog n col rs lg s b s' ->
  exists rest, step_cells n (code n) (Run col rs) = map place_of lg ++ rest
    /\ (b = true -> rest = [] /\ Forall (fun t => returned t = E_OK) lg).
Proof.
  induction 1 as [s|r rs lg s s1 b s' MU C1 G IH|r rs lg s s1 s2 s3 b s' MU C1 EX C2 G IH|r rs s s1 e s2 s' MU C1 EX NE C2 PE].
  - exists []. split; auto.
  - destruct IH as (rest & IH1 & IH2). exists rest. split; [|exact IH2]. simpl. rewrite MU. exact IH1.
  - destruct IH as (rest & IH1 & IH2). exists rest. split.
    + simpl. rewrite MU. simpl. f_equal. exact IH1.
    + intros B. destruct (IH2 B). split; auto.
  - eexists. split; [simpl; rewrite MU; simpl; reflexivity|discriminate].
Qed.
Lemma steps_cells n l lg s b s' : steps_run E W prog n l lg s b s' ->
  exists rest, flat_map (step_cells n (code n)) l = map place_of lg ++ rest
    /\ (b = true -> rest = [] /\ Forall (fun t => returned t = E_OK) lg).
Proof.
  induction 1 as [s|l lg s s1 b s' C1 R IH|l s s' C1 P1 P2|col rs l lg lg2 s s1 s2 b s' G C1 R IH|col rs l lg s s1 s' G C1 P1|l lg s s1 b s' C1 R IH].
  - exists []. split; auto.
  - exact IH.
  - eexists. split; [reflexivity|discriminate].
  - destruct (group_cells _ _ _ _ _ _ _ G) as (r1 & G1 & G2). destruct (G2 eq_refl) as [-> F1]. destruct IH as (rest & IH1 & IH2).
    exists rest. split; [|intros B; destruct (IH2 B); split; auto; apply Forall_app; auto].
    cbn [flat_map]. rewrite G1, IH1, app_nil_r, map_app, app_assoc. reflexivity.
  - destruct (group_cells _ _ _ _ _ _ _ G) as (r1 & G1 & G2). eexists. split; [|discriminate].
    cbn [flat_map]. rewrite G1, <- app_assoc. reflexivity.
  - exact IH.
Qed.
Lemma nets_cells l lg s b s' : nets_run E W prog l lg s b s' ->
  exists rest, flat_map (net_cells prog) l = map place_of lg ++ rest
    /\ (b = true -> rest = [] /\ Forall (fun t => returned t = E_OK) lg).
Proof.
  induction 1 as [s|n l rows cols lg s b s' N R IH|n l rows cols lg lg2 s s1 s2 b s' N B S1 R IH|n l rows cols lg s s1 s' N B S1].
  - exists []. split; auto.
  - destruct IH as (rest & IH1 & IH2). exists rest. split; [|exact IH2]. cbn [flat_map]. rewrite IH1. unfold net_cells, plan. now rewrite N.
  - destruct (steps_cells _ _ _ _ _ _ S1) as (r1 & G1 & G2). destruct (G2 eq_refl) as [-> F1]. destruct IH as (rest & IH1 & IH2).
    exists rest. split; [|intros K; destruct (IH2 K); split; auto; apply Forall_app; auto].
    cbn [flat_map]. fold (net_cells prog n) in G1. rewrite G1, IH1, app_nil_r, map_app, app_assoc. reflexivity.
  - destruct (steps_cells _ _ _ _ _ _ S1) as (r1 & G1 & G2). eexists. split; [|discriminate].
    cbn [flat_map]. fold (net_cells prog n) in G1. rewrite G1, <- app_assoc. reflexivity.
Qed.
Lemma steps_split n l1 l2 lg s b s' : steps_run E W prog n (l1 ++ l2) lg s b s' ->
  (exists lga lgb s1, lg = lga ++ lgb /\ steps_run E W prog n l1 lga s true s1 /\ steps_run E W prog n l2 lgb s1 b s')
  \/ (b = false /\ steps_run E W prog n l1 lg s false s').
Proof.
  revert lg s. induction l1 as [|x l1 IH]; intros lg s H.
  - left. exists [], lg, s. split; auto. split; auto. constructor.
  - simpl in H. inversion H as [|? ? ? s1 ? ? C1 R|? ? ? C1 P1 P2|col rs ? lga lgb ? s1 s2 ? ? G C1 R|col rs ? ? ? s1 ? G C1 P1|? ? ? s1 ? ? C1 R]; subst.
    + destruct (IH _ _ R) as [(la & lb & s2 & -> & R1 & R2)|[-> R1]].
      * left. exists la, lb, s2. split; auto. split; auto. eapply sr_tick; eauto.
      * right. split; auto. eapply sr_tick; eauto.
    + right. split; auto. now apply sr_over.
    + destruct (IH _ _ R) as [(la & lb & s3 & -> & R1 & R2)|[-> R1]].
      * left. exists (lga ++ la), lb, s3. split; [now rewrite app_assoc|]. split; auto. eapply sr_run; eauto.
      * right. split; auto. eapply sr_run; eauto.
    + right. split; auto. eapply sr_fault; eauto.
    + destruct (IH _ _ R) as [(la & lb & s2 & -> & R1 & R2)|[-> R1]].
      * left. exists la, lb, s2. split; auto. split; auto. eapply sr_close; eauto.
      * right. split; auto. eapply sr_close; eauto.
Qed.

(* Power during a run. *)

Lemma names_no_pow c i n r col a b d : ~ names c i n r col (LPow a b d).
Proof.
  intros [(j & v & _ & _ & T)|[(_ & v & _ & _ & T)|[(_ & v & _ & _ & T)|(_ & n' & r' & col' & rows & cols & _ & T)]]].
  - apply target_place in T. exact T.
  - simpl in T. intuition discriminate.
  - simpl in T. intuition discriminate.
  - discriminate.
Qed.
(** A cell whose power only its own instruction and the joining of its group may change. *)
Variables (n rows cols y k : nat).
Hypothesis SC : scanned prog n rows cols.
Hypothesis MK : marked prog.
Hypothesis NM : multi (code n y k) = false.
Hypothesis WY : ~ W (LPow n y k).
Notation pw s := (peek (s_ctx s) (LPow n y k)).
Lemma turn_keep t : fair_turn E W prog t -> (at_net t = n -> at_col t = k -> at_row t = y -> footprint (code n y k) y = []) ->
  pw (post_of t) = pw (pre_of t).
Proof.
  intros (rows' & cols' & SC' & R & C & _ & _ & _ & CH) NE. apply CH. intros [[K|[[K _]|[(x & F & K)|K]]]|K]; try discriminate.
  - injection K as K1 K2 K3. subst x. rewrite <- K1, <- K3 in *. destruct (Nat.eq_dec (at_row t) y) as [Q|D]; [rewrite Q, NE in F; auto|].
    rewrite (MK n rows' cols' (at_row t) k y) in NM; auto; discriminate.
  - now apply names_no_pow in K.
  - auto.
Qed.
Lemma note_keep s s' : changes_only (s_ctx s) (s_ctx s') (noted W) -> pw s' = pw s.
Proof. intros C. apply C. intros [K|[K|K]]; try discriminate; auto. Qed.
Lemma group_keep n' col rs lg s b s' : group_run E W prog n' col rs lg s b s' -> Forall (fair_turn E W prog) lg ->
  (n' = n -> col = k -> In y rs -> footprint (code n y k) y = []) -> Forall (fun t => pw (pre_of t) = pw s) lg /\ pw s' = pw s.
Proof.
  induction 1 as [s|r rs lg s s1 b s' MU C1 G IH|r rs lg s s1 s2 s3 b s' MU C1 EX C2 G IH|r rs s s1 e s2 s' MU C1 EX NE C2 PE]; intros FA NI.
  - auto.
  - apply note_keep in C1. rewrite <- C1. apply IH; auto. intros A B K. apply (NI A B). simpl; auto.
  - inversion FA as [|? ? F1 F2]; subst. apply note_keep in C1. apply note_keep in C2.
    assert (T : pw s2 = pw s1) by (apply (turn_keep _ F1); cbn; intros A B K; apply (NI A B); simpl; auto).
    destruct IH as [I1 I2]; auto. { intros A B K. apply (NI A B). simpl; auto. }
    rewrite C2, T, C1 in *. split; [constructor; auto|auto].
  - inversion FA as [|? ? F1 F2]; subst. apply note_keep in C1.
    assert (T : pw s2 = pw s1) by (apply (turn_keep _ F1); cbn; intros A B K; apply (NI A B); simpl; auto).
    assert (C3 : pw s' = pw s2) by (apply C2; discriminate). split; [constructor; auto|congruence].
Qed.
Lemma carry_keep n' col rs s s' : carries_or n' col rs s s' -> (n' = n -> col = k -> ~ In y rs) -> pw s' = pw s.
Proof using. clear. intros (b & _ & _ & C) NI. apply C. intros (r & I0 & K). injection K as -> -> ->. now apply NI. Qed.
End R.

(** Induction over the steps of a network: [P h s] holds between steps, where [h] lists the turns so far. *)
Lemma steps_walk E W prog n (P : list turn -> st -> Prop) (Q : list turn -> turn -> Prop) (G : nat -> list nat -> Prop) :
  (forall h s s', changes_only (s_ctx s) (s_ctx s') (fun l => l = LErr \/ l = LState \/ W l) -> P h s -> P h s') ->
  (forall h col rs lg s b s1, G col rs -> group_run E W prog n col rs lg s b s1 -> Forall (fair_turn E W prog) lg -> P h s ->
     (forall l1 t l2, lg = l1 ++ t :: l2 -> Q (h ++ l1) t) /\ (b = true -> forall s2, carries_or n col rs s1 s2 -> P (h ++ lg) s2)) ->
  forall l lg s b s', steps_run E W prog n l lg s b s' -> forall h, (forall col rs, In (Run col rs) l -> G col rs) ->
    Forall (fair_turn E W prog) lg -> P h s ->
    (forall l1 t l2, lg = l1 ++ t :: l2 -> Q (h ++ l1) t) /\ (b = true -> P (h ++ lg) s').
Proof.
  intros HF HG l lg s b s' R. induction R as [s|l lg s s1 b s' C1 R IH|l s s' C1 P1 P2|col rs l lg lg2 s s1 s2 b s' GR C1 R IH|col rs l lg s s1 s' GR C1 P1|l lg s s1 b s' C1 R IH];
    intros h IN FA PS.
  - split; [intros [|] ? ? K; discriminate|]. intros _. now rewrite app_nil_r.
  - apply IH; auto. { intros; apply IN; simpl; auto. } eapply HF; eauto. eapply changes_mono; [|exact C1]. auto.
  - split; [intros [|] ? ? K; discriminate|]. discriminate.
  - apply Forall_app in FA as [F1 F2]. destruct (HG h col rs lg s true s1 (IN col rs (or_introl eq_refl)) GR F1 PS) as [Q1 K]. specialize (K eq_refl s2 C1).
    destruct (IH (h ++ lg)) as [Q2 K2]; auto. { intros; apply IN; simpl; auto. } split; [|now rewrite app_assoc].
    intros l1 t l2 EQ.
    apply app_eq_app in EQ as (l3 & [[EQ1 EQ2]|[EQ1 EQ2]]).
    + destruct l3 as [|x l3]; simpl in EQ2.
      * rewrite app_nil_r in EQ1. subst l1. specialize (Q2 [] t l2 (eq_sym EQ2)). now rewrite app_nil_r in Q2.
      * injection EQ2 as <- EQ2. apply (Q1 l1 t l3 EQ1).
    + subst l1. rewrite app_assoc. apply (Q2 l3 t l2 EQ2).
  - destruct (HG h col rs lg s false s1 (IN col rs (or_introl eq_refl)) GR FA PS) as [Q1 _]. split; [exact Q1|discriminate].
  - apply IH; auto. { intros; apply IN; simpl; auto. } eapply HF; eauto. eapply changes_mono; [|exact C1]. auto.
Qed.
(** A turn of a run belongs to the run of its network. *)
Lemma group_where E W prog n col rs lg s b s' : group_run E W prog n col rs lg s b s' ->
  Forall (fun t => at_net t = n /\ at_col t = col /\ In (at_row t) rs) lg.
Proof.
  induction 1 as [s|r rs lg s s1 b s' MU C1 G IH|r rs lg s s1 s2 s3 b s' MU C1 EX C2 G IH|r rs s s1 e s2 s' MU C1 EX NE C2 PE];
    try constructor; cbn; auto; try (eapply Forall_impl; [|exact IH]; cbn; intros t (A & B & C); auto).
Qed.
Lemma steps_where E W prog n l lg s b s' : steps_run E W prog n l lg s b s' ->
  Forall (fun t => at_net t = n /\ exists rs, In (Run (at_col t) rs) l /\ In (at_row t) rs) lg.
Proof.
  induction 1 as [s|l lg s s1 b s' C1 R IH|l s s' C1 P1 P2|col rs l lg lg2 s s1 s2 b s' G C1 R IH|col rs l lg s s1 s' G C1 P1|l lg s s1 b s' C1 R IH];
    try constructor; try (eapply Forall_impl; [|exact IH]; cbn; intros t (A & x & B & C); split; auto; exists x; auto).
  - apply Forall_app. split.
    + eapply Forall_impl; [|exact (group_where _ _ _ _ _ _ _ _ _ _ G)]. cbn. intros t (A & B & C). split; auto. exists rs. subst. auto.
    + eapply Forall_impl; [|exact IH]. cbn. intros t (A & x & B & C). split; auto. exists x. auto.
  - eapply Forall_impl; [|exact (group_where _ _ _ _ _ _ _ _ _ _ G)]. cbn. intros t (A & B & C). split; auto. exists rs. subst. auto.
Qed.
Lemma nets_turn E W prog l lg s b s' : nets_run E W prog l lg s b s' -> forall l1 t l2, lg = l1 ++ t :: l2 ->
  exists rows cols lc la lb s0 s1 b1 s2, In (at_net t) l /\ peek prog (LNet (at_net t)) = Some (VNet true rows cols) /\ l1 = lc ++ la
    /\ starts_net (at_net t) rows cols s0 s1 /\ steps_run E W prog (at_net t) (plan prog (at_net t)) (la ++ t :: lb) s1 b1 s2
    /\ incl (la ++ t :: lb) lg.
Proof.
  induction 1 as [s|n l rows cols lg s b s' N R IH|n l rows cols lg lg2 s s1 s2 b s' N B S1 R IH|n l rows cols lg s s1 s' N B S1]; intros l1 t l2 EQ.
  - destruct l1; discriminate.
  - destruct (IH l1 t l2 EQ) as (rw & cl & lc & la & lb & s0 & s1 & b1 & s2 & A & REST). exists rw, cl, lc, la, lb, s0, s1, b1, s2. split; [right; auto|exact REST].
  - pose proof (steps_where _ _ _ _ _ _ _ _ _ S1) as WH. apply app_eq_app in EQ as (l3 & [[EQ1 EQ2]|[EQ1 EQ2]]).
    + destruct l3 as [|x l3]; simpl in EQ2.
      * rewrite app_nil_r in EQ1. subst l1. destruct (IH [] t l2 (eq_sym EQ2)) as (rw & cl & lc & la & lb & sa & sb & b1 & s3 & A & B1 & C1 & D1 & E1 & F1).
        symmetry in C1. apply app_eq_nil in C1 as [-> ->].
        exists rw, cl, lg, [], lb, sa, sb, b1, s3. split; [right; auto|]. split; auto. split; [now rewrite app_nil_r|]. split; auto. split; auto. intros z Z. apply in_or_app; auto.
      * injection EQ2 as <- EQ2. subst lg.
        assert (AN : at_net t = n) by (rewrite Forall_forall in WH; apply (WH t); apply in_or_app; simpl; auto). rewrite AN.
        exists rows, cols, [], l1, l3, s, s1, true, s2. split; [left; auto|]. split; auto. split; auto. split; auto. split; auto.
        intros z Z. rewrite app_assoc_reverse. apply in_app_or in Z as [Z|Z]; apply in_or_app; [auto|right]. simpl in Z |- *. destruct Z; auto. right. apply in_or_app; auto.
    + subst l1. destruct (IH l3 t l2 EQ2) as (rw & cl & lc & la & lb & sa & sb & b1 & s3 & A & B1 & C1 & D1 & E1 & F1).
      exists rw, cl, (lg ++ lc), la, lb, sa, sb, b1, s3. split; [right; auto|]. split; auto. split; [subst l3; now rewrite app_assoc|]. split; auto. split; auto.
      intros z Z. apply in_or_app; auto.
  - pose proof (steps_where _ _ _ _ _ _ _ _ _ S1) as WH. subst lg.
    assert (AN : at_net t = n) by (rewrite Forall_forall in WH; apply (WH t); apply in_or_app; simpl; auto). rewrite AN.
    exists rows, cols, [], l1, l2, s, s1, false, s'. split; [left; auto|]. split; auto. split; auto. split; auto. split; auto. intros z Z; auto.
Qed.

Section T.
Variables (E : env) (W : loc -> Prop) (prog : ctx).
Notation code := (code_at prog).
Notation fair := (fair_turn E W prog).
Hypothesis MK : marked prog.
Section Y.
Variables (n y k : nat).
Hypothesis NM : multi (code n y k) = false.
Hypothesis WY : ~ W (LPow n y k).
Notation pw s := (peek (s_ctx s) (LPow n y k)).
Lemma group_until col rs lg s b s' : group_run E W prog n col rs lg s b s' -> Forall fair lg ->
  forall l1 t l2, lg = l1 ++ t :: l2 -> ~ In (n, y, k) (map place_of l1) -> pw (pre_of t) = pw s.
Proof.
  induction 1 as [s|r rs lg s s1 b s' MU C1 G IH|r rs lg s s1 s2 s3 b s' MU C1 EX C2 G IH|r rs s s1 e s2 s' MU C1 EX NE C2 PE]; intros FA l1 t l2 EQ NI.
  - destruct l1; discriminate.
  - apply (note_keep _ _ _ _ WY) in C1. rewrite <- C1. eapply IH; eauto.
  - apply (note_keep _ _ _ _ WY) in C1. apply (note_keep _ _ _ _ WY) in C2. inversion FA as [|? ? F1 F2]; subst. destruct l1 as [|x l1]; simpl in EQ.
    + injection EQ as <- <-. exact C1.
    + injection EQ as <- EQ. assert (T : pw s2 = pw s1).
      { refine (turn_keep E W prog n y k MK NM WY _ F1 _). cbn. intros A B C. exfalso. apply NI. left. unfold place_of. cbn. congruence. }
      rewrite <- C1, <- T, <- C2. eapply IH; eauto. intros K. apply NI. right. exact K.
  - apply (note_keep _ _ _ _ WY) in C1. destruct l1 as [|x [|]]; simpl in EQ; try discriminate. injection EQ as <- <-. exact C1.
Qed.
(** Until its instruction is executed, a cell stays off. *)
Lemma off_until h l lg s b s' : steps_run E W prog n l lg s b s' -> Forall fair lg -> pw s = Some (VB false) ->
  forall l1 t l2, lg = l1 ++ t :: l2 -> ~ In (n, y, k) (map place_of (h ++ l1)) -> pw (pre_of t) = Some (VB false).
Proof.
  intros R FA OFF.
  pose proof (steps_walk E W prog n (fun h s => ~ In (n, y, k) (map place_of h) -> pw s = Some (VB false))
    (fun h t => ~ In (n, y, k) (map place_of h) -> pw (pre_of t) = Some (VB false)) (fun _ _ => True)) as WK.
  refine (proj1 (WK _ _ l lg s b s' R h (fun _ _ _ => I) FA (fun _ => OFF))); cbv beta.
  - intros h' a a' C H NI. rewrite <- (H NI). apply C. intros [K|[K|K]]; try discriminate; auto.
  - intros h' col rs lg' a b' a1 _ G F H. split.
    + intros l1 t l2 EQ NI. rewrite map_app, in_app_iff in NI. rewrite (group_until _ _ _ _ _ _ G F l1 t l2 EQ) by tauto. apply H. tauto.
    + intros -> a2 CO NI. rewrite map_app, in_app_iff in NI. rewrite <- H by tauto.
      assert (NR : n = n -> col = k -> ~ In y rs).
      { intros _ -> IN. apply NI. right. destruct (group_cells _ _ _ _ _ _ _ _ _ _ G) as (rest & GC & GD). destruct (GD eq_refl) as [-> _].
        rewrite app_nil_r in GC. rewrite <- GC. simpl. apply in_map_iff. exists y. split; auto. apply filter_In. split; auto. now rewrite NM. }
      rewrite (carry_keep n y k _ _ _ _ _ CO NR). eapply group_keep; eauto. intros A B C. exfalso. now apply (NR A B).
Qed.
(** Networks other than its own leave a cell alone. *)
Lemma steps_other n' l lg s b s' : steps_run E W prog n' l lg s b s' -> n' <> n -> Forall fair lg -> b = true -> pw s' = pw s.
Proof.
  intros R NE FA.
  refine (proj2 (steps_walk E W prog n' (fun _ a => pw a = pw s) (fun _ _ => True) (fun _ _ => True) _ _ l lg s b s' R [] (fun _ _ _ => I) FA eq_refl)); cbv beta.
  - intros _ a a' C H. rewrite <- H. apply C. intros [K|[K|K]]; try discriminate; auto.
  - intros _ col rs lg' a b' a1 _ G F H. split; auto. intros _ a2 CO. rewrite (carry_keep n y k _ _ _ _ _ CO) by congruence.
    rewrite <- H. eapply group_keep; eauto. congruence.
Qed.
Lemma nets_other l lg s b s' : nets_run E W prog l lg s b s' -> ~ In n l -> Forall fair lg -> b = true -> pw s' = pw s.
Proof.
  induction 1 as [s|n' l rows cols lg s b s' N R IH|n' l rows cols lg lg2 s s1 s2 b s' N B S1 R IH|n' l rows cols lg s s1 s' N B S1]; intros NI FA OK; auto.
  - apply IH; auto. intros K; apply NI; simpl; auto.
  - apply Forall_app in FA as [F1 F2]. rewrite IH; auto; [|intros K; apply NI; simpl; auto].
    assert (NE : n' <> n) by (intros ->; apply NI; simpl; auto). rewrite (steps_other _ _ _ _ _ _ S1 NE F1 eq_refl).
    apply B. intros [K|(a & c & K)]; [discriminate|]. injection K as K _ _. congruence.
  - discriminate.
Qed.
Lemma nets_end l lg s b s' : nets_run E W prog l lg s b s' -> NoDup l -> In n l -> Forall fair lg -> b = true ->
  forall rows cols, peek prog (LNet n) = Some (VNet true rows cols) ->
  exists s0 s1 lg1 s2, starts_net n rows cols s0 s1 /\ steps_run E W prog n (plan prog n) lg1 s1 true s2 /\ Forall fair lg1 /\ pw s' = pw s2.
Proof.
  induction 1 as [s|n' l rows cols lg s b s' N R IH|n' l rows cols lg lg2 s s1 s2 b s' N B S1 R IH|n' l rows cols lg s s1 s' N B S1]; intros ND IN FA OK rw cl SN.
  - contradiction.
  - inversion ND as [|? ? D1 D2]; subst. destruct IN as [->|IN]; [congruence|]. apply IH; auto.
  - inversion ND as [|? ? D1 D2]; subst. apply Forall_app in FA as [F1 F2]. destruct IN as [->|IN]; [|apply IH; auto].
    rewrite N in SN. injection SN as <- <-. exists s, s1, lg, s2. split; auto. split; auto. split; auto. eapply nets_other; eauto.
  - discriminate.
Qed.
End Y.
(** Two neighbouring rows in front of a cell. *)
Section Pair.
Variables (n rows cols r k : nat).
Hypothesis SC : scanned prog n rows cols.
Hypothesis RR : (S r < rows)%nat.
Hypothesis NM : multi (code n (S r) k) = false.
Hypothesis WY : ~ W (LPow n (S r) k).
Notation bar := (bar_at prog n).
Hypothesis UP : bar (S r) k = true -> multi (code n r k) = false /\ ~ W (LPow n r k).
Definition pair_inv (s : st) : Prop :=
  if bar (S r) k then peek (s_ctx s) (LPow n r k) = peek (s_ctx s) (LPow n (S r) k)
  else powered (s_ctx s) n (S r) k false.
Lemma pair_keep s s' : (peek (s_ctx s') (LPow n (S r) k) = peek (s_ctx s) (LPow n (S r) k)) ->
  (bar (S r) k = true -> peek (s_ctx s') (LPow n r k) = peek (s_ctx s) (LPow n r k)) -> pair_inv s -> pair_inv s'.
Proof. unfold pair_inv, powered. destruct (bar (S r) k); intros A B C; [rewrite A, B; auto|congruence]. Qed.
Lemma joined_full f : forall g col, (forall x, (g < x <= g + f)%nat -> bar x col = true) -> (joined bar f g col = f)%nat.
Proof.
  induction f as [|f IH]; intros g col H; simpl; auto. rewrite H by lia. rewrite IH; auto. intros x X. apply H. lia.
Qed.
Lemma in_group g col x : In x (group rows bar g col) -> (g <= x)%nat /\ forall z, (g < z <= x)%nat -> bar z col = true.
Proof using.
  clear. unfold group. rewrite in_seq. intros [A B]. split; auto. intros z Z.
  destruct (bar z col) eqn:Q; auto. pose proof (joined_stop bar z col Q (rows - S g) g ltac:(lia)). lia.
Qed.
Lemma group_next g : (g <= r)%nat -> In r (group rows bar g k) -> bar (S r) k = true -> In (S r) (group rows bar g k).
Proof.
  intros G IN B. unfold group in *. rewrite in_seq in *. destruct IN as [_ L].
  assert (K : forall f x, (x <= r)%nat -> (r < x + S (joined bar f x k))%nat -> (r < x + f)%nat -> (S r < x + S (joined bar f x k))%nat); [|specialize (K (rows - S g)%nat g G L ltac:(lia)); lia].
  induction f as [|f IH]; intros x X1 X2 X3; [lia|]. simpl in *. destruct (bar (S x) k) eqn:BX.
  - destruct (Nat.eq_dec x r) as [->|D]; [lia|]. specialize (IH (S x) ltac:(lia) ltac:(lia) ltac:(lia)). lia.
  - assert (x = r) by lia. subst x. congruence.
Qed.
Lemma group_prev g : (g <= r)%nat -> In (S r) (group rows bar g k) -> In r (group rows bar g k) /\ bar (S r) k = true.
Proof.
  intros G IN. split; [|eapply in_group; eauto; lia]. unfold group in *. rewrite in_seq in *. lia.
Qed.
Lemma pair_steps l lg s b s' : steps_run E W prog n l lg s b s' -> Forall fair lg ->
  (forall col rs, In (Run col rs) l -> exists g, (g <= r)%nat /\ rs = group rows bar g col) -> pair_inv s ->
  (forall l1 t l2, lg = l1 ++ t :: l2 -> at_col t <> k -> pair_inv (pre_of t)) /\ (b = true -> pair_inv s').
Proof.
  intros R FA IN H.
  refine (steps_walk E W prog n (fun _ => pair_inv) (fun _ t => at_col t <> k -> pair_inv (pre_of t)) (fun col rs => exists g, (g <= r)%nat /\ rs = group rows bar g col) _ _ l lg s b s' R [] IN FA H).
  - intros _ a a' C. apply pair_keep; [apply C; intros [K|[K|K]]; try discriminate; auto|].
    intros B. destruct (UP B). apply C. intros [K|[K|K]]; try discriminate; auto.
  - intros _ col rs lg' a b' a1 (g & G1 & ->) G F HP. split.
    + intros l1 t l2 EQ CK. assert (TI : In t lg') by (subst; apply in_or_app; simpl; auto).
      pose proof (group_where _ _ _ _ _ _ _ _ _ _ G) as WH. rewrite Forall_forall in WH. destruct (WH t TI) as (_ & A & _).
      assert (NI : forall (y : nat) (Z : list ins), n = n -> col = k -> In y (group rows bar g col) -> footprint (code n y k) y = []) by (intros; congruence).
      assert (K1 := proj1 (group_keep E W prog n (S r) k MK NM WY _ _ _ _ _ _ _ G F (NI (S r) []))). rewrite Forall_forall in K1.
      revert HP. apply pair_keep; [exact (K1 t TI)|]. intros B. destruct (UP B) as [U1 U2].
      assert (K2 := proj1 (group_keep E W prog n r k MK U1 U2 _ _ _ _ _ _ _ G F (NI r []))). rewrite Forall_forall in K2. exact (K2 t TI).
    + intros -> a2 CO.
      destruct (Nat.eq_dec col k) as [->|CK].
      2:{ revert HP. apply pair_keep.
          - rewrite (carry_keep n (S r) k _ _ _ _ _ CO) by congruence. eapply group_keep; eauto. congruence.
          - intros B. destruct (UP B) as [U1 U2]. rewrite (carry_keep n r k _ _ _ _ _ CO) by congruence. eapply group_keep; eauto. congruence. }
      destruct (in_dec Nat.eq_dec (S r) (group rows bar g k)) as [IS|NS].
      * destruct (group_prev g G1 IS) as [IR B]. unfold pair_inv. rewrite B. destruct CO as (v & _ & V & _).
        pose proof (V _ IS) as V1. pose proof (V _ IR) as V2. unfold powered in *. congruence.
      * revert HP. apply pair_keep.
        -- rewrite (carry_keep n (S r) k _ _ _ _ _ CO) by auto. eapply group_keep; eauto. intros; contradiction.
        -- intros B. destruct (UP B) as [U1 U2]. assert (NR : ~ In r (group rows bar g k)) by (intros IR; apply NS, group_next; auto).
           rewrite (carry_keep n r k _ _ _ _ _ CO) by auto. eapply group_keep; eauto. intros; contradiction.
Qed.
Lemma pair_net f : forall g lg s b s', steps_run E W prog n (net_steps rows cols (code n) bar f g) lg s b s' -> Forall fair lg -> pair_inv s ->
  forall t, In t lg -> at_row t = r -> at_col t <> k -> pair_inv (pre_of t).
Proof.
  induction f as [|f IH]; intros g lg s b s' R FA H t TI TR TC; cbn [net_steps] in R.
  - inversion R; subst. contradiction.
  - destruct (g <? rows)%nat eqn:GR; [|inversion R; subst; contradiction].
    destruct (le_lt_dec g r) as [GL|GL].
    2:{ exfalso. pose proof (steps_where _ _ _ _ _ _ _ _ _ R) as WH. rewrite Forall_forall in WH. destruct (WH t TI) as (_ & rs & A & B).
        assert (NS : In (Run (at_col t) rs) (net_steps rows cols (code n) bar (S f) g)) by (cbn [net_steps]; rewrite GR; exact A).
        apply net_runs in NS as [_ NS]. specialize (NS _ B). lia. }
    assert (RU : forall col rs, In (Run col rs) (rung_steps rows cols (code n) bar g) -> exists g, (g <= r)%nat /\ rs = group rows bar g col).
    { intros col rs K. exists g. split; auto. unfold rung_steps in K. destruct K as [K|K]; [discriminate|].
      destruct (multi (code n g 0)); [contradiction|]. apply in_app_iff in K as [K|[K|[]]]; [|discriminate]. apply columns_runs in K. tauto. }
    apply steps_split in R as [(la & lb & s1 & -> & R1 & R2)|[-> R1]].
    + apply Forall_app in FA as [F1 F2]. destruct (pair_steps _ _ _ _ _ R1 F1 RU H) as [Q1 Q2]. apply in_app_iff in TI as [TI|TI].
      * apply in_split in TI as (l1 & l2 & EQ). eapply Q1; eauto.
      * eapply IH; eauto.
    + destruct (pair_steps _ _ _ _ _ R1 FA RU H) as [Q1 Q2]. apply in_split in TI as (l1 & l2 & EQ). eapply Q1; eauto.
Qed.
End Pair.
End T.

(** ** C04 *)

(** C04, for programs of any instructions: every scan that ends executes the cells of the program in order, group by
    group; after each group all its rows carry the OR of what their instructions left, and nothing else happens in
    between except what the code outside the library does. A scan that is broken off did the first part of that. *)
Lemma C04_any_instruction_l : forall E W s s' m, scan_ready E W (s_ctx s) m -> scans E s s' ->
  exists lg done, scan_run E W lg s done s'
    /\ (done = true -> map place_of lg = program_cells (s_ctx s) /\ Forall (fun t => returned t = E_OK) lg)
    /\ exists rest, program_cells (s_ctx s) = map place_of lg ++ rest.
Proof.
  intros E W s s' m RD SC. destruct (scan_runs E W s s' m RD SC) as (lg & b & FA & R). exists lg, b. split; auto.
  destruct R as (s0 & _ & R). destruct (nets_cells _ _ _ _ _ _ _ _ R) as (rest & A & B). fold (program_cells (s_ctx s)) in A. split; [|eauto].
  intros D. destruct (B D) as [-> F]. rewrite A, app_nil_r. auto.
Qed.
(*EX
(* Two counters and a joined pair of contacts: the hypotheses hold and the scan ends. *)
Definition mixed_prog : ctx := demo_nets
  [net_on true [[cellv I_NO [V R_M 0]; cellv I_CTU [V R_NONE 1; V R_NONE 9]]; [bar (cellv I_NC [V R_M 1]); cellv I_MULTI []];
                [cellv I_CONN []; cellv I_COIL [V R_M 2]]]].
Example C04_any_case : scan_ready quiet_env (fun _ => False) mixed_prog 1000 /\ scans quiet_env (start mixed_prog) (scan_st quiet_env mixed_prog)
  /\ program_cells mixed_prog = [(0, 0, 0); (0, 1, 0); (0, 0, 1); (0, 2, 0); (0, 2, 1)]%nat.
Proof. split; [apply (readyb_ok mixed_prog); vm_compute; reflexivity|]. split; vm_compute; reflexivity. Qed.
EX*)

(** ** C02 *)

(** C02, for programs of any instructions: a scan that is not broken off leaves an empty cell without power unless a
    vertical bar joins it to a row above or below. *)
Lemma C02_empty_any_instruction_l : forall E W s s' m, scan_ready E W (s_ctx s) m -> marked (s_ctx s) -> scans E s s' ->
  exists lg done, scan_run E W lg s done s'
    /\ (done = true -> forall n rows cols r col, scanned (s_ctx s) n rows cols -> (r < rows)%nat -> (col < cols)%nat ->
          code_at (s_ctx s) n r col = I_NOP -> bar_at (s_ctx s) n r col = false -> bar_at (s_ctx s) n (S r) col = false ->
          ~ W (LPow n r col) -> powered (s_ctx s') n r col false).
Proof.
  intros E W s s' m RD MK SC. destruct (scan_runs E W s s' m RD SC) as (lg & b & FA & R). exists lg, b. split; auto.
  intros -> n rows cols r col [SN1 SN2] RR CC CD B1 B2 WR. destruct R as (s0 & _ & R). set (c := s_ctx s) in *.
  assert (NM : multi (code_at c n r col) = false) by (rewrite CD; reflexivity).
  destruct (nets_end E W c MK n r col NM WR _ _ _ _ _ R (seq_NoDup _ _) ltac:(apply in_seq; lia) FA eq_refl rows cols SN2) as (sa & sb & lg1 & sc & ST & SR & F1 & PW).
  unfold powered. rewrite PW.
  refine (proj2 (steps_walk E W c n (fun _ a => powered (s_ctx a) n r col false) (fun _ _ => True)
    (fun k rs => k = col -> In r rs -> rs = [r]) _ _ _ lg1 sb true sc SR [] _ F1 _) eq_refl); cbv beta.
  - intros _ a a' C H. unfold powered in *. rewrite <- H. apply C. intros [K|[K|K]]; try discriminate; auto.
  - intros _ k rs lg' a b' a1 GR G F H. split; auto. intros -> a2 CO.
    assert (K1 : peek (s_ctx a1) (LPow n r col) = peek (s_ctx a) (LPow n r col)).
    { eapply group_keep; eauto. intros; now rewrite CD. }
    destruct (Nat.eq_dec k col) as [->|D]; [destruct (in_dec Nat.eq_dec r rs) as [I0|NI]|].
    + rewrite (GR eq_refl I0) in CO. destruct CO as (v & V1 & V2 & _). specialize (V2 r (or_introl eq_refl)). destruct v; auto.
      destruct (proj1 V1 eq_refl) as (x & [<-|[]] & X). unfold powered in *. congruence.
    + unfold powered in *. rewrite (carry_keep n r col _ _ _ _ _ CO); [congruence|auto].
    + unfold powered in *. rewrite (carry_keep n r col _ _ _ _ _ CO); [congruence|]. intros _ K. congruence.
  - intros k rs I0 -> I1. unfold plan in I0. rewrite SN2 in I0.
    assert (GG : forall f g, In (Run col rs) (net_steps rows cols (code_at c n) (bar_at c n) f g) -> exists g', rs = group rows (bar_at c n) g' col).
    { induction f as [|f IH]; intros g K; cbn [net_steps] in K; [contradiction|]. destruct (g <? rows)%nat; [|contradiction].
      apply in_app_iff in K as [K|K]; [|eapply IH; eauto]. exists g. destruct K as [K|K]; [discriminate|].
      destruct (multi (code_at c n g 0)); [contradiction|]. apply in_app_iff in K as [K|[K|[]]]; [|discriminate]. apply columns_runs in K. tauto. }
    destruct (GG _ _ I0) as (g & ->). apply in_group in I1 as [G1 G2].
    assert (g = r) by (destruct (Nat.eq_dec g r); auto; rewrite G2 in B1 by lia; discriminate). subst g.
    unfold group. destruct (rows - S r)%nat; simpl; [reflexivity|]. now rewrite B2.
  - destruct ST as (_ & OFF & _). now apply OFF.
Qed.

(** ** C48 *)

(** C48, for programs of any instructions: an instruction finds power on its left only if the instruction there was
    executed before it in the same scan. A branch whose cells are executed after the join contributes nothing. *)
Lemma C48_left_executed_first_actual_l : forall E W s s' m, scan_ready E W (s_ctx s) m -> marked (s_ctx s) -> scans E s s' ->
  exists lg done, scan_run E W lg s done s'
    /\ forall earlier t later n rows cols r col, lg = earlier ++ t :: later -> at_net t = n ->
         scanned (s_ctx s) n rows cols -> (r < rows)%nat -> (col < cols)%nat -> multi (code_at (s_ctx s) n r col) = false ->
         ~ W (LPow n r col) -> ~ In (n, r, col) (map place_of earlier) -> powered (s_ctx (pre_of t)) n r col false.
Proof.
  intros E W s s' m RD MK SC. destruct (scan_runs E W s s' m RD SC) as (lg & b & FA & R). exists lg, b. split; auto.
  intros l1 t l2 n rows cols r col EQ <- [SN1 SN2] RR CC NM WR NI. destruct R as (s0 & _ & R).
  destruct (nets_turn _ _ _ _ _ _ _ _ R l1 t l2 EQ) as (rw & cl & lc & la & lb & sa & sb & b1 & sc & _ & PN & -> & ST & SR & IN).
  rewrite PN in SN2. injection SN2 as -> ->.
  assert (F1 : Forall (fair_turn E W (s_ctx s)) (la ++ t :: lb)) by (rewrite Forall_forall in *; auto).
  refine (off_until E W (s_ctx s) MK (at_net t) r col NM WR lc _ _ _ _ _ SR F1 _ la t lb eq_refl NI).
  destruct ST as (_ & OFF & _). now apply OFF.
Qed.
(*EX
(* In the branch program of C48 the connection in the lower row is executed, the contact in front of it never. *)
Example C48_any_case : scan_ready quiet_env (fun _ => False) branch_prog 1000 /\ scans quiet_env (start branch_prog) (scan_st quiet_env branch_prog)
  /\ program_cells branch_prog = [(0, 0, 0); (0, 0, 1); (0, 1, 1); (0, 0, 2)]%nat.
Proof. split; [apply (readyb_ok branch_prog); vm_compute; reflexivity|]. split; vm_compute; reflexivity. Qed.
EX*)

(** ** C15 *)

Lemma reset_input E W s s' m : scan_ready E W (s_ctx s) m -> marked (s_ctx s) -> scans E s s' ->
  exists lg done, scan_run E W lg s done s' /\ Forall (fair_turn E W (s_ctx s)) lg
    /\ forall t k rows cols, In t lg -> at_col t = S k -> scanned (s_ctx s) (at_net t) rows cols -> (S (at_row t) < rows)%nat ->
         multi (code_at (s_ctx s) (at_net t) (S (at_row t)) k) = false -> ~ W (LPow (at_net t) (S (at_row t)) k) ->
         if bar_at (s_ctx s) (at_net t) (S (at_row t)) k
         then multi (code_at (s_ctx s) (at_net t) (at_row t) k) = false -> ~ W (LPow (at_net t) (at_row t) k) ->
              peek (s_ctx (pre_of t)) (LPow (at_net t) (at_row t) k) = peek (s_ctx (pre_of t)) (LPow (at_net t) (S (at_row t)) k)
         else powered (s_ctx (pre_of t)) (at_net t) (S (at_row t)) k false.
Proof.
  intros RD MK SC. destruct (scan_runs E W s s' m RD SC) as (lg & b & FA & R). exists lg, b. split; auto. split; auto.
  intros t k rows cols TI TC SN RR NM WR. set (c := s_ctx s) in *.
  assert (KEY : (bar_at c (at_net t) (S (at_row t)) k = true -> multi (code_at c (at_net t) (at_row t) k) = false /\ ~ W (LPow (at_net t) (at_row t) k)) ->
    pair_inv c (at_net t) (at_row t) k (pre_of t)).
  { intros UP. destruct R as (s0 & _ & R). apply in_split in TI as (l1 & l2 & EQ).
    destruct (nets_turn _ _ _ _ _ _ _ _ R l1 t l2 EQ) as (rw & cl & lc & la & lb & sa & sb & b1 & sc & _ & PN & -> & ST & SR & IN).
    pose proof SN as [SN1 SN2]. fold c in PN. rewrite PN in SN2. injection SN2 as -> ->.
    assert (F1 : Forall (fair_turn E W c) (la ++ t :: lb)) by (rewrite Forall_forall in *; auto).
    unfold plan in SR. fold c in SR. rewrite PN in SR.
    refine (pair_net E W c MK (at_net t) rows cols (at_row t) k RR NM WR UP rows 0%nat _ _ _ _ SR F1 _ t _ eq_refl _).
    - destruct ST as (_ & OFF & _). rewrite Forall_forall in FA. destruct (FA t) as (rw & cl & [_ SN'] & R1 & C1 & _).
      { rewrite EQ. apply in_or_app. simpl; auto. }
      fold c in SN'. rewrite PN in SN'. injection SN' as <- <-. rewrite TC in C1.
      pose proof (OFF (S (at_row t)) k ltac:(lia) ltac:(lia)) as O1. pose proof (OFF (at_row t) k ltac:(lia) ltac:(lia)) as O2.
      unfold pair_inv. destruct (bar_at _ _ _ _); auto. unfold powered in *. congruence.
    - apply in_or_app. simpl; auto.
    - rewrite TC. lia. }
  unfold pair_inv in KEY. destruct (bar_at c (at_net t) (S (at_row t)) k) eqn:BB; auto. apply KEY. discriminate.
Qed.
(** C15, what happens instead: whenever a counter right of column 0 is executed, its reset input is off unless a
    vertical bar joins the cell in front of the reset input to the one in front of the count input, and then the two
    inputs are equal. (Continuation marks of multi-row instructions in front of the counter excepted.) *)
Lemma C15_reset_input_actual_l : forall E W s s' m, scan_ready E W (s_ctx s) m -> marked (s_ctx s) -> scans E s s' ->
  exists lg done, scan_run E W lg s done s'
    /\ forall t k rows cols n r, In t lg -> place_of t = (n, r, S k) -> scanned (s_ctx s) n rows cols -> (S r < rows)%nat ->
         is_counter (code_at (s_ctx s) n r (S k)) ->
         multi (code_at (s_ctx s) n (S r) k) = false -> ~ W (LPow n (S r) k) ->
         (bar_at (s_ctx s) n (S r) k = false -> powered (s_ctx (pre_of t)) n (S r) k false)
         /\ (bar_at (s_ctx s) n (S r) k = true -> multi (code_at (s_ctx s) n r k) = false -> ~ W (LPow n r k) ->
             forall v, powered (s_ctx (pre_of t)) n r k v <-> powered (s_ctx (pre_of t)) n (S r) k v).
Proof.
  intros E W s s' m RD MK SC. destruct (reset_input E W s s' m RD MK SC) as (lg & b & R & FA & H). exists lg, b. split; auto.
  intros t k rows cols n r TI PL SN RR _ NM WR. unfold place_of in PL. injection PL as P1 P2 P3.
  specialize (H t k rows cols TI P3). rewrite P1, P2 in H. specialize (H SN RR NM WR).
  split; intros B; rewrite B in H; auto. intros M2 W2 v. specialize (H M2 W2). unfold powered. now rewrite H.
Qed.
(** Hence no scan of any such program resets a counter whose count input is off. *)
Lemma C15_no_reset_actual_l : forall E W s s' m, scan_ready E W (s_ctx s) m -> marked (s_ctx s) -> scans E s s' ->
  exists lg done, scan_run E W lg s done s'
    /\ forall t k rows cols n r i p, In t lg -> place_of t = (n, r, S k) -> scanned (s_ctx s) n rows cols -> (S r < rows)%nat ->
         is_counter (code_at (s_ctx s) n r (S k)) -> counter_cell (s_ctx (pre_of t)) n r k i p -> counter_exists (s_ctx (pre_of t)) i ->
         multi (code_at (s_ctx s) n r k) = false -> ~ W (LPow n r k) -> multi (code_at (s_ctx s) n (S r) k) = false -> ~ W (LPow n (S r) k) ->
         powered (s_ctx (pre_of t)) n r k false ->
         peek (s_ctx (post_of t)) (LReg B_C i) = peek (s_ctx (pre_of t)) (LReg B_C i).
Proof.
  intros E W s s' m RD MK SC. destruct (reset_input E W s s' m RD MK SC) as (lg & b & R & FA & H). exists lg, b. split; auto.
  intros t k rows cols n r i p TI PL SN RR IC CC CE M1 W1 M2 W2 OFF. unfold place_of in PL. injection PL as P1 P2 P3.
  specialize (H t k rows cols TI P3). rewrite P1, P2 in H. specialize (H SN RR M2 W2).
  assert (RST : powered (s_ctx (pre_of t)) n (S r) k false).
  { destruct (bar_at _ _ _ _); auto. specialize (H M1 W1). unfold powered in *. congruence. }
  rewrite Forall_forall in FA. destruct (FA t TI) as (rw & cl & _ & _ & _ & _ & JJ & (_ & bb & ins & dq & PC & OC) & _).
  rewrite P1, P2, P3 in *. destruct RD as [HE HL HW HS HB HM M0 WF CR].
  pose proof (J_meta W (s_ctx s) HL (pre_of t) (LCell n r (S k)) JJ I) as JC. rewrite PC in JC.
  unfold code_at in IC. rewrite <- JC in IC.
  destruct (counter_shows _ _ _ _ _ _ CC CE) as (V & HV). pose proof HV as (V1 & _).
  destruct ins; try contradiction.
  - destruct (ctu_exec E n r k i p (pre_of t) V false false CC HV OFF RST) as (sx & A & (_ & B & _)). rewrite A in OC. injection OC as _ <-.
    destruct B as (B & _). unfold ctu_step, ccount, cdone in B. cbv zeta in B. destruct (_ <=? _) in B; cbn [cv_n] in B; unfold holds in *; congruence.
  - destruct (ctd_exec E n r k i p (pre_of t) V false false CC HV OFF RST) as (sx & A & (_ & B & _)). rewrite A in OC. injection OC as _ <-.
    destruct B as (B & _). unfold ctd_step, ccount, cdone in B. cbv zeta in B. destruct (_ =? _) in B; cbn [cv_n] in B; unfold holds in *; congruence.
Qed.
(*EX
(* The program of the refutation meets the hypotheses. *)
Example C15_actual_case : scan_ready quiet_env (fun _ => False) reset_prog 1000 /\ marked reset_prog
  /\ scans quiet_env (start reset_prog) (scan_st quiet_env reset_prog) /\ scanned reset_prog 0 2 2 /\ is_counter (code_at reset_prog 0 0 1)
  /\ In (0, 0, 1)%nat (program_cells reset_prog) /\ multi (code_at reset_prog 0 1 0) = false /\ multi (code_at reset_prog 0 0 0) = false
  /\ counter_exists reset_prog 1.
Proof.
  split; [apply (readyb_ok reset_prog); vm_compute; reflexivity|]. split.
  - intros n rows cols r col k [SN1 SN2] R C F NE. simpl in SN1. destruct n; [|lia]. vm_compute in SN2. injection SN2 as <- <-.
    destruct r as [|[|r]]; destruct col as [|[|col]]; try lia; vm_compute in F; intuition (subst; try congruence; reflexivity).
  - split; [vm_compute; reflexivity|]. split; [split; [simpl; lia|reflexivity]|]. split; [exact I|]. split; [vm_compute; tauto|]. split; [reflexivity|]. split; [reflexivity|].
    exists 7, 0, 0. split; [vm_compute; reflexivity|]. split; split; vm_compute; auto.
Qed.
EX*)
