(** The cron expression parser: from positions in the string to lists, and what it accepts. *)
From Verif Require Export SpecParse CronStep.

(** ** Digits *)

Lemma is_num_digit c : is_num c = true <-> digit c.
Proof. unfold is_num, digit. rewrite andb_true_iff, !Z.leb_le. tauto. Qed.
Definition no_digit (u : list Z) : Prop := match u with c :: _ => ~ digit c | [] => True end.
Definition numb (a : Z) (ds : list Z) : Z := fold_left (fun a c => 10 * a + (c - 48)) ds a.
Lemma u64_idem z : u64 (u64 z) = u64 z.
Proof. unfold u64. apply Z.mod_mod. discriminate. Qed.
Lemma u64_step a b x : u64 a = u64 b -> u64 (10 * a + x) = u64 (10 * b + x).
Proof.
  unfold u64. intros H. rewrite <- (Z.add_mod_idemp_l (10 * a)), <- (Z.mul_mod_idemp_r 10 a), H by discriminate.
  now rewrite Z.mul_mod_idemp_r, Z.add_mod_idemp_l by discriminate.
Qed.
Lemma numb_u64 ds a b : u64 a = u64 b -> u64 (numb a ds) = u64 (numb b ds).
Proof.
  revert a b. induction ds as [|c ds IH]; intros a b H; [exact H|]. unfold numb. cbn [fold_left]. apply IH. now apply u64_step.
Qed.
Lemma digits_app ds u a : Forall digit ds -> no_digit u -> u64 a = a -> digits (ds ++ u) a = (u64 (numb a ds), length ds).
Proof.
  intros F N. revert a. induction F as [|c ds D F IH]; intros a A; cbn [app digits length].
  - cbn [numb fold_left]. rewrite A. destruct u as [|c u]; simpl; auto. simpl in N. destruct (is_num c) eqn:K; auto. apply is_num_digit in K. contradiction.
  - rewrite (proj2 (is_num_digit c) D). rewrite IH by apply u64_idem. f_equal. change (numb a (c :: ds)) with (numb (10 * a + (c - 48)) ds). apply numb_u64. rewrite u64_idem. apply f_equal. lia.
Qed.
Lemma digits_split u : exists ds u', u = ds ++ u' /\ Forall digit ds /\ no_digit u'.
Proof.
  induction u as [|c u IH]; [exists [], []; simpl; auto|]. destruct (is_num c) eqn:K.
  - destruct IH as (ds & u' & -> & F & N). exists (c :: ds), u'. split; auto. split; auto. constructor; auto. now apply is_num_digit.
  - exists [], (c :: u). split; auto. split; auto. simpl. intros D. apply is_num_digit in D. congruence.
Qed.

(** ** Numbers and items on lists *)

Definition num_l (u : list Z) : option (Z * list Z) :=
  match u with
  | c :: _ => if is_num c then Some (fst (digits u 0), skipn (snd (digits u 0)) u) else None
  | [] => None
  end.
Definition range_l (b e : Z) (t : list Z) : lwdtcr + (Z * Z * bool * bool * list Z) :=
  match t with
  | c :: t1 =>
      if c =? c_minus then
        match t1 with
        | [] => inl L_ERR
        | _ => match num_l t1 with
               | None => inl L_ERRTOKEN
               | Some (v, t2) => if v <? b then inr (v, b, true, true, t2) else inr (b, v, false, true, t2)
               end
        end
      else inr (b, e, false, false, t)
  | [] => inr (b, e, false, false, t)
  end.
Definition step_l (b e : Z) (opp isr : bool) (t : list Z) : lwdtcr + (Z * Z * Z * bool * list Z) :=
  match t with
  | c :: t1 =>
      if c =? c_slash then
        match num_l t1 with
        | None => inl L_ERRTOKEN
        | Some (v, t2) => inr (b, (if isr : bool then e else size_max), v, opp, t2)
        end
      else inr (b, e, 1, opp, t)
  | [] => inr (b, e, 1, opp, t)
  end.
Definition head_l (u : list Z) (mn mx : Z) : option (Z * Z * list Z) :=
  match u with
  | c :: t => if c =? c_star then Some (mn, mx, t) else match num_l u with Some (v, t) => Some (v, v, t) | None => None end
  | [] => None
  end.
Definition item_l (u : list Z) (mn mx : Z) : lwdtcr + (Z * Z * Z * bool * list Z) :=
  match head_l u mn mx with
  | None => inl L_ERRTOKEN
  | Some (b, e, t) => match range_l b e t with
                      | inl r => inl r
                      | inr (b, e, opp, isr, t) => step_l b e opp isr t
                      end
  end.

Section Pos.
Variables (tok rest : list Z) (len : nat).
Hypothesis RE : ends_field rest.
Lemma chr_at p u : tok = p ++ u ++ rest -> chr tok (length p) = match u with c :: _ => c | [] => hd 0 rest end.
Proof.
  intros ->. unfold chr. rewrite app_nth2 by lia. rewrite Nat.sub_diag. destruct u as [|c u]; simpl; auto. now destruct rest.
Qed.
Lemma rest_no x : digit x \/ x = c_star \/ x = c_minus \/ x = c_slash -> hd 0 rest <> x.
Proof.
  intros H K. unfold ends_field in RE. destruct rest as [|c r]; simpl in K; subst; unfold digit, c_star, c_minus, c_slash in *; destruct H as [H|[H|[H|H]]]; lia.
Qed.
Lemma num_at p u : tok = p ++ u ++ rest -> len = length (p ++ u) ->
  parse_num tok len (length p) = match num_l u with Some (v, u') => Some (v, (len - length u')%nat) | None => None end.
Proof.
  intros T L. unfold parse_num. rewrite (chr_at p u T). destruct u as [|c u].
  - destruct (is_num (hd 0 rest)) eqn:K; auto. apply is_num_digit in K. elim (rest_no (hd 0 rest)); auto.
  - unfold num_l. destruct (is_num c) eqn:K; auto. rewrite L, app_length. simpl length at 2. replace (0 <? _)%nat with true by (symmetry; apply Nat.ltb_lt; lia).
    rewrite T. rewrite skipn_app, skipn_all, Nat.sub_diag, skipn_O, app_nil_l.
    destruct (digits_split (c :: u)) as (ds & u' & E & F & N). rewrite E. rewrite <- app_assoc. rewrite !digits_app; auto.
    2:{ destruct u' as [|x u']; auto. simpl. unfold ends_field in RE. destruct rest; simpl; auto. subst. unfold digit. lia. }
    cbn [fst snd]. rewrite skipn_app, skipn_all, Nat.sub_diag, skipn_O. simpl app. f_equal. f_equal. rewrite app_length. lia.
Qed.
Lemma num_suffix u v u' : num_l u = Some (v, u') -> exists ds, numeral ds /\ u = ds ++ u' /\ no_digit u' /\ v = u64 (number ds).
Proof.
  intros H. destruct (digits_split u) as (ds & t & E & F & N). unfold num_l in H. destruct u as [|c u]; [discriminate|]. destruct (is_num c) eqn:K; [|discriminate].
  rewrite E, (digits_app ds t 0 F N eq_refl) in H. cbn [fst snd] in H. rewrite skipn_app, skipn_all, Nat.sub_diag, skipn_O in H. simpl in H. injection H as <- <-.
  exists ds. split; [|auto]. split; auto. intros ->. simpl in E. subst t. simpl in N. apply N. now apply is_num_digit.
Qed.
Lemma num_reads ds u' : numeral ds -> no_digit u' -> num_l (ds ++ u') = Some (u64 (number ds), u').
Proof.
  intros [NE F] N. destruct ds as [|c ds]; [contradiction|]. inversion F; subst. unfold num_l. change ((c :: ds) ++ u') with (c :: ds ++ u') at 1. cbv iota beta.
  cbn [app]. rewrite (proj2 (is_num_digit c)) by auto. change (c :: ds ++ u') with ((c :: ds) ++ u'). rewrite (digits_app (c :: ds) u' 0 F N eq_refl). cbn [fst snd].
  now rewrite skipn_app, skipn_all, Nat.sub_diag, skipn_O.
Qed.
Lemma lt_at (p : list Z) c u : len = length (p ++ c :: u) -> (length p <? len)%nat = true.
Proof. intros ->. rewrite app_length. simpl. apply Nat.ltb_lt. lia. Qed.

Lemma item_at p u mn mx : tok = p ++ u ++ rest -> len = length (p ++ u) -> u <> [] ->
  parse_item tok len (length p) mn mx = match item_l u mn mx with inl r => inl r | inr (b, e, st, opp, u') => inr (b, e, st, opp, (len - length u')%nat) end.
Proof.
  intros T L NE. unfold parse_item, item_l.
  (* the part after the head *)
  assert (STEP : forall b e opp isr q t, tok = q ++ t ++ rest -> len = length (q ++ t) ->
    (if (length q <? len)%nat && (chr tok (length q) =? c_slash) then
       match parse_num tok len (S (length q)) with None => inl L_ERRTOKEN | Some (v, j) => inr (b, (if isr : bool then e else size_max), v, opp, j) end
     else inr (b, e, 1, opp, length q))
    = match step_l b e opp isr t with inl r => inl r | inr (b, e, st, opp, u') => inr (b, e, st, opp, (len - length u')%nat) end).
  { intros b e opp isr q t TQ LQ. rewrite (chr_at q t TQ). destruct t as [|c t].
    - simpl. replace (length q <? len)%nat with false by (symmetry; apply Nat.ltb_ge; rewrite LQ, app_length; simpl; lia). simpl. rewrite LQ, app_nil_r. repeat f_equal; lia.
    - rewrite (lt_at q c t LQ). cbn [andb step_l]. destruct (c =? c_slash) eqn:CS.
      + assert (T2 : tok = (q ++ [c]) ++ t ++ rest) by (rewrite TQ, <- app_assoc; reflexivity).
        assert (L2 : len = length ((q ++ [c]) ++ t)) by (rewrite LQ, <- app_assoc; reflexivity).
        pose proof (num_at _ _ T2 L2) as NA. rewrite app_length in NA. simpl length in NA. rewrite Nat.add_1_r in NA. rewrite NA. destruct (num_l t) as [[v t2]|]; auto.
      + repeat f_equal. rewrite LQ, app_length. lia. }
  assert (RANGE : forall b e q t, tok = q ++ t ++ rest -> len = length (q ++ t) ->
    (match (if (length q <? len)%nat && (chr tok (length q) =? c_minus) then
          if (S (length q) <? len)%nat then
            match parse_num tok len (S (length q)) with
            | None => inl L_ERRTOKEN
            | Some (v, j) => if v <? b then inr (v, b, true, true, j) else inr (b, v, false, true, j)
            end
          else inl L_ERR
        else inr (b, e, false, false, length q)) : lwdtcr + (Z * Z * bool * bool * nat) with
      | inl r => inl r
      | inr (b, e, opp, isr, i) =>
          if (i <? len)%nat && (chr tok i =? c_slash) then
            match parse_num tok len (S i) with None => inl L_ERRTOKEN | Some (v, j) => inr (b, (if isr : bool then e else size_max), v, opp, j) end
          else inr (b, e, 1, opp, i)
      end)
    = match (match range_l b e t with inl r => inl r | inr (b, e, opp, isr, t) => step_l b e opp isr t end) with
      | inl r => inl r | inr (b, e, st, opp, u') => inr (b, e, st, opp, (len - length u')%nat) end).
  { intros b e q t TQ LQ. rewrite (chr_at q t TQ). destruct t as [|c t].
    - replace (length q <? len)%nat with false at 1 by (symmetry; apply Nat.ltb_ge; rewrite LQ, app_length; simpl; lia). cbn [andb range_l].
      exact (STEP b e false false q [] TQ LQ).
    - rewrite (lt_at q c t LQ). cbn [andb range_l]. destruct (c =? c_minus) eqn:CM; [|exact (STEP b e false false q (c :: t) TQ LQ)].
      assert (T2 : tok = (q ++ [c]) ++ t ++ rest) by (rewrite TQ, <- app_assoc; reflexivity).
      assert (L2 : len = length ((q ++ [c]) ++ t)) by (rewrite LQ, <- app_assoc; reflexivity).
      pose proof (num_at _ _ T2 L2) as NA. assert (Q1 : length (q ++ [c]) = S (length q)) by (rewrite app_length; simpl; lia). rewrite Q1 in NA. rewrite NA.
      destruct t as [|c2 t].
      + replace (S (length q) <? len)%nat with false by (symmetry; apply Nat.ltb_ge; rewrite L2, app_nil_r, Q1; lia). reflexivity.
      + replace (S (length q) <? len)%nat with true by (symmetry; apply Nat.ltb_lt; rewrite L2, app_length, Q1; simpl; lia).
        destruct (num_l (c2 :: t)) as [[v t2]|] eqn:NL; auto. destruct (num_suffix _ _ _ NL) as (ds & _ & E2 & _ & _).
        assert (T3 : tok = ((q ++ [c]) ++ ds) ++ t2 ++ rest) by (rewrite T2, E2, <- !app_assoc; reflexivity).
        assert (L3 : len = length (((q ++ [c]) ++ ds) ++ t2)) by (rewrite L2, E2, <- !app_assoc; reflexivity).
        replace (len - length t2)%nat with (length ((q ++ [c]) ++ ds)) by (rewrite L3, (app_length ((q ++ [c]) ++ ds)); lia).
        destruct (v <? b); [exact (STEP v b true true _ t2 T3 L3)|exact (STEP b v false true _ t2 T3 L3)]. }
  rewrite (chr_at p u T). destruct u as [|c u]; [contradiction|]. cbn [head_l]. destruct (c =? c_star) eqn:CS.
  - assert (T2 : tok = (p ++ [c]) ++ u ++ rest) by (rewrite T, <- app_assoc; reflexivity).
    assert (L2 : len = length ((p ++ [c]) ++ u)) by (rewrite L, <- app_assoc; reflexivity).
    assert (Q1 : length (p ++ [c]) = S (length p)) by (rewrite app_length; simpl; lia). rewrite <- Q1. exact (RANGE mn mx _ _ T2 L2).
  - rewrite (num_at p (c :: u) T L). destruct (num_l (c :: u)) as [[v t]|] eqn:NL; auto. destruct (num_suffix _ _ _ NL) as (ds & _ & E2 & _ & _).
    assert (T3 : tok = (p ++ ds) ++ t ++ rest) by (rewrite T, E2, <- !app_assoc; reflexivity).
    assert (L3 : len = length ((p ++ ds) ++ t)) by (rewrite L, E2, <- !app_assoc; reflexivity).
    replace (len - length t)%nat with (length (p ++ ds)) by (rewrite L3, (app_length (p ++ ds)); lia). exact (RANGE v v _ _ T3 L3).
Qed.
End Pos.

(** ** What an item is read as *)

Definition read_range (mn mx : Z) (it : item) : Z * Z * bool * bool :=
  let f := match it_head it with Star => mn | From ds => u64 (number ds) end in
  let e := match it_head it with Star => mx | From ds => u64 (number ds) end in
  match it_to it with
  | None => (f, e, false, false)
  | Some ds => let v := u64 (number ds) in if v <? f then (v, f, true, true) else (f, v, false, true)
  end.
Definition read_item (mn mx : Z) (it : item) : Z * Z * Z * bool :=
  let '(b, e, opp, isr) := read_range mn mx it in
  match it_step it with
  | None => (b, e, 1, opp)
  | Some ds => (b, (if isr : bool then e else size_max), u64 (number ds), opp)
  end.
Definition ends_item (u : list Z) : Prop := match u with [] => True | c :: _ => c = 44 end.
Lemma ends_no_digit u : ends_item u -> no_digit u.
Proof. destruct u; simpl; auto. intros ->. unfold digit. lia. Qed.

Lemma item_reads it u mn mx : well_formed it -> ends_item u ->
  item_l (item_text it ++ u) mn mx = let '(b, e, st, opp) := read_item mn mx it in inr (b, e, st, opp, u).
Proof.
  intros (W1 & W2 & W3) EU. unfold item_l, item_text, read_item, read_range. destruct it as [h t s]. cbn [it_head it_to it_step] in *. rewrite <- !app_assoc.
  set (su := (match s with Some ds => 47 :: ds | None => [] end) ++ u).
  assert (ND : no_digit su) by (unfold su; destruct s; [simpl; unfold digit; lia|now apply ends_no_digit]).
  assert (ST : forall b e opp isr, step_l b e opp isr su = match s with None => inr (b, e, 1, opp, u) | Some ds => inr (b, (if isr : bool then e else size_max), u64 (number ds), opp, u) end).
  { intros b e opp isr. unfold su. destruct s as [ds|].
    - cbn [app step_l]. change (47 =? c_slash) with true. cbv iota. rewrite num_reads by (auto using ends_no_digit). reflexivity.
    - cbn [app]. destruct u as [|c u]; [reflexivity|]. simpl in EU. subst c. reflexivity. }
  set (tu := (match t with Some ds => 45 :: ds | None => [] end) ++ su).
  assert (NT : no_digit tu) by (unfold tu; destruct t; [simpl; unfold digit; lia|auto]).
  assert (RA : forall b e, match range_l b e tu with inl r => inl r | inr (b, e, opp, isr, t) => step_l b e opp isr t end =
    let '(b', e', opp, isr) := match t with None => (b, e, false, false) | Some ds => let v := u64 (number ds) in if v <? b then (v, b, true, true) else (b, v, false, true) end in
    match s with None => inr (b', e', 1, opp, u) | Some ds => inr (b', (if isr : bool then e' else size_max), u64 (number ds), opp, u) end).
  { intros b e. unfold tu. destruct t as [ds|].
    - cbn [app range_l]. change (45 =? c_minus) with true. cbv iota. pose proof (W2 ds eq_refl) as ND2. destruct (ds ++ su) as [|c l] eqn:DS.
      { destruct ND2 as [NE _]. destruct ds; [contradiction|discriminate]. }
      rewrite <- DS, num_reads by auto. cbv zeta. destruct (u64 (number ds) <? b); apply ST.
    - cbn [app]. assert (SM : range_l b e su = inr (b, e, false, false, su)).
      { unfold su. destruct s as [ds|]; [reflexivity|]. cbn [app]. destruct u as [|c u]; [reflexivity|]. simpl in EU. subst c. reflexivity. }
      rewrite SM. apply ST. }
  destruct h as [|ds].
  - cbn [app head_l]. change (42 =? c_star) with true. cbv iota. rewrite RA. destruct t as [ds|]; cbv zeta; [destruct (_ <? _)|]; destruct s; reflexivity.
  - pose proof (W1 ds eq_refl) as ND2. assert (HL : head_l (ds ++ tu) mn mx = Some (u64 (number ds), u64 (number ds), tu)).
    { unfold head_l. destruct (ds ++ tu) as [|c l] eqn:DS; [destruct ND2 as [NE _]; destruct ds; [contradiction|discriminate]|].
      assert (c =? c_star = false) as ->.
      { apply Z.eqb_neq. destruct ND2 as [NE F]. destruct ds; [contradiction|]. inversion F as [|? ? D]; subst. injection DS as -> _. unfold digit in D. unfold c_star. lia. }
      rewrite <- DS, num_reads by auto. reflexivity. }
    rewrite HL, RA. destruct t as [ds2|]; cbv zeta; [destruct (_ <? _)|]; destruct s; reflexivity.
Qed.

Lemma step_sound b e opp isr t b' e' st opp' u : step_l b e opp isr t = inr (b', e', st, opp', u) ->
  exists s, (forall ds, s = Some ds -> numeral ds) /\ (s <> None -> no_digit u) /\ t = (match s with Some ds => 47 :: ds | None => [] end) ++ u
    /\ (b', e', st, opp') = match s with None => (b, e, 1, opp) | Some ds => (b, (if isr : bool then e else size_max), u64 (number ds), opp) end.
Proof.
  unfold step_l. destruct t as [|c t].
  - intros H. injection H as <- <- <- <- <-. exists None. split; [discriminate|]. split; [congruence|auto].
  - destruct (c =? c_slash) eqn:CS.
    + apply Z.eqb_eq in CS. subst c. destruct (num_l t) as [[v t2]|] eqn:NL; [|discriminate]. intros H. injection H as <- <- <- <- <-.
      apply num_suffix in NL as (ds & ND & -> & NO & ->). exists (Some ds). split; [intros ? K; injection K as <-; auto|]. split; auto.
    + intros H. injection H as <- <- <- <- <-. exists None. split; [discriminate|]. split; [congruence|auto].
Qed.
Lemma item_sound v mn mx b e st opp u : item_l v mn mx = inr (b, e, st, opp, u) ->
  exists it, well_formed it /\ v = item_text it ++ u /\ (b, e, st, opp) = read_item mn mx it /\ (it_step it <> None -> no_digit u).
Proof.
  unfold item_l. destruct (head_l v mn mx) as [[[b0 e0] t]|] eqn:HL; [|discriminate].
  assert (HD : exists h, (forall ds, h = From ds -> numeral ds) /\ v = (match h with Star => [42] | From ds => ds end) ++ t
    /\ b0 = match h with Star => mn | From ds => u64 (number ds) end /\ e0 = match h with Star => mx | From ds => u64 (number ds) end).
  { unfold head_l in HL. destruct v as [|c v]; [discriminate|]. destruct (c =? c_star) eqn:CS.
    - apply Z.eqb_eq in CS. injection HL as <- <- <-. exists Star. subst c. split; [discriminate|auto].
    - destruct (num_l (c :: v)) as [[x t']|] eqn:NL; [|discriminate]. injection HL as <- <- <-. apply num_suffix in NL as (ds & ND & E & _ & ->).
      exists (From ds). split; [intros ? K; injection K as <-; auto|auto]. }
  destruct HD as (h & WH & -> & -> & ->). set (f := match h with Star => mn | From ds => u64 (number ds) end). set (e1 := match h with Star => mx | From ds => u64 (number ds) end).
  destruct (range_l f e1 t) as [r|[[[[b1 e2] opp1] isr] t1]] eqn:RL; [discriminate|]. intros SL.
  assert (RG : exists r, (forall ds, r = Some ds -> numeral ds) /\ t = (match r with Some ds => 45 :: ds | None => [] end) ++ t1
    /\ (b1, e2, opp1, isr) = match r with None => (f, e1, false, false) | Some ds => let v := u64 (number ds) in if v <? f then (v, f, true, true) else (f, v, false, true) end).
  { unfold range_l in RL. destruct t as [|c t]; [injection RL as <- <- <- <- <-; exists None; split; [discriminate|auto]|].
    destruct (c =? c_minus) eqn:CM; [|injection RL as <- <- <- <- <-; exists None; split; [discriminate|auto]]. apply Z.eqb_eq in CM. subst c. destruct t as [|c2 t]; [discriminate|].
    destruct (num_l (c2 :: t)) as [[x t2]|] eqn:NL; [|discriminate]. apply num_suffix in NL as (ds & ND & E & _ & ->). exists (Some ds). split; [intros ? K; injection K as <-; auto|].
    rewrite E. cbv zeta. destruct (u64 (number ds) <? f); injection RL as <- <- <- <- <-; auto. }
  destruct RG as (r & WR & -> & ER). apply step_sound in SL as (s & WS & NO & -> & ES). exists (mk_item h r s). split; [split; [|split]; auto|].
  split; [unfold item_text; cbn [it_head it_to it_step]; now rewrite <- !app_assoc|]. unfold read_item, read_range. cbn [it_head it_to it_step]. fold f. fold e1.
  destruct r as [ds|]; cbv zeta in ER |- *; [destruct (u64 (number ds) <? f)|]; injection ER as -> -> -> ->; split; auto.
Qed.

(** ** The bits an item sets *)

Lemma bit_on_set m p m' q : 0 <= p -> p < 8 * Z.of_nat (length m) -> bit_set m p = Ok m' -> 0 <= q -> bit_on m' q = bit_on m q || (q =? p).
Proof.
  intros P L H Q. unfold bit_set in H. rewrite Z.shiftr_div_pow2 in H by lia. change (2 ^ 3) with 8 in H. apply rbind_ok in H as (x & G & H). injection H as <-.
  apply (pget_ok (Some m)) in G as [G0 G]. unfold elem, obind, ix in G. unfold bit_on. rewrite (proj2 (Z.leb_le 0 q) Q). cbn [andb].
  change 7 with (Z.ones 3). rewrite Z.land_ones by lia. change (2 ^ 3) with 8.
  assert (PM : 0 <= p mod 8 < 8) by (apply Z.mod_pos_bound; lia). assert (QM : 0 <= q mod 8 < 8) by (apply Z.mod_pos_bound; lia).
  assert (LP : (Z.to_nat (p / 8) < length m)%nat) by (apply nth_error_Some; congruence).
  pose proof (Z.div_mod p 8 ltac:(lia)) as DP. pose proof (Z.div_mod q 8 ltac:(lia)) as DQ.
  destruct (Z.eq_dec (q / 8) (p / 8)) as [EQ|NE].
  - rewrite EQ, nth_lset_same by auto. rewrite G. unfold u8. change 256 with (2 ^ 8). rewrite Z.mod_pow2_bits_low by lia. rewrite Z.lor_spec, Z.shiftl_spec by lia. f_equal.
    destruct (Z.eqb_spec q p) as [->|NQ]; [now rewrite Z.sub_diag|]. assert (N0 : q mod 8 - p mod 8 <> 0) by lia. destruct (q mod 8 - p mod 8); [contradiction|reflexivity|reflexivity].
  - rewrite nth_lset_other by (intros K; apply NE; apply Z2Nat.inj; auto; apply Z.div_pos; lia).
    replace (q =? p) with false by (symmetry; apply Z.eqb_neq; intros ->; contradiction). now rewrite orb_false_r.
Qed.

Lemma bit_set_total m p : 0 <= p -> p < 8 * Z.of_nat (length m) -> exists m', bit_set m p = Ok m' /\ length m' = length m.
Proof.
  intros P L. unfold bit_set. rewrite Z.shiftr_div_pow2 by lia. change (2 ^ 3) with 8.
  assert (0 <= p / 8 < Z.of_nat (length m)) as D by (split; [apply Z.div_pos; lia|apply Z.div_lt_upper_bound; lia]).
  assert (G : exists v, lget m (p / 8) = Ok v).
  { unfold lget, idx_ok. rewrite (proj2 (Z.leb_le _ _)), (proj2 (Z.ltb_lt _ _)) by lia. cbn [andb]. destruct (nth_error m (Z.to_nat (p / 8))) eqn:N; [eauto|]. apply nth_error_None in N. lia. }
  destruct G as (v & G). rewrite G. cbn [rbind]. eexists. split; [reflexivity|]. now rewrite lset_length.
Qed.
Lemma u64_id x : 0 <= x -> x < 2 ^ 64 -> u64 x = x.
Proof. intros. unfold u64. apply Z.mod_small. change (2 ^ 64) with 18446744073709551616 in *. lia. Qed.
Lemma set_bits_ok : forall fuel m b last step, 1 <= step -> last + step < 2 ^ 64 -> 0 <= b -> b < 2 ^ 64 -> last < 8 * Z.of_nat (length m) -> last - b < Z.of_nat fuel ->
  exists m' bit, set_bits fuel m b last step = Ok (m', bit) /\ length m' = length m /\ bit mod step = b mod step /\ 0 <= bit
    /\ forall p, 0 <= p -> bit_on m' p = bit_on m p || ((b <=? p) && (p <=? last) && ((p - b) mod step =? 0)).
Proof.
  induction fuel; intros m b last step S1 S2 B0 B1 L F.
  - unfold set_bits. rewrite (proj2 (Z.leb_gt b last)) by lia. exists m, b. repeat split; auto. intros p P.
    destruct (b <=? p) eqn:A; [|now rewrite orb_false_r]. destruct (p <=? last) eqn:C; [lia|]. now rewrite orb_false_r.
  - cbn [set_bits]. destruct (b <=? last) eqn:BL.
    + apply Z.leb_le in BL. destruct (bit_set_total m b B0) as (m1 & E & L1); [lia|]. rewrite E. cbn [rbind]. rewrite u64_id by lia.
      destruct (IHfuel m1 (b + step) last step) as (m' & bit & R & L2 & M & B2 & H); try lia. exists m', bit. split; [exact R|]. split; [lia|].
      split; [rewrite M; rewrite <- (Z.mul_1_l step) at 1; now rewrite Z.mod_add by lia|]. split; [exact B2|].
      intros p P. rewrite H, (bit_on_set m b m1 p) by (auto; lia). rewrite <- orb_assoc. f_equal.
      replace ((p - (b + step)) mod step) with ((p - b) mod step) by (replace (p - b) with (p - (b + step) + 1 * step) by lia; now rewrite Z.mod_add by lia).
      destruct (Z.eqb_spec p b) as [->|NE]; [rewrite Z.leb_refl, Z.sub_diag, Z.mod_0_l by lia; rewrite (proj2 (Z.leb_le b last)) by lia; reflexivity|].
      cbn [orb]. destruct (Z.eqb_spec ((p - b) mod step) 0) as [ME|]; [|now rewrite !andb_false_r]. rewrite !andb_true_r.
      destruct (p <=? last); [|now rewrite !andb_false_r]. rewrite !andb_true_r. apply eq_true_iff_eq. rewrite !Z.leb_le. split; [lia|]. intros.
      apply Z.mod_divide in ME as (q & ME); [|lia]. assert (1 <= q) by nia. nia.
    + exists m, b. repeat split; auto. intros p P. apply Z.leb_gt in BL.
      destruct (b <=? p) eqn:A; [|now rewrite orb_false_r]. destruct (p <=? last) eqn:C; [lia|]. now rewrite orb_false_r.
Qed.

Lemma number_nonneg ds : numeral ds -> 0 <= number ds.
Proof.
  intros [_ F]. unfold number. assert (G : forall a, 0 <= a -> 0 <= fold_left (fun a c => 10 * a + (c - 48)) ds a).
  { clear -F. induction F; intros a A; cbn [fold_left]; [auto|]. apply IHF. unfold digit in H. lia. } apply G. lia.
Qed.
Lemma mod_near x n : 0 < n -> 0 <= x < n -> x mod n = x. Proof. intros. now apply Z.mod_small. Qed.
Lemma mod_near2 x n : 0 < n -> - n <= x < 0 -> x mod n = x + n.
Proof. intros. replace x with (x + n + (-1) * n) at 1 by lia. rewrite Z.mod_add by lia. apply Z.mod_small. lia. Qed.
Lemma mod_eq_mod a b s : s <> 0 -> (a - b) mod s = 0 -> a mod s = b mod s.
Proof. intros S H. apply Z.mod_divide in H as (q & H); [|auto]. replace a with (b + q * s) by lia. now rewrite Z.mod_add. Qed.

Lemma apply_ok m mn mx it : 0 <= mn <= mx -> mx < 2 ^ 63 -> mx < 8 * Z.of_nat (length m) -> well_formed it -> in_range mn mx it -> good_step mn mx it ->
  let '(b, e, st, opp) := read_item mn mx it in
  exists m', apply_item m mn mx b e st opp = Ok (L_OK, m') /\ length m' = length m /\ forall p, 0 <= p -> bit_on m' p = true <-> bit_on m p = true \/ denotes mn mx it p.
Proof.
  intros MM MX ML (W1 & W2 & W3) (R1 & R2) ((G1 & G2) & G3).
  assert (P63 : 2 ^ 63 = 9223372036854775808) by reflexivity. assert (P64 : 2 ^ 64 = 18446744073709551616) by reflexivity.
  destruct it as [h t s]. unfold first_of, last_of, step_of, wraps in *. unfold first_of, last_of in *. cbn [it_head it_to it_step] in *.
  unfold read_item, read_range. cbn [it_head it_to it_step].
  set (f := match h with Star => mn | From ds => number ds end) in *.
  assert (EF : match h with Star => mn | From ds => u64 (number ds) end = f).
  { unfold f in *. destruct h; [reflexivity|]. apply u64_id; lia. }
  rewrite EF. set (st := match s with Some ds => number ds | None => 1 end) in *.
  (* plain: from f to l, not wrapping *)
  assert (PLAIN : forall l e, mn <= l <= mx -> l = (if mx <? e then mx else e) -> ((mx <? e) && negb (e =? size_max)) = false ->
    l = match t with Some ds => number ds | None => match h with From ds => match s with None => number ds | Some _ => mx end | Star => mx end end -> f <= l ->
    exists m', apply_item m mn mx f e st false = Ok (L_OK, m') /\ length m' = length m /\ forall p, 0 <= p -> bit_on m' p = true <-> bit_on m p = true \/ denotes mn mx (mk_item h t s) p).
  { intros l e LR LE CK LL FL. unfold apply_item. rewrite (proj2 (Z.ltb_ge f mn)) by lia. rewrite CK, <- LE.
    destruct (set_bits_ok (bits_fuel m) m f l st) as (m' & bit & E & L' & _ & _ & H); try lia.
    { unfold bits_fuel. lia. }
    rewrite E. cbn [rbind fst]. exists m'. split; [reflexivity|]. split; [exact L'|]. intros p P. rewrite H by auto. rewrite orb_true_iff, !andb_true_iff, !Z.leb_le, Z.eqb_eq.
    unfold denotes, first_of, last_of, step_of. cbn [it_head it_to it_step]. fold f. fold st. cbv zeta.
    assert (LAST : match t with Some ds => number ds | None => match h with Star => mx | From ds => match s with Some _ => mx | None => number ds end end end = l).
    { rewrite LL. destruct t; [reflexivity|]. destruct h; reflexivity. }
    rewrite LAST. rewrite (mod_near (l - f)) by lia. apply or_iff_compat_l. split.
    - intros ((A & B) & C). rewrite (mod_near (p - f)) by lia. auto with zarith.
    - intros (A & B & C). destruct (Z_lt_le_dec p f).
      + rewrite (mod_near2 (p - f)) in C by lia. lia.
      + rewrite (mod_near (p - f)) in B, C by lia. lia. }
  destruct t as [dt|].
  - cbv zeta. assert (ET : u64 (number dt) = number dt) by (apply u64_id; lia). rewrite ET. set (l := number dt) in *. 
    assert (ES : forall b e opp, match s with Some ds => (b, e, u64 (number ds), opp) | None => (b, e, 1, opp) end = (b : Z, e : Z, st, opp : bool)).
    { intros. unfold st in *. destruct s; [|reflexivity]. rewrite u64_id by lia. reflexivity. }
    destruct (l <? f) eqn:LF.
    + apply Z.ltb_lt in LF. rewrite ES. clear PLAIN. unfold apply_item. rewrite (proj2 (Z.ltb_ge l mn)) by lia. rewrite (proj2 (Z.ltb_ge mx f)) by lia. cbn [andb].
      destruct (set_bits_ok (bits_fuel m) m f mx st) as (m1 & bit & E & L1 & BM & B0 & H1); try lia.
      { unfold bits_fuel. lia. }
      rewrite E. cbn [rbind]. replace (st =? 0) with false by (symmetry; apply Z.eqb_neq; lia). rewrite BM. pose proof (Z.mod_pos_bound f st ltac:(lia)) as FM. rewrite u64_id by lia.
      destruct (set_bits_ok (bits_fuel m1) m1 (f mod st + mn) l st) as (m2 & bit2 & E2 & L2 & _ & _ & H2); try lia.
      { unfold bits_fuel. lia. }
      rewrite E2. cbn [rbind fst]. exists m2. split; [reflexivity|]. split; [lia|]. intros p P. rewrite H2, H1 by auto. rewrite !orb_true_iff, !andb_true_iff, !Z.leb_le, !Z.eqb_eq.
      unfold denotes, first_of, last_of, step_of. cbn [it_head it_to it_step]. fold f. fold st. fold l. cbv zeta. rewrite (mod_near2 (l - f)) by lia.
      destruct (G3 LF) as (k & K).
      assert (CONG : forall q, (q - f + (mx - mn + 1)) mod st = (q - (f mod st + mn)) mod st).
      { intros q. pose proof (Z.div_mod f st ltac:(lia)) as DM. replace (q - f + (mx - mn + 1)) with (q - (f mod st + mn) + (k - f / st) * st) by nia. now rewrite Z.mod_add by lia. }
      rewrite or_assoc. apply or_iff_compat_l. split.
      * intros [((A & B) & C)|((A & B) & C)]; [rewrite (mod_near (p - f)) by lia; auto with zarith|].
        rewrite (mod_near2 (p - f)) by lia. rewrite CONG. split; [lia|]. split; [exact C|lia].
      * intros (A & B & C). destruct (Z_lt_le_dec p f).
        -- rewrite (mod_near2 (p - f)) in B, C by lia. rewrite CONG in B. right. split; [split; [|lia]|exact B].
           assert (X : (p - mn - f mod st) mod st = 0) by (rewrite <- B; f_equal; lia). pose proof (mod_eq_mod (p - mn) (f mod st) st ltac:(lia) X) as Y.
           rewrite Z.mod_mod in Y by lia. pose proof (Z.mod_le (p - mn) st ltac:(lia) ltac:(lia)). lia.
        -- rewrite (mod_near (p - f)) in B by lia. left. lia.
    + apply Z.ltb_ge in LF. rewrite ES. apply (PLAIN l); try lia; rewrite (proj2 (Z.ltb_ge mx l)) by lia; reflexivity.
  - destruct s as [ds|].
    + rewrite (u64_id (number ds)) by (unfold st in *; lia). apply (PLAIN mx); [lia| |rewrite Z.eqb_refl; apply andb_false_r|destruct h; reflexivity|lia].
      unfold size_max. rewrite (proj2 (Z.ltb_lt _ _)) by lia. reflexivity.
    + destruct h as [|dh].
      * apply (PLAIN mx); try lia; rewrite Z.ltb_irrefl; reflexivity.
      * rewrite (u64_id (number dh)) by (unfold f in *; lia). apply (PLAIN (number dh)); try (unfold f in *; lia); unfold f in *; rewrite (proj2 (Z.ltb_ge mx (number dh))) by lia; reflexivity.
Qed.

(** ** Totality *)

Lemma set_bits_down : forall fuel m b last step, last < step < 2 ^ 64 -> 0 <= b < 2 ^ 64 -> last < 8 * Z.of_nat (length m) -> b < Z.of_nat fuel \/ last < b ->
  exists m' bit, set_bits fuel m b last step = Ok (m', bit) /\ length m' = length m.
Proof.
  induction fuel; intros m b last step S B L F; cbn [set_bits].
  - destruct (b <=? last) eqn:BL; [apply Z.leb_le in BL; lia|eauto].
  - destruct (b <=? last) eqn:BL; [|eauto]. apply Z.leb_le in BL. destruct (bit_set_total m b) as (m1 & E & L1); try lia. rewrite E. cbn [rbind].
    assert (P64 : 2 ^ 64 = 18446744073709551616) by reflexivity.
    destruct (IHfuel m1 (u64 (b + step)) last step) as (m' & bit & R & L2); try lia.
    + unfold u64. rewrite P64. apply Z.mod_pos_bound. lia.
    + destruct (Z_lt_le_dec (b + step) (2 ^ 64)); [rewrite u64_id by lia; lia|]. left. unfold u64.
      replace (b + step) with (b + step - 2 ^ 64 + 1 * 2 ^ 64) by lia. rewrite P64. rewrite Z.mod_add by lia. rewrite Z.mod_small by lia. lia.
    + exists m', bit. split; [exact R|lia].
Qed.
Lemma set_bits_total fuel m b last step : 1 <= step < 2 ^ 64 -> 0 <= b < 2 ^ 64 -> last < 8 * Z.of_nat (length m) -> last + 1 < Z.of_nat fuel -> last < 2 ^ 63 ->
  exists m' bit, set_bits fuel m b last step = Ok (m', bit) /\ length m' = length m /\ 0 <= bit.
Proof.
  intros S B L F LA. assert (P64 : 2 ^ 64 = 18446744073709551616) by reflexivity. assert (P63 : 2 ^ 63 = 9223372036854775808) by reflexivity.
  assert (NN : forall f m b m' bit, 0 <= b -> set_bits f m b last step = Ok (m', bit) -> 0 <= bit).
  { clear -P64. induction f; intros m b m' bit B H; cbn [set_bits] in H; destruct (b <=? last); try discriminate; try (injection H as _ <-; exact B).
    apply rbind_ok in H as (m1 & _ & H). apply IHf in H; [exact H|]. unfold u64. apply Z.mod_pos_bound. lia. }
  destruct (Z_lt_le_dec (last + step) (2 ^ 64)).
  - destruct (set_bits_ok fuel m b last step) as (m' & bit & R & L2 & _ & B2 & _); try lia. eauto.
  - destruct (set_bits_down fuel m b last step) as (m' & bit & R & L2); try lia. exists m', bit. split; [exact R|]. split; [exact L2|]. eapply NN; eauto; lia.
Qed.
Lemma set_bits_zero : forall fuel m b last, 0 <= b <= last -> b < 2 ^ 64 -> last < 8 * Z.of_nat (length m) -> set_bits fuel m b last 0 = NoFuel.
Proof.
  induction fuel; intros m b last B B1 L; cbn [set_bits]; rewrite (proj2 (Z.leb_le b last)) by lia; [reflexivity|].
  destruct (bit_set_total m b) as (m1 & E & L1); try lia. rewrite E. cbn [rbind]. rewrite Z.add_0_r, u64_id by lia. apply IHfuel; lia.
Qed.
Lemma apply_total m mn mx b e st opp : 0 <= mn <= mx -> mx < 2 ^ 63 -> mx < 8 * Z.of_nat (length m) -> 0 <= b < 2 ^ 64 -> 0 <= e < 2 ^ 64 -> 0 <= st < 2 ^ 64 -> (opp = true -> b <= e /\ e <> size_max) ->
  (exists r m', apply_item m mn mx b e st opp = Ok (r, m') /\ length m' = length m) \/ (apply_item m mn mx b e st opp = NoFuel /\ st = 0).
Proof.
  intros MM MX ML B E ST OP. assert (P64 : 2 ^ 64 = 18446744073709551616) by reflexivity. assert (P63 : 2 ^ 63 = 9223372036854775808) by reflexivity.
  unfold apply_item. destruct (b <? mn) eqn:BM; [eauto 6|]. apply Z.ltb_ge in BM. destruct ((mx <? e) && negb (e =? size_max)) eqn:CK; [eauto 6|].
  set (e' := if mx <? e then mx else e). assert (E' : 0 <= e' <= mx) by (unfold e'; destruct (mx <? e) eqn:K; lia).
  assert (BF : forall m : list Z, Z.of_nat (bits_fuel m) = 8 * Z.of_nat (length m) + 2) by (intros; unfold bits_fuel; lia). pose proof (BF m) as BF0.
  destruct (Z.eq_dec st 0) as [->|NZ].
  - destruct opp.
    + rewrite set_bits_zero by lia. right. split; reflexivity.
    + destruct (Z_le_gt_dec b e').
      * rewrite set_bits_zero by lia. right. split; reflexivity.
      * left. replace (set_bits (bits_fuel m) m b e' 0) with (Ok (m, b)); [cbn; eauto|].
        destruct (bits_fuel m); cbn [set_bits]; rewrite (proj2 (Z.leb_gt b e')) by lia; reflexivity.
  - left. destruct opp.
    + destruct (set_bits_total (bits_fuel m) m e' mx st) as (m1 & bit & R & L1 & B0); try lia. rewrite R. cbn [rbind]. replace (st =? 0) with false by (symmetry; apply Z.eqb_neq; lia).
      assert (0 <= u64 (bit mod st + mn) < 2 ^ 64) by (unfold u64; rewrite P64; apply Z.mod_pos_bound; lia).
      assert (b <= mx).
      { destruct (OP eq_refl) as [O1 O2]. destruct (Z.ltb_spec mx e); cbn [andb] in CK; [|lia]. apply negb_false_iff, Z.eqb_eq in CK. contradiction. }
      pose proof (BF m1) as BF1. destruct (set_bits_total (bits_fuel m1) m1 (u64 (bit mod st + mn)) b st) as (m2 & bit2 & R2 & L2 & _); try lia. rewrite R2. cbn. eexists _, m2. split; [reflexivity|lia].
    + destruct (set_bits_total (bits_fuel m) m b e' st) as (m1 & bit & R & L1 & B0); try lia. rewrite R. cbn. eauto.
Qed.

(** ** A whole field *)

Fixpoint run_items (m : list Z) (mn mx : Z) (its : list item) : res (lwdtcr * list Z) :=
  match its with
  | [] => Ok (L_OK, m)
  | it :: t =>
      let '(b, e, st, opp) := read_item mn mx it in
      let? x := apply_item m mn mx b e st opp in
      let (r, m') := x in if lok r then run_items m' mn mx t else Ok (r, m')
  end.
Lemma item_text_ne it : well_formed it -> item_text it <> [].
Proof. intros (W & _) E. unfold item_text in E. apply app_eq_nil in E as [E _]. destruct (it_head it) eqn:H; [discriminate|]. destruct (W _ eq_refl) as [NE _]. contradiction. Qed.
Lemma field_text_cons it its : its <> [] -> field_text (it :: its) = item_text it ++ 44 :: field_text its.
Proof. destruct its; [contradiction|reflexivity]. Qed.
Lemma field_text_ne its : its <> [] -> Forall well_formed its -> field_text its <> [].
Proof.
  intros NE F. destruct its as [|it [|i2 t]]; [contradiction|inversion F; now apply item_text_ne|].
  rewrite field_text_cons by discriminate. intros E. apply app_eq_nil in E as [_ E]. discriminate.
Qed.
Lemma lok_ok r : lok r = true -> r = L_OK. Proof. destruct r; simpl; congruence. Qed.

Lemma items_at rest mn mx : ends_field rest -> forall its fuel m p, its <> [] -> Forall well_formed its -> (length its <= fuel)%nat ->
  parse_items fuel m (p ++ field_text its ++ rest) (length (p ++ field_text its)) (length p) mn mx = run_items m mn mx its.
Proof.
  intros RE. induction its as [|it t IH]; intros fuel m p NE F L; [contradiction|]. inversion F as [|? ? W F']; subst. destruct fuel as [|fuel]; [simpl in L; lia|].
  assert (FN : field_text (it :: t) <> []) by (apply field_text_ne; auto).
  cbn [parse_items run_items].
  assert (LT : (length p <? length (p ++ field_text (it :: t)))%nat = true).
  { apply Nat.ltb_lt. rewrite app_length. destruct (field_text (it :: t)); [contradiction|simpl; lia]. }
  rewrite LT. rewrite (item_at _ rest _ RE p (field_text (it :: t)) mn mx eq_refl eq_refl FN).
  destruct t as [|i2 t].
  - cbn [field_text]. rewrite <- (app_nil_r (item_text it)) at 1. rewrite item_reads by (auto; exact I). destruct (read_item mn mx it) as [[[b e] st] opp].
    cbn [length]. rewrite Nat.sub_0_r. rewrite Nat.eqb_refl. destruct (apply_item m mn mx b e st opp) as [[r m']| |]; [|reflexivity|reflexivity]. cbn [rbind].
    destruct (lok r) eqn:LK; reflexivity.
  - set (t' := i2 :: t) in *. assert (N2 : t' <> []) by discriminate. rewrite (field_text_cons it t' N2). rewrite item_reads by (auto; reflexivity).
    destruct (read_item mn mx it) as [[[b e] st] opp]. destruct (apply_item m mn mx b e st opp) as [[r m']| |]; [|reflexivity|reflexivity]. cbn [rbind].
    destruct (lok r); [|reflexivity].
    assert (LE : (length (p ++ item_text it ++ 44%Z :: field_text t') - length (44%Z :: field_text t') = length (p ++ item_text it))%nat).
    { rewrite !app_length. simpl. lia. }
    rewrite LE. replace (_ =? _)%nat with false by (symmetry; apply Nat.eqb_neq; rewrite !app_length; simpl; lia).
    rewrite (chr_at _ rest RE (p ++ item_text it) (44 :: field_text t')) by (now rewrite <- !app_assoc). change (44 =? c_comma) with true. cbv iota.
    specialize (IH fuel m' (p ++ item_text it ++ [44]) N2 F' ltac:(simpl in *; lia)). rewrite <- IH. f_equal; rewrite <- ?app_assoc; cbn [app]; rewrite <- ?app_assoc; try reflexivity.
    rewrite !app_length. simpl. lia.
Qed.

Lemma skip_blanks sp s : blanks sp -> skip_spaces (sp ++ s) = skip_spaces s.
Proof. intros B. induction B; [reflexivity|]. subst. cbn [app skip_spaces]. change (32 =? c_space) with true. exact IHB. Qed.
Lemma no_space it : well_formed it -> Forall (fun c => c <> 32) (item_text it).
Proof.
  intros (W1 & W2 & W3). unfold item_text.
  assert (D : forall ds, numeral ds -> Forall (fun c => c <> 32) ds) by (intros ds [_ F]; eapply Forall_impl; [|exact F]; unfold digit; intros; simpl; lia).
  repeat (apply Forall_app; split).
  - destruct (it_head it); [repeat constructor; lia|]. apply D. auto.
  - destruct (it_to it); [constructor; [lia|apply D; auto]|constructor].
  - destruct (it_step it); [constructor; [lia|apply D; auto]|constructor].
Qed.
Lemma no_space_field its : Forall well_formed its -> Forall (fun c => c <> 32) (field_text its).
Proof.
  intros F. induction F as [|it t W F IH]; [constructor|]. destruct t; [now apply no_space|]. rewrite field_text_cons by discriminate.
  apply Forall_app. split; [now apply no_space|]. constructor; [lia|exact IH].
Qed.
Lemma token_len_app u rest : Forall (fun c => c <> 32) u -> ends_field rest -> token_len (u ++ rest) = length u.
Proof.
  intros F RE. induction F as [|c u N F IH]; [|cbn [app token_len]; replace (c =? c_space) with false by (symmetry; now apply Z.eqb_neq); simpl; now rewrite IH].
  cbn [app length]. destruct rest as [|c r]; [reflexivity|]. simpl in RE. subst c. reflexivity.
Qed.
Lemma skip_none u : u <> [] -> Forall (fun c => c <> 32) u -> forall rest, skip_spaces (u ++ rest) = u ++ rest.
Proof. intros NE F rest. destruct F as [|c u N F]; [contradiction|]. cbn [app skip_spaces]. replace (c =? c_space) with false by (symmetry; now apply Z.eqb_neq). reflexivity. Qed.
Lemma text_length its : Forall well_formed its -> (length its <= S (length (field_text its)))%nat.
Proof.
  intros F. induction F as [|it t W F IH]; [simpl; lia|]. destruct t; [simpl; lia|]. rewrite field_text_cons by discriminate. rewrite app_length. cbn [length].
  cbn [length] in IH. lia.
Qed.
Lemma field_run m mn mx sp its rest : blanks sp -> ends_field rest -> its <> [] -> Forall well_formed its ->
  parse_field m mn mx (sp ++ field_text its ++ rest) = let? x := run_items m mn mx its in let (r, m') := x in Ok (r, m', rest).
Proof.
  intros B RE NE F. unfold parse_field, next_token. pose proof (field_text_ne its NE F) as FN. pose proof (no_space_field its F) as NS.
  rewrite skip_blanks, skip_none by auto. destruct (field_text its ++ rest) as [|c l] eqn:EQ; [destruct (field_text its); [contradiction|discriminate]|].
  rewrite <- EQ. rewrite token_len_app by auto. rewrite skipn_app, skipn_all, Nat.sub_diag. cbn [skipn app].
  pose proof (items_at rest mn mx RE its (S (length (field_text its))) m [] NE F (text_length its F)) as IA. cbn [app length] in IA. rewrite IA. reflexivity.
Qed.

Lemma run_ok mn mx : 0 <= mn <= mx -> mx < 2 ^ 63 -> forall its m, mx < 8 * Z.of_nat (length m) ->
  Forall (fun it => well_formed it /\ in_range mn mx it /\ good_step mn mx it) its ->
  exists m', run_items m mn mx its = Ok (L_OK, m') /\ length m' = length m /\ forall p, 0 <= p -> bit_on m' p = true <-> bit_on m p = true \/ field_has mn mx its p.
Proof.
  intros MM MX. induction its as [|it t IH]; intros m ML F.
  - exists m. split; [reflexivity|]. split; [reflexivity|]. intros p P. unfold field_has. split; [auto|]. intros [H|(it & [] & _)]; exact H.
  - inversion F as [|? ? (W & R & G) F']; subst. pose proof (apply_ok m mn mx it MM MX ML W R G) as A. cbn [run_items]. destruct (read_item mn mx it) as [[[b e] st] opp].
    destruct A as (m1 & E & L1 & H1). rewrite E. cbn [rbind lok]. destruct (IH m1) as (m' & E2 & L2 & H2); [lia|exact F'|].
    exists m'. split; [exact E2|]. split; [lia|]. intros p P. rewrite H2, H1 by exact P. unfold field_has. split.
    + intros [[H|H]|(i & I & D)]; [auto|right; exists it; split; [now left|exact H]|right; exists i; split; [now right|exact D]].
    + intros [H|(i & [<-|I] & D)]; [auto|auto|right; eauto].
Qed.

Definition bad_item (r : res (lwdtcr * list Z)) (it : item) : Prop := (r = NoFuel /\ zero_step it) \/ (r <> NoFuel /\ huge_range it).
Lemma u64_mod x : u64 x = x mod 2 ^ 64. Proof. reflexivity. Qed.
Lemma read_bounds mn mx it : 0 <= mn <= mx -> mx < 2 ^ 63 -> let '(b, e, st, opp) := read_item mn mx it in
  0 <= b < 2 ^ 64 /\ 0 <= e < 2 ^ 64 /\ 0 <= st < 2 ^ 64 /\ (opp = true -> b <= e) /\ (opp = true -> e = size_max -> huge_range it) /\ (st = 0 -> zero_step it).
Proof.
  intros MM MX. assert (P64 : 2 ^ 64 = 18446744073709551616) by reflexivity. assert (P63 : 2 ^ 63 = 9223372036854775808) by reflexivity.
  assert (U : forall x, 0 <= u64 x < 2 ^ 64) by (intros; rewrite u64_mod; apply Z.mod_pos_bound; lia).
  assert (SM : 0 <= size_max < 2 ^ 64) by (unfold size_max; lia). assert (SE : size_max = 2 ^ 64 - 1) by reflexivity.
  unfold read_item, read_range. destruct it as [h t s]. cbn [it_head it_to it_step].
  assert (ZS : forall ds, s = Some ds -> u64 (number ds) = 0 -> zero_step (mk_item h t s)) by (intros ds -> K; exists ds; cbn; split; [reflexivity|exact K]).
  assert (HR : forall d dt, h = From d -> t = Some dt -> u64 (number d) = size_max -> huge_range (mk_item h t s)) by (intros d dt -> -> K; exists d, dt; cbn; split; [reflexivity|split; [reflexivity|exact (eq_trans K SE)]]).
  destruct h as [|d]; destruct t as [dt|]; cbv zeta; try match goal with |- context [if ?x <? ?y then _ else _] => destruct (x <? y) eqn:LT end;
    destruct s as [ds|]; repeat match goal with |- _ /\ _ => split end; intros; try discriminate; try (apply Z.ltb_lt in LT; lia); try (pose proof (U (number dt)); lia); try (pose proof (U (number ds)); lia);
    try (pose proof (U (number d)); lia); try lia; eauto.
Qed.

Lemma apply_outcome m mn mx it : 0 <= mn <= mx -> mx < 2 ^ 63 -> mx < 8 * Z.of_nat (length m) ->
  let '(b, e, st, opp) := read_item mn mx it in
  (exists r m', apply_item m mn mx b e st opp = Ok (r, m') /\ length m' = length m) \/ (apply_item m mn mx b e st opp = NoFuel /\ zero_step it) \/ huge_range it.
Proof.
  intros MM MX ML. pose proof (read_bounds mn mx it MM MX) as B. destruct (read_item mn mx it) as [[[b e] st] opp]. destruct B as (B1 & B2 & B3 & B4 & B5 & B6).
  destruct opp.
  - destruct (Z.eq_dec e size_max) as [->|NE]; [auto|]. destruct (apply_total m mn mx b e st true MM MX ML B1 B2 B3) as [H|[H Z]]; auto.
  - destruct (apply_total m mn mx b e st false MM MX ML B1 B2 B3) as [H|[H Z]]; auto. discriminate.
Qed.

Lemma item_err u mn mx r : item_l u mn mx = inl r -> r <> L_OK.
Proof.
  unfold item_l, range_l. destruct (head_l u mn mx) as [[[b e] t]|]; [|intros H; injection H as <-; discriminate].
  assert (S : forall b e opp isr t, step_l b e opp isr t = inl r -> r <> L_OK).
  { intros ? ? ? ? [|c t0]; unfold step_l; [discriminate|]. destruct (c =? c_slash); [|discriminate]. destruct (num_l t0) as [[? ?]|]; [discriminate|]. intros H; injection H as <-; discriminate. }
  destruct t as [|c t]; [apply S|]. destruct (c =? c_minus); [|apply S]. destruct t as [|c2 t]; [intros H; injection H as <-; discriminate|].
  destruct (num_l (c2 :: t)) as [[v t2]|]; [|intros H; injection H as <-; discriminate]. destruct (v <? b); apply S.
Qed.
Lemma items_all rest mn mx : ends_field rest -> 0 <= mn <= mx -> mx < 2 ^ 63 -> forall fuel u m p, (length u < fuel)%nat -> mx < 8 * Z.of_nat (length m) ->
  let R := parse_items fuel m (p ++ u ++ rest) (length (p ++ u)) (length p) mn mx in
  (exists r m', R = Ok (r, m') /\ length m' = length m
     /\ (r = L_OK -> exists its, its <> [] /\ Forall well_formed its /\ u = field_text its /\ run_items m mn mx its = Ok (L_OK, m')))
  \/ (exists pre it post, u = pre ++ item_text it ++ post /\ well_formed it /\ (pre = [] \/ exists q, pre = q ++ [44]) /\ (forall c t, post = c :: t -> it_step it <> None -> ~ digit c)
        /\ ((R = NoFuel /\ zero_step it) \/ huge_range it)).
Proof.
  intros RE MM MX. induction fuel as [|fuel IH]; intros u m p L ML; [lia|]. cbn [parse_items]. cbv zeta.
  destruct (length p <? length (p ++ u))%nat eqn:LT.
  2: { left. exists L_ERR, m. split; [reflexivity|]. split; [reflexivity|discriminate]. }
  assert (UN : u <> []) by (intros ->; rewrite app_nil_r in LT; apply Nat.ltb_lt in LT; lia).
  rewrite (item_at _ rest _ RE p u mn mx eq_refl eq_refl UN). destruct (item_l u mn mx) as [r|[[[[b e] st] opp] u']] eqn:IL.
  { left. exists r, m. split; [reflexivity|]. split; [reflexivity|]. intros ->. now apply item_err in IL. }
  apply item_sound in IL as (it & W & EU & RI & NO). pose proof (apply_outcome m mn mx it MM MX ML) as A. rewrite <- RI in A.
  assert (CUL : forall c t, u' = c :: t -> it_step it <> None -> ~ digit c) by (intros c t -> K; specialize (NO K); exact NO).
  assert (TN : (0 < length (item_text it))%nat) by (pose proof (item_text_ne it W); destruct (item_text it); [contradiction|simpl; lia]).
  destruct A as [(r & m1 & E & L1)|[[E Z]|H]].
  2: { right. exists [], it, u'. rewrite E. cbn [rbind app]. auto 8. }
  2: { right. exists [], it, u'. cbn [app]. auto 8. }
  rewrite E. cbn [rbind]. destruct (lok r) eqn:LK.
  2: { left. exists r, m1. split; [reflexivity|]. split; [exact L1|]. intros ->. discriminate. }
  apply lok_ok in LK. subst r. assert (RUN1 : forall t, run_items m mn mx (it :: t) = run_items m1 mn mx t).
  { intros t. cbn [run_items]. rewrite <- RI, E. reflexivity. }
  destruct u' as [|c u2].
  - cbn [length]. rewrite Nat.sub_0_r, Nat.eqb_refl. left. exists L_OK, m1. split; [reflexivity|]. split; [exact L1|]. intros _. exists [it]. rewrite app_nil_r in EU.
    split; [discriminate|]. split; [auto|]. split; [exact EU|]. rewrite RUN1. reflexivity.
  - assert (LE : (length (p ++ u) - length (c :: u2) = length (p ++ item_text it))%nat) by (rewrite EU, !app_length; simpl; lia).
    rewrite LE. replace (_ =? _)%nat with false by (symmetry; apply Nat.eqb_neq; rewrite EU, !app_length; simpl; lia).
    assert (TK : p ++ u ++ rest = (p ++ item_text it) ++ (c :: u2) ++ rest) by (rewrite EU, <- !app_assoc; reflexivity).
    rewrite (chr_at _ rest RE (p ++ item_text it) (c :: u2) TK). destruct (c =? c_comma) eqn:CC.
    2: { left. exists L_ERRTOKEN, m1. split; [reflexivity|]. split; [exact L1|discriminate]. }
    apply Z.eqb_eq in CC. subst c. change c_comma with 44 in *.
    assert (LU : (length u = length (item_text it) + S (length u2))%nat) by (rewrite EU, app_length; reflexivity).
    specialize (IH u2 m1 (p ++ item_text it ++ [44]) ltac:(lia) ltac:(lia)). cbv zeta in IH.
    assert (Q1 : (p ++ item_text it ++ [44]) ++ u2 ++ rest = p ++ u ++ rest) by (rewrite EU, <- !app_assoc; reflexivity).
    assert (Q2 : length ((p ++ item_text it ++ [44]) ++ u2) = length (p ++ u)) by (rewrite EU, <- !app_assoc; reflexivity).
    assert (Q3 : length (p ++ item_text it ++ [44]) = S (length (p ++ item_text it))) by (rewrite !app_length; simpl; lia).
    rewrite Q1, Q2, Q3 in IH. destruct IH as [(r & m' & E2 & L2 & OK)|(pre & i2 & post & E2 & W2 & PR & CU & B)].
    + left. exists r, m'. split; [exact E2|]. split; [lia|]. intros ->. destruct (OK eq_refl) as (its & NE & F & T & RUN). exists (it :: its).
      split; [discriminate|]. split; [auto|]. split; [rewrite field_text_cons, <- T by exact NE; exact EU|]. rewrite RUN1. exact RUN.
    + right. exists (item_text it ++ 44 :: pre), i2, post. split; [rewrite EU, E2, <- app_assoc; reflexivity|]. split; [exact W2|]. split; [|auto].
      right. destruct PR as [->|(q & ->)]; [exists (item_text it); reflexivity|]. exists (item_text it ++ 44 :: q). now rewrite <- app_assoc.
Qed.

Lemma skip_split s : exists sp, blanks sp /\ s = sp ++ skip_spaces s.
Proof.
  induction s as [|c s (sp & B & E)]; [exists []; split; [constructor|reflexivity]|]. cbn [skip_spaces]. destruct (c =? c_space) eqn:C.
  - apply Z.eqb_eq in C. exists (c :: sp). split; [constructor; auto|]. cbn [app]. congruence.
  - exists []. split; [constructor|reflexivity].
Qed.
Lemma token_split s : ends_field (skipn (token_len s) s) /\ (token_len s <= length s)%nat.
Proof.
  induction s as [|c s [H L]]; [split; simpl; auto|]. cbn [token_len]. destruct (c =? c_space) eqn:C; [apply Z.eqb_eq in C; split; simpl; [exact C|lia]|]. cbn [skipn length]. split; [exact H|lia].
Qed.
Lemma snoc_end (c : Z) (l : list Z) : l <> [] -> Forall (fun x => x = c) l -> exists q, l = q ++ [c].
Proof. intros NE F. destruct (exists_last NE) as (q & x & E). exists q. rewrite E in F |- *. apply Forall_app in F as [_ F]. inversion F; subst. reflexivity. Qed.

Lemma field_all m mn mx s : 0 <= mn <= mx -> mx < 2 ^ 63 -> mx < 8 * Z.of_nat (length m) ->
  (exists r m' rest, parse_field m mn mx s = Ok (r, m', rest) /\ length m' = length m /\ (exists u, s = u ++ rest)
     /\ (r = L_OK -> exists sp its, blanks sp /\ ends_field rest /\ its <> [] /\ Forall well_formed its /\ s = sp ++ field_text its ++ rest /\ run_items m mn mx its = Ok (L_OK, m')))
  \/ (parse_field m mn mx s = NoFuel /\ has_item zero_step s) \/ has_item huge_range s.
Proof.
  intros MM MX ML. unfold parse_field, next_token. destruct (skip_split s) as (sp & B & E). destruct (skip_spaces s) as [|c t] eqn:SK.
  { left. exists L_ERR, m, s. split; [reflexivity|]. split; [reflexivity|]. split; [exists []; reflexivity|discriminate]. }
  set (w := c :: t) in *. destruct (token_split w) as [EF LW]. set (n := token_len w) in *.
  assert (WS : w = firstn n w ++ skipn n w) by (symmetry; apply firstn_skipn).
  assert (LF : length (firstn n w) = n) by (rewrite firstn_length; lia).
  pose proof (items_all (skipn n w) mn mx EF MM MX (S n) (firstn n w) m [] ltac:(lia) ML) as IA. cbn [app length] in IA. cbv zeta in IA. rewrite <- WS, LF in IA.
  destruct IA as [(r & m' & R & L & OK)|(pre & it & post & EU & W & PR & CU & BAD)].
  - left. rewrite R. cbn [rbind]. exists r, m', (skipn n w). split; [reflexivity|]. split; [exact L|]. split; [exists (sp ++ firstn n w); rewrite <- app_assoc, <- WS; exact E|].
    intros ->. destruct (OK eq_refl) as (its & NE & F & T & RUN). exists sp, its. repeat (split; [assumption|]). split; [rewrite <- T, <- WS; exact E|exact RUN].
  - right. assert (HI : forall P : item -> Prop, P it -> has_item P s).
    { intros P PI. exists (sp ++ pre), it, (post ++ skipn n w). split; [rewrite E at 1; rewrite WS at 1; rewrite EU, <- !app_assoc; reflexivity|]. split; [exact W|]. split; [exact PI|]. split.
      - destruct PR as [->|(q & ->)]; [|right; exists (sp ++ q), 44; split; [now rewrite app_assoc|auto]]. rewrite app_nil_r.
        destruct sp as [|x sp]; [auto|]. right. destruct (snoc_end 32 (x :: sp)) as (q & ->); [discriminate|exact B|]. exists q, 32. auto.
      - intros c' t' Q K. destruct post as [|y post]; [cbn [app] in Q|injection Q as -> _; eapply CU; eauto]. rewrite Q in EF. simpl in EF. subst c'. unfold digit. lia. }
    destruct BAD as [[R Z]|H]; [left|right; apply HI; exact H]. rewrite R. cbn [rbind]. split; [reflexivity|apply HI; exact Z].
Qed.
