(** What the cron jobs do to the M registers, exactly. *)
From Verif Require Export ScanFrame.

Lemma rbind_ok {A B} (r : res A) (k : A -> res B) b : rbind r k = Ok b -> exists a, r = Ok a /\ k a = Ok b.
Proof. destruct r; simpl; intros H; try discriminate. eauto. Qed.
Lemma wpr_both {A} U (r : res A) (P Q : A -> Prop) : wpr U r P -> (forall a, r = Ok a -> Q a) -> wpr U r (fun a => P a /\ Q a).
Proof. unfold wpr. destruct r; auto. Qed.
Lemma flag_put z v c a y : 0 <= z -> elem (bank_arr B_M c) (ix z) = Some a ->
  flag_of (put_reg B_M (ix z) v c) y = if z =? y then Some v else flag_of c y.
Proof.
  intros N X. unfold flag_of. destruct (Z.eqb_spec z y) as [<-|NE].
  - rewrite (proj2 (Z.leb_le 0 z) N). now rewrite (put_reg_here B_M (ix z) v c a X).
  - destruct (Z.leb_spec 0 y); auto. rewrite put_reg_frame; auto. unfold ix. intros K. injection K as K. lia.
Qed.
Lemma testbit_land b k : 0 <= k -> negb (Z.land b (Z.shiftl 1 k) =? 0) = Z.testbit b k.
Proof.
  intros N. rewrite Z.shiftl_1_l. destruct (Z.testbit b k) eqn:T.
  - apply negb_true_iff, Z.eqb_neq. intros K. assert (Z.testbit (Z.land b (2 ^ k)) k = true) by (rewrite Z.land_spec, T, Z.pow2_bits_true; auto).
    rewrite K, Z.bits_0 in H. discriminate.
  - apply negb_false_iff, Z.eqb_eq. apply Z.bits_inj'. intros n Hn. rewrite Z.land_spec, Z.bits_0.
    destruct (Z.eq_dec n k) as [->|NE]; [now rewrite T|]. rewrite Z.pow2_bits_false by auto. apply andb_false_r.
Qed.
Lemma bit_value m p b : 0 <= p < 2 ^ 32 -> bit_is_set m (u32 p) = Ok b -> bit_on m p = b.
Proof.
  intros R H. unfold bit_is_set in H. apply rbind_ok in H as (x & G & H). injection H as <-.
  unfold u32 in *. rewrite Z.mod_small in * by lia. unfold bit_on. rewrite (proj2 (Z.leb_le 0 p)) by lia.
  change 7 with (Z.ones 3). rewrite Z.land_ones by lia. rewrite testbit_land by (apply Z.mod_pos_bound; lia).
  rewrite Z.shiftr_div_pow2 in G by lia. apply (pget_ok (Some m)) in G as [_ G]. unfold elem, obind, ix in G. change (2 ^ 3) with 8 in *. now rewrite G.
Qed.
Lemma and_bit_ok r k b : and_bit r k = Ok b -> (exists x, r = Ok x /\ if x : bool then k = Ok b else b = false).
Proof. unfold and_bit. intros H. apply rbind_ok in H as (x & R & H). exists x. split; auto. destruct x; congruence. Qed.
Lemma valid_matches t k b : calendar t -> cron_valid t k = Ok b -> matches t k = b.
Proof.
  intros (A & B & C & D & F & G & H) V. unfold cron_valid in V. unfold matches.
  assert (P : 0 < 2 ^ 32) by reflexivity.
  repeat (apply and_bit_ok in V as (x & K & V); apply bit_value in K; [|assert (2 ^ 32 = 4294967296) by reflexivity; lia]; rewrite K; clear K; destruct x; [|now subst b]; rewrite ?andb_true_l).
  apply bit_value in V; auto. assert (2 ^ 32 = 4294967296) by reflexivity; lia.
Qed.

Lemma put_flag_ok z v c c' y : bk_put B_M z v c = Ok c' -> flag_of c' y = if z =? y then Some v else flag_of c y.
Proof.
  intros K. unfold bk_put in K. apply rbind_ok in K as (a & P & K). injection K as <-.
  pose proof (any_pset (arr_of B_M c) z v (fun a' => 0 <= z /\ (exists x, elem (arr_of B_M c) (ix z) = Some x) /\ a' = option_map (fun l => lset l (ix z) v) (arr_of B_M c))) as W.
  rewrite P in W. simpl in W. destruct W as (W1 & (x & W2) & W3); [eauto|]. subst a. exact (flag_put z v c x y W1 W2).
Qed.
Lemma get_flag_ok z c v : bk_get B_M z c = Ok v -> flag_of c z = Some v.
Proof.
  unfold bk_get. intros K. apply pget_ok in K as [N K]. unfold flag_of. rewrite (proj2 (Z.leb_le 0 z) N). unfold peek.
  change (bank_arr B_M c) with (arr_of B_M c). now rewrite K.
Qed.
Lemma skip_step {A} m (js : list A) j : nth_error js m = Some j -> skipn m js = j :: skipn (S m) js.
Proof. revert js. induction m as [|m IH]; intros [|x l] G; simpl in *; try discriminate; [congruence|]. destruct l; [destruct m; discriminate|]. now apply IH. Qed.
Lemma clear_ok js m f c c' : cron_clear f m (Some js) c = Ok c' -> forall y, flag_of c' y = flags_cleared (firstn f (skipn m js)) (flag_of c) y.
Proof.
  unfold flags_cleared. revert m c. induction f as [|f IH]; intros m c H y; simpl in H; [injection H as <-; reflexivity|].
  apply rbind_ok in H as (j & G & H). apply rbind_ok in H as (c1 & K & H). apply (pget_ok (Some js)) in G as [_ G].
  unfold elem, obind, ix in G. rewrite Nat2Z.id in G. rewrite (skip_step _ _ _ G). cbn [firstn existsb]. rewrite (IH _ _ H y). clear IH H.
  destruct (j_en j && j_auto j) eqn:EA.
  - rewrite (put_flag_ok _ _ _ _ y K). simpl. destruct (existsb _ _); [now rewrite orb_true_r|]. now rewrite orb_false_r.
  - injection K as <-. reflexivity.
Qed.
Lemma fold_ext {A B C} (f : (B -> C) -> A -> B -> C) : (forall a g h, (forall y, g y = h y) -> forall y, f g a y = f h a y) ->
  forall l g h, (forall y, g y = h y) -> forall y, fold_left f l g y = fold_left f l h y.
Proof. intros K. induction l as [|a l IH]; intros g h E y; simpl; auto. Qed.
Lemma eval_ok t js m f c c' : calendar t -> cron_jobs_eval f m t (Some js) c = Ok c' ->
  forall y, flag_of c' y = fold_left (fired t) (firstn f (skipn m js)) (flag_of c) y.
Proof.
  intros CA. revert m c. induction f as [|f IH]; intros m c H y; simpl in H; [injection H as <-; reflexivity|].
  apply rbind_ok in H as (j & G & H). apply rbind_ok in H as (c1 & K & H). apply (pget_ok (Some js)) in G as [_ G].
  unfold elem, obind, ix in G. rewrite Nat2Z.id in G. rewrite (skip_step _ _ _ G). cbn [firstn fold_left]. rewrite (IH _ _ H y). clear IH H.
  apply fold_ext; clear y.
  { intros a g h EQ y. unfold fired. destruct (_ && _); auto. }
  intros y. unfold fired. destruct (j_en j); [|injection K as <-; reflexivity]. apply rbind_ok in K as (b & V & K). rewrite (valid_matches t _ b CA V).
  destruct b; [|injection K as <-; reflexivity]. apply rbind_ok in K as (v & G1 & K). rewrite (put_flag_ok _ _ _ _ y K). rewrite (get_flag_ok _ _ _ G1). reflexivity.
Qed.
