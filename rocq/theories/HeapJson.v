(** Loading a program, seen from the allocator. *)
From Coq Require Import Permutation.
From Verif Require Export HeapTree.
From Coq Require Import Lia List.
Import ListNotations.
Open Scope nat_scope.

Lemma wp_json_cell p cs x t R s B d : cell_ok x -> cs = d ++ x :: t -> good s ((p, B_cells (map hc cs)) :: own_cell x ++ R) ->
  wp (json_cell (Some p) (length d)) (fun _ s' => s_g s' = s_g s /\ good s' ((p, B_cells (map hc cs)) :: R)) B s.
Proof.
  intros OK EL K. unfold json_cell.
  assert (NM : nth_error (map hc cs) (length d) = Some (hc x)).
  { rewrite EL, map_app. simpl. rewrite <- (map_length hc d). apply nth_mid. }
  apply wp_bind. eapply wp_get_cell; [exact K|left; reflexivity|exact NM|].
  unfold cell_ok in OK. unfold own_cell in K. simpl. destruct (y_data x) as [[q l]|] eqn:ED; simpl.
  - destruct OK as [LL LP]. apply Nat.ltb_lt in LP. rewrite LP. simpl.
    eapply wp_free_data with (a := q) (l := l) (R := (p, B_cells (map hc cs)) :: R).
    + simpl. rewrite ED. reflexivity.
    + simpl. auto.
    + eapply good_perm; [exact K|]. permt.
    + intros s1 E1 _ K1. split; auto.
  - rewrite andb_false_r. apply wp_ret. split; auto.
Qed.
Lemma wp_json_row b rl r p cs R s B : In (b, B_rows rl) R -> nth_error rl r = Some (Some p) -> Forall cell_ok cs ->
  good s ((p, B_cells (map hc cs)) :: flat_map own_cell cs ++ R) ->
  wp (json_row (Some b) (length cs) r) (fun _ s' => s_g s' = s_g s /\ good s' R) B s.
Proof.
  intros I2 N2 OK K. unfold json_row. apply wp_bind.
  eapply wp_mono; [apply wp_for with (l := cs) (i := 0)
    (Inv := fun d t s' => s_g s' = s_g s /\ good s' ((p, B_cells (map hc cs)) :: flat_map own_cell t ++ R))| |intros u0 Z0; exact Z0].
  - intros d x t s1 EL (E1 & K1). simpl. apply wp_bind. eapply wp_get_row; [exact K1|right; apply in_or_app; right; exact I2|exact N2|].
    eapply wp_mono; [eapply wp_json_cell with (x := x) (cs := cs) (d := d) (t := t) (R := flat_map own_cell t ++ R)| |intros u0 Z0; exact Z0].
    + rewrite Forall_forall in OK; apply OK; rewrite <- EL; apply in_or_app; right; left; auto.
    + auto.
    + eapply good_perm; [exact K1|]. permt.
    + intros u s2 (E2 & K2). split; [congruence|auto].
  - auto.
  - intros u s1 (E1 & K1). simpl in K1. apply wp_bind. eapply wp_get_row; [exact K1|right; exact I2|exact N2|].
    eapply wp_free; [exact K1|]. intros s2 E2 _ K2. split; [congruence|auto].
Qed.
Lemma wp_json_drop n R s : net_ok n -> good s (own_net n ++ R) ->
  wp (json_drop (hn n)) (fun _ s' => s_g s' = s_g s /\ good s' R /\ ~ hollow_t n) (fun u => u = H_null /\ hollow_t n) s.
Proof.
  intros OK K. unfold json_drop. apply wp_bind. unfold net_ok in OK. unfold own_net in K. simpl. destruct (z_cells n) as [[b rs]|] eqn:EC; simpl.
  - destruct OK as [LR OK]. rewrite <- LR.
    eapply wp_mono; [apply wp_for with (l := rs) (i := 0)
      (Inv := fun d t s' => s_g s' = s_g s /\ good s' ((b, B_rows (map hr rs)) :: flat_map own_row t ++ R))| |intros u0 Z0; exact Z0].
    + intros d x t s1 EL (E1 & K1). simpl.
      assert (OX : row_ok (z_cols n) x) by (rewrite Forall_forall in OK; apply OK; rewrite <- EL; apply in_or_app; right; left; auto).
      destruct x as [[p cs]|]; [|destruct OX]. destruct OX as [LC OX]. rewrite <- LC.
      eapply wp_mono; [eapply wp_json_row with (p := p) (R := (b, B_rows (map hr rs)) :: flat_map own_row t ++ R)| |intros u0 Z0; exact Z0].
      * left; reflexivity.
      * rewrite <- EL, map_app. simpl. rewrite <- (map_length hr d). apply nth_mid.
      * exact OX.
      * eapply good_perm; [exact K1|]. permt.
      * intros u s2 (E2 & K2). split; [congruence|]. exact K2.
    + split; auto.
    + intros u s1 (E1 & K1). simpl in K1. eapply wp_free; [exact K1|]. intros s2 E2 _ K2. split; [congruence|]. split; auto.
      intros [_ Z]. congruence.
  - simpl in K. destruct (z_rows n) as [|rr] eqn:ER; simpl.
    + apply wp_ret. apply wp_free_null. split; auto. split; auto. intros [Z _]. lia.
    + apply wp_bind. unfold json_row. apply wp_bind. destruct (z_cols n) as [|cc]; simpl.
      * apply wp_ret. apply wp_bind. red. simpl. split; auto. split; [lia|auto].
      * apply wp_bind, wp_bind. red. simpl. split; auto. split; [lia|auto].
Qed.

Section Grant.
Variable G : nat -> bool.

(** The operands of one cell. *)
Lemma wp_json_values q vs R s B : good s ((q, B_data (repeat V_other (length vs))) :: R) ->
  wp (hwhile (length vs) 0 (json_value G (Some q) vs))
     (fun _ s' => s_g s' = s_g s /\ exists o, length o = length vs /\ good s' ((q, B_data o) :: flat_map own_val o ++ R)) B s.
Proof.
  intro K.
  eapply wp_mono; [apply wp_while with (l := vs) (i := 0)
    (Inv := fun d t s' => s_g s' = s_g s /\ exists o, length o = length d
       /\ good s' ((q, B_data (o ++ repeat V_other (length t))) :: flat_map own_val o ++ R))
    (St := fun s' => s_g s' = s_g s /\ exists o, length o = length vs /\ good s' ((q, B_data o) :: flat_map own_val o ++ R))| |intros u0 Z0; exact Z0].
  - intros d v t s1 EL (E1 & o & LO & K1). simpl. cbn [length] in K1.
    assert (LT : length (o ++ repeat V_other (S (length t))) = length vs).
    { rewrite app_length, repeat_length, <- EL, app_length. simpl. lia. }
    assert (OW : flat_map own_val (repeat V_other (S (length t))) = []).
    { clear. induction (S (length t)); simpl; auto. }
    assert (ST : s_g s1 = s_g s /\ (exists o, length o = length vs /\ good s1 ((q, B_data o) :: flat_map own_val o ++ R))).
    { split; auto. eexists. split; [exact LT|]. rewrite flat_map_app, OW, app_nil_r. exact K1. }
    unfold json_value. apply wp_bind. eapply wp_nth; [rewrite <- EL; apply nth_mid|]. destruct v.
    + apply wp_ret. exact ST.
    + apply wp_bind. eapply wp_alloc; [exact K1| |].
      * intros s2 E2 _ _ K2. apply wp_bind. eapply wp_load; [exact K2|right; left; reflexivity|]. apply wp_bind, wp_ret.
        apply wp_bind. eapply wp_nth; [simpl; rewrite <- LO; apply nth_mid|]. apply wp_bind.
        eapply wp_store with (b := B_data (o ++ repeat V_other (S (length t)))) (L := (s_n s1, B_any) :: flat_map own_val o ++ R).
        { eapply good_perm; [exact K2|]. permt. }
        intros s3 E3 _ K3. apply wp_ret. simpl. split; [congruence|]. exists (o ++ [V_str (Some (s_n s1))]). rewrite !app_length. simpl. split; [lia|].
        eapply good_perm; [exact K3|]. rewrite <- LO. simpl repeat. rewrite put_mid, <- app_assoc. simpl. permt.
      * intros s2 E2 _ _ K2. apply wp_bind. eapply wp_load; [exact K2|left; reflexivity|]. apply wp_bind, wp_ret.
        apply wp_bind. eapply wp_nth; [simpl; rewrite <- LO; apply nth_mid|]. apply wp_bind.
        eapply wp_store; [exact K2|].
        intros s3 E3 _ K3. apply wp_ret. simpl. split; [congruence|]. exists (o ++ V_str None :: repeat V_other (length t)).
        split. { rewrite app_length in *. simpl in *. lia. }
        eapply good_perm; [exact K3|]. rewrite <- LO. simpl repeat. rewrite put_mid. permt.
        replace (flat_map own_val (repeat V_other (length t))) with (@nil (nat * block)) by (symmetry; exact OW). cntn. lia.
    + apply wp_ret. split; auto. exists (o ++ [V_other]). rewrite !app_length. simpl. split; [lia|].
      rewrite <- app_assoc. simpl. rewrite flat_map_app, app_nil_r. exact K1.
  - split; auto. exists []. split; auto.
  - intros [|] s1 (E1 & o & LO & K1); [|eauto]. split; auto. exists o. split; auto. simpl in K1. rewrite app_nil_r in K1. exact K1.
Qed.

Definition tnew : tcell := mk_tcell I_NOP 0 None.
Lemma hc_new k : map hc (repeat tnew k) = repeat cell_new k.
Proof. induction k as [|k IH]; simpl; [reflexivity|]. rewrite IH. reflexivity. Qed.
Lemma own_new k : flat_map own_cell (repeat tnew k) = [].
Proof. induction k; simpl; auto. Qed.
Lemma hr_none k : map hr (repeat None k) = repeat None k.
Proof. induction k as [|k IH]; simpl; [reflexivity|]. rewrite IH. reflexivity. Qed.
Lemma own_none k : flat_map own_row (repeat None k) = [].
Proof. induction k; simpl; auto. Qed.
Lemma ok_new k : Forall cell_ok (repeat tnew k).
Proof. apply Forall_forall. intros x I. apply repeat_spec in I. subst. exact Logic.I. Qed.

(** The cells of one row. *)
Lemma wp_json_cells p l R s B : good s ((p, B_cells (repeat cell_new (length l))) :: R) ->
  wp (hwhile (length l) 0 (json_parse_cell G (Some p) l))
     (fun _ s' => s_g s' = s_g s /\ exists cs, length cs = length l /\ Forall cell_ok cs /\ good s' ((p, B_cells (map hc cs)) :: flat_map own_cell cs ++ R)) B s.
Proof.
  intro K.
  eapply wp_mono; [apply wp_while with (l := l) (i := 0)
    (Inv := fun d t s' => s_g s' = s_g s /\ exists cs, length cs = length d /\ Forall cell_ok cs
       /\ good s' ((p, B_cells (map hc (cs ++ repeat tnew (length t)))) :: flat_map own_cell cs ++ R))
    (St := fun s' => s_g s' = s_g s /\ exists cs, length cs = length l /\ Forall cell_ok cs
       /\ good s' ((p, B_cells (map hc cs)) :: flat_map own_cell cs ++ R))| |intros u0 Z0; exact Z0].
  - intros d v t s1 EL (E1 & cs & LC & OC & K1). simpl. cbn [length] in K1.
    assert (LL : length l = length cs + S (length t)) by (rewrite <- EL, app_length; simpl; lia).
    assert (FIN : forall x s', s_g s' = s_g s -> cell_ok x ->
        good s' ((p, B_cells (map hc (cs ++ x :: repeat tnew (length t)))) :: own_cell x ++ flat_map own_cell cs ++ R) ->
        s_g s' = s_g s /\ (exists cs', length cs' = length l /\ Forall cell_ok cs' /\ good s' ((p, B_cells (map hc cs')) :: flat_map own_cell cs' ++ R))).
    { intros x s' E OX KX. split; auto. exists (cs ++ x :: repeat tnew (length t)). split; [rewrite app_length; simpl; rewrite repeat_length; lia|].
      split; [apply Forall_app; split; auto; constructor; auto; apply ok_new|].
      eapply good_perm; [exact KX|]. permt. rewrite own_new. cntn. lia. }
    assert (INV : forall x s', s_g s' = s_g s -> cell_ok x ->
        good s' ((p, B_cells (map hc (cs ++ x :: repeat tnew (length t)))) :: own_cell x ++ flat_map own_cell cs ++ R) ->
        s_g s' = s_g s /\ (exists cs', length cs' = length (d ++ [v]) /\ Forall cell_ok cs'
          /\ good s' ((p, B_cells (map hc (cs' ++ repeat tnew (length t)))) :: flat_map own_cell cs' ++ R))).
    { intros x s' E OX KX. split; auto. exists (cs ++ [x]). rewrite !app_length. simpl. split; [lia|].
      split; [apply Forall_app; auto|]. rewrite <- app_assoc. eapply good_perm; [exact KX|]. permt. }
    assert (NM : nth_error (map hc (cs ++ repeat tnew (S (length t)))) (length d) = Some (hc tnew)).
    { rewrite map_app, <- LC, <- (map_length hc cs). apply nth_mid. }
    assert (PM : forall y, put (map hc (cs ++ repeat tnew (S (length t)))) (length d) y = map hc cs ++ y :: map hc (repeat tnew (length t))).
    { intro y. rewrite map_app, <- LC, <- (map_length hc cs). apply put_mid. }
    unfold json_parse_cell. apply wp_bind. eapply wp_nth; [rewrite <- EL; apply nth_mid|].
    destruct v as [|i vs]; [apply wp_ret; apply (FIN tnew); [auto|exact Logic.I|exact K1]|].
    destruct (length vs =? 0) eqn:EV.
    + apply wp_bind. eapply wp_set_cell; [exact K1|exact NM|]. intros s2 E2 _ K2. apply wp_ret. apply (INV (mk_tcell i 0 None)); [congruence|exact Logic.I|].
      rewrite PM in K2. rewrite map_app. exact K2.
    + apply Nat.eqb_neq in EV. apply wp_bind. eapply wp_alloc; [exact K1| |].
      * intros s2 E2 _ _ K2. apply wp_bind.
        eapply wp_set_cell with (L := (s_n s1, B_data (repeat V_other (length vs))) :: flat_map own_cell cs ++ R); [|exact NM|].
        { eapply good_perm; [exact K2|]. permt. }
        intros s3 E3 _ K3. rewrite PM in K3. simpl is_nil. cbv iota. apply wp_bind.
        eapply wp_mono; [eapply wp_json_values with (R := (p, B_cells (map hc cs ++ mk_hcell i (length vs) (Some (s_n s1)) :: map hc (repeat tnew (length t)))) :: flat_map own_cell cs ++ R)| |intros u0 Z0; exact Z0].
        { eapply good_perm; [exact K3|]. permt. }
        intros ok s4 (E4 & o & LO & K4). destruct ok.
        -- apply wp_ret. apply (INV (mk_tcell i (length vs) (Some (s_n s1, o)))); [congruence|split; simpl; lia|].
           rewrite map_app. eapply good_perm; [exact K4|]. 
           change (own_cell (mk_tcell i (length vs) (Some (s_n s1, o)))) with ((s_n s1, B_data o) :: flat_map own_val o).
           change (map hc (mk_tcell i (length vs) (Some (s_n s1, o)) :: repeat tnew (length t)))
             with (mk_hcell i (length vs) (Some (s_n s1)) :: map hc (repeat tnew (length t))). permt.
        -- assert (N4 : nth_error (map hc cs ++ mk_hcell i (length vs) (Some (s_n s1)) :: map hc (repeat tnew (length t))) (length d) = Some (mk_hcell i (length vs) (Some (s_n s1)))).
           { rewrite <- LC, <- (map_length hc cs). apply nth_mid. }
           apply wp_bind. eapply wp_get_cell; [exact K4|right; apply in_or_app; right; left; reflexivity|exact N4|].
           apply wp_bind. eapply wp_free_data with (l := o); [reflexivity|symmetry; exact LO|exact K4|]. intros s5 E5 _ K5.
           apply wp_bind. eapply wp_set_cell; [exact K5|exact N4|]. intros s6 E6 _ K6. apply wp_ret.
           apply (FIN (mk_tcell i 0 None)); [congruence|exact Logic.I|]. rewrite map_app. simpl.
           rewrite <- LC, <- (map_length hc cs), put_mid in K6. exact K6.
      * intros s2 E2 _ _ K2. apply wp_bind. eapply wp_set_cell; [exact K2|exact NM|]. intros s3 E3 _ K3. simpl. apply wp_ret.
        apply (FIN (mk_tcell i (length vs) None)); [congruence|exact Logic.I|]. rewrite PM in K3. rewrite map_app. exact K3.
  - split; auto. exists []. split; auto. split; auto. simpl. rewrite hc_new. exact K.
  - intros [|] s1 (E1 & cs & LC & OC & K1); [|eauto 10]. split; auto. exists cs. split; auto. split; auto. simpl in K1. rewrite app_nil_r in K1. exact K1.
Qed.

Definition fresh_row (cols : nat) (r : trow) : Prop := exists a, r = Some (a, repeat tnew cols).
(** The rows of one network. *)
Lemma wp_json_rows b cols l rs0 R s B : length rs0 = length l -> Forall (fresh_row cols) rs0 ->
  good s ((b, B_rows (map hr rs0)) :: flat_map own_row rs0 ++ R) ->
  wp (hwhile (length l) 0 (json_parse_row G (Some b) cols l))
     (fun _ s' => s_g s' = s_g s /\ exists rs, length rs = length l /\ Forall (row_ok cols) rs /\ good s' ((b, B_rows (map hr rs)) :: flat_map own_row rs ++ R)) B s.
Proof.
  intros L0 F0 K.
  assert (FR : forall x, fresh_row cols x -> row_ok cols x).
  { intros x [a ->]. simpl. rewrite repeat_length. split; auto. apply ok_new. }
  eapply wp_mono; [apply wp_while with (l := l) (i := 0)
    (Inv := fun d t s' => s_g s' = s_g s /\ exists rs rt, length rs = length d /\ length rt = length t /\ Forall (row_ok cols) rs /\ Forall (fresh_row cols) rt
       /\ good s' ((b, B_rows (map hr (rs ++ rt))) :: flat_map own_row (rs ++ rt) ++ R))
    (St := fun s' => s_g s' = s_g s /\ exists rs, length rs = length l /\ Forall (row_ok cols) rs
       /\ good s' ((b, B_rows (map hr rs)) :: flat_map own_row rs ++ R))| |intros u0 Z0; exact Z0].
  - intros d v t s1 EL (E1 & rs & rt & L1 & L2 & O1 & O2 & K1). simpl.
    destruct rt as [|x rt]; [discriminate|]. inversion O2 as [|? ? FX O3]; subst x0 l0. destruct FX as [p ->]. simpl in L2.
    assert (LL : length l = length rs + S (length rt)) by (rewrite <- EL, app_length; simpl; lia).
    assert (ST : s_g s1 = s_g s /\ (exists rs, length rs = length l /\ Forall (row_ok cols) rs /\ good s1 ((b, B_rows (map hr rs)) :: flat_map own_row rs ++ R))).
    { split; auto. eexists. split; [|split; [|exact K1]]. - rewrite app_length. simpl. lia.
      - apply Forall_app. split; auto. eapply Forall_impl; [exact FR|exact O2]. }
    unfold json_parse_row. apply wp_bind. eapply wp_nth; [rewrite <- EL; apply nth_mid|].
    destruct v as [|cells]; [apply wp_ret; exact ST|]. destruct (length cells =? cols) eqn:EC; [|apply wp_ret; exact ST].
    apply Nat.eqb_eq in EC. apply wp_bind. eapply wp_get_row; [exact K1|left; reflexivity| |].
    { rewrite map_app, <- L1, <- (map_length hr rs). apply nth_mid. }
    simpl option_map. subst cols.
    eapply wp_mono; [eapply wp_json_cells with (R := (b, B_rows (map hr (rs ++ Some (p, repeat tnew (length cells)) :: rt))) :: flat_map own_row (rs ++ rt) ++ R)| |intros u0 Z0; exact Z0].
    { eapply good_perm; [exact K1|]. permt. rewrite hc_new, own_new. cntn. lia. }
    intros ok s2 (E2 & cs & LC & OC & K2).
    assert (KK : good s2 ((b, B_rows (map hr (rs ++ Some (p, cs) :: rt))) :: flat_map own_row (rs ++ Some (p, cs) :: rt) ++ R)).
    { eapply good_perm; [exact K2|]. rewrite !map_app. permt. }
    assert (OR : row_ok (length cells) (Some (p, cs))) by (simpl; split; [lia|auto]).
    destruct ok.
    + split; [congruence|]. exists (rs ++ [Some (p, cs)]), rt. rewrite !app_length. simpl. split; [lia|]. split; [lia|].
      split; [apply Forall_app; auto|]. split; auto. rewrite <- app_assoc. exact KK.
    + split; [congruence|]. eexists. split; [|split; [|exact KK]]. * rewrite app_length. simpl. lia.
      * apply Forall_app. split; auto. constructor; auto. eapply Forall_impl; [exact FR|exact O3].
  - split; auto. exists [], rs0. split; auto.
  - intros [|] s1 Z; [|exact Z]. destruct Z as (E1 & rs & rt & L1 & L2 & O1 & O2 & K1). split; auto. exists rs. split; auto. split; auto.
    destruct rt; [|discriminate]. rewrite app_nil_r in K1. exact K1.
Qed.
(** Allocating the rows. *)
Lemma wp_json_new_rows b cols k R s B : good s ((b, B_rows (repeat None k)) :: R) ->
  wp (hwhile k 0 (json_new_row G (Some b) cols))
     (fun ok s' => s_g s' = s_g s /\ exists rs, length rs = k /\ good s' ((b, B_rows (map hr rs)) :: flat_map own_row rs ++ R)
        /\ (ok = true -> Forall (fresh_row cols) rs) /\ Forall (fun r => r = None \/ fresh_row cols r) rs /\ (ok = false -> exists j, G j = false)) B s.
Proof.
  intro K. set (l := repeat tt k). assert (LK : length l = k) by apply repeat_length. rewrite <- LK.
  eapply wp_mono; [apply wp_while with (l := l) (i := 0)
    (Inv := fun d t s' => s_g s' = s_g s /\ exists rs, length rs = length d /\ Forall (fresh_row cols) rs
       /\ good s' ((b, B_rows (map hr rs ++ repeat None (length t))) :: flat_map own_row rs ++ R))
    (St := fun s' => s_g s' = s_g s /\ (exists rs, length rs = length l /\ Forall (fun r => r = None \/ fresh_row cols r) rs
       /\ good s' ((b, B_rows (map hr rs)) :: flat_map own_row rs ++ R)) /\ exists j, G j = false)| |intros u0 Z0; exact Z0].
  - intros d v t s1 EL (E1 & rs & L1 & F1 & K1). simpl. cbn [length] in K1. unfold json_new_row.
    assert (NM : nth_error (map hr rs ++ repeat None (S (length t))) (length d) = Some None).
    { rewrite <- L1, <- (map_length hr rs). apply nth_mid. }
    assert (PM : forall y, put (map hr rs ++ repeat None (S (length t))) (length d) y = map hr rs ++ y :: repeat None (length t)).
    { intro y. rewrite <- L1, <- (map_length hr rs). apply put_mid. }
    apply wp_bind. eapply wp_alloc; [exact K1| |].
    + intros s2 E2 _ _ K2. apply wp_bind.
      eapply wp_set_row with (L := (s_n s1, B_cells (repeat cell_new cols)) :: flat_map own_row rs ++ R); [|exact NM|].
      { eapply good_perm; [exact K2|]. permt. }
      intros s3 E3 _ K3. apply wp_ret. simpl. split; [congruence|]. exists (rs ++ [Some (s_n s1, repeat tnew cols)]).
      rewrite !app_length. simpl. split; [lia|]. split; [apply Forall_app; split; auto; constructor; auto; eexists; reflexivity|].
      rewrite PM in K3. rewrite map_app, <- app_assoc. simpl. eapply good_perm; [exact K3|]. permt. rewrite hc_new, own_new. cntn. lia.
    + intros s2 E2 _ GF K2. apply wp_bind. eapply wp_set_row; [exact K2|exact NM|]. intros s3 E3 _ K3. apply wp_ret. simpl.
      split; [congruence|]. split; [|eauto]. exists (rs ++ None :: repeat None (length t)).
      split; [rewrite app_length; simpl; rewrite repeat_length, <- EL, app_length; simpl; lia|].
      split. { apply Forall_app. split; [eapply Forall_impl; [|exact F1]; auto|]. constructor; auto. apply Forall_forall. intros x I. apply repeat_spec in I. auto. }
      rewrite PM in K3. eapply good_perm; [exact K3|]. rewrite map_app. simpl.
      rewrite hr_none.
      permt. rewrite own_none. cntn. lia.
  - split; auto. exists []. split; auto. split; auto. simpl. rewrite LK. exact K.
  - intros [|] s1 Z.
    + destruct Z as (E1 & rs & L1 & F1 & K1). split; auto. exists rs. simpl in K1. rewrite app_nil_r in K1. split; auto. split; auto. split; auto.
      split; [eapply Forall_impl; [|exact F1]; auto|discriminate].
    + destruct Z as (E1 & (rs & L1 & F1 & K1) & J). split; auto. exists rs. split; auto. split; auto. split; [discriminate|]. auto.
Qed.
Lemma wp_json_unrow b rs cols R s B : Forall (fun r => r = None \/ fresh_row cols r) rs -> good s ((b, B_rows (map hr rs)) :: flat_map own_row rs ++ R) ->
  wp (hfor (length rs) 0 (fun k => hbind (get_row (Some b) k) (fun q => h_free q))) (fun _ s' => s_g s' = s_g s /\ good s' ((b, B_rows (map hr rs)) :: R)) B s.
Proof.
  intros F K.
  eapply wp_mono; [apply wp_for with (l := rs) (i := 0)
    (Inv := fun d t s' => s_g s' = s_g s /\ good s' ((b, B_rows (map hr rs)) :: flat_map own_row t ++ R))| |intros u0 Z0; exact Z0].
  - intros d x t s1 EL (E1 & K1). simpl. apply wp_bind. eapply wp_get_row; [exact K1|left; reflexivity| |].
    { rewrite <- EL. apply nth_map_mid. }
    assert (FX : x = None \/ fresh_row cols x) by (rewrite Forall_forall in F; apply F; rewrite <- EL; apply in_or_app; right; left; auto).
    destruct FX as [->|[p ->]]; simpl.
    + apply wp_free_null. split; auto.
    + eapply wp_free with (b := B_cells (map hc (repeat tnew cols))) (L := (b, B_rows (map hr rs)) :: flat_map own_row t ++ R).
      * eapply good_perm; [exact K1|]. permt. rewrite own_new. cntn. lia.
      * intros s2 E2 _ K2. split; [congruence|auto].
  - auto.
  - auto.
Qed.

(** One network of the document. *)
Definition plenty_for (d : dnet) : Prop := whole_net d /\ forall k, G k = true.
Lemma wp_json_net a d l R s : g_net (s_g s) = Some a -> g_nets (s_g s) = length l -> Forall net_ok l -> good s (nets a l ++ R) ->
  wp (json_net G d) (fun _ s' => s_g s' = s_g s /\ exists l', length l' = length l /\ Forall net_ok l' /\ good s' (nets a l' ++ R)
        /\ (Exists hollow_t l' -> Exists hollow_t l \/ ~ plenty_for d))
     (hollow_bad l) s.
Proof.
  intros EG EN OK K. unfold json_net. destruct d as [|id rows cols data].
  { apply wp_ret. split; auto. exists l. auto. }
  apply wp_bind, wp_getg. rewrite EN. destruct (length l <=? id) eqn:LI.
  { apply wp_ret. split; auto. exists l. auto. }
  apply Nat.leb_gt in LI. destruct (nth_error l id) as [n|] eqn:NI; [|apply nth_error_None in NI; lia].
  apply nth_error_split in NI as (l1 & l2 & -> & L1). subst id.
  assert (NN : nth_error (map hn (l1 ++ n :: l2)) (length l1) = Some (hn n)).
  { rewrite map_app. simpl. rewrite <- (map_length hn l1). apply nth_mid. }
  assert (PN : forall (m : tnet) y, put (map hn (l1 ++ m :: l2)) (length l1) y = map hn l1 ++ y :: map hn l2).
  { intros m y. rewrite map_app. simpl. rewrite <- (map_length hn l1). apply put_mid. }
  assert (OK' : forall n', net_ok n' -> Forall net_ok (l1 ++ n' :: l2)).
  { intros n' O. rewrite Forall_app in *. destruct OK as [O1 O2]. inversion O2; subst. split; auto. }
  assert (ON : net_ok n) by (rewrite Forall_app in OK; destruct OK as [_ O2]; inversion O2; auto).
  assert (HOL : forall n', Exists hollow_t (l1 ++ n' :: l2) -> Exists hollow_t (l1 ++ n :: l2) \/ hollow_t n').
  { intros n'. rewrite !Exists_app. intros [Z|Z]; auto. inversion Z; subst; auto. }
  set (P := plenty_for (DN (length l1) rows cols data)).
  assert (FIN : forall n' s', s_g s' = s_g s -> net_ok n' -> good s' (nets a (l1 ++ n' :: l2) ++ R) -> (hollow_t n' -> ~ P) ->
    s_g s' = s_g s /\ (exists l', length l' = length (l1 ++ n :: l2) /\ Forall net_ok l' /\ good s' (nets a l' ++ R)
       /\ (Exists hollow_t l' -> Exists hollow_t (l1 ++ n :: l2) \/ ~ P))).
  { intros n' s' E O KK HH. split; auto. exists (l1 ++ n' :: l2). rewrite !app_length. simpl. split; auto. split; auto. split; auto.
    intro Z. apply HOL in Z. tauto. }
  apply wp_bind. eapply wp_get_net; [eauto|exact K|left; reflexivity|exact NN|].
  set (R1 := flat_map own_net l1 ++ flat_map own_net l2 ++ R).
  assert (UP : forall m s', good s' ((a, B_nets (map hn l1 ++ hn m :: map hn l2)) :: own_net m ++ R1) -> good s' (nets a (l1 ++ m :: l2) ++ R)).
  { intros m s' KK. eapply good_perm; [exact KK|]. unfold R1. rewrite <- (map_cons hn). permt. }
  apply wp_bind. eapply wp_mono; [eapply wp_json_drop with (R := (a, B_nets (map hn (l1 ++ n :: l2))) :: R1); [exact ON|]| |].
  { eapply good_perm; [exact K|]. unfold R1. permt. }
  2:{ intros u [Z1 Z2]. split; auto. apply Exists_app. right. left. auto. }
  intros u s1 (E1 & K1 & NH). apply wp_bind.
  eapply wp_set_net; [rewrite E1; eauto|exact K1|exact NN|]. intros s2 E2 _ K2. rewrite PN in K2.
  change (mk_hnet 0 0 None) with (hn (mk_tnet 0 0 None)) in K2.
  assert (SET : forall m y (Q : unit -> hst -> Prop) B s', s_g s' = s_g s -> good s' ((a, B_nets (map hn l1 ++ hn m :: map hn l2)) :: R1) ->
     (forall s'', s_g s'' = s_g s -> good s'' ((a, B_nets (map hn l1 ++ y :: map hn l2)) :: R1) -> Q tt s'') -> wp (set_net (length l1) y) Q B s').
  { intros m y Q B s' E KK Z. eapply wp_set_net with (o := hn m); [rewrite E; eauto|exact KK| |].
    - rewrite <- (map_length hn l1). apply nth_mid.
    - intros s'' E'' _ K''. apply Z; [congruence|]. rewrite <- (map_length hn l1), put_mid in K''. exact K''. }
  destruct rows as [r|].
  2:{ apply wp_ret. apply (FIN (mk_tnet 0 0 None)); [congruence|exact Logic.I|apply UP; exact K2|]. intros [Z _]. simpl in Z. lia. }
  apply wp_bind. eapply SET; [congruence|exact K2|]. intros s3 E3 K3. change (mk_hnet r 0 None) with (hn (mk_tnet r 0 None)) in K3.
  destruct cols as [c|].
  2:{ apply wp_ret. apply (FIN (mk_tnet r 0 None)); [congruence|exact Logic.I|apply UP; exact K3|]. intros [Z _] [Q _]. simpl in *.
      destruct r; [lia|]. destruct Q as [[cc Q] _]. discriminate. }
  apply wp_bind. eapply SET; [congruence|exact K3|]. intros s4 E4 K4. change (mk_hnet r c None) with (hn (mk_tnet r c None)) in K4.
  destruct data as [dl|].
  2:{ apply wp_ret. apply (FIN (mk_tnet r c None)); [congruence|exact Logic.I|apply UP; exact K4|]. intros [Z _] [Q _]. simpl in *.
      destruct r; [lia|]. destruct Q as [_ [ll [Q _]]]. discriminate. }
  destruct (length dl =? r) eqn:ER; simpl negb; cbv iota.
  2:{ apply Nat.eqb_neq in ER. apply wp_ret. apply (FIN (mk_tnet r c None)); [congruence|exact Logic.I|apply UP; exact K4|]. intros [Z _] [Q _]. simpl in *.
      destruct r; [lia|]. destruct Q as [_ [ll [Q1 Q2]]]. injection Q1 as ->. congruence. }
  apply Nat.eqb_eq in ER. apply wp_bind. eapply wp_alloc; [exact K4| |].
  2:{ intros s5 E5 _ GF K5. apply wp_bind. eapply SET; [congruence|exact K5|]. intros s6 E6 K6. simpl is_nil. cbv iota.
      change (mk_hnet r c None) with (hn (mk_tnet r c None)) in K6. apply wp_ret.
      apply (FIN (mk_tnet r c None)); [congruence|exact Logic.I|apply UP; exact K6|]. intros _ [_ Q]. specialize (Q (s_n s4)). congruence. }
  intros s5 E5 _ _ K5. set (b := s_n s4) in *. apply wp_bind.
  eapply wp_set_net with (nl := map hn l1 ++ hn (mk_tnet r c None) :: map hn l2) (L := (b, B_rows (repeat None r)) :: R1); [rewrite E5, E4; exact EG| | |].
  { eapply good_perm; [exact K5|]. permt. }
  { rewrite <- (map_length hn l1). apply nth_mid. }
  intros s6 E6 _ K6. rewrite <- (map_length hn l1), put_mid in K6. simpl is_nil. cbv iota.
  apply wp_bind. eapply wp_mono; [eapply wp_json_new_rows with (R := (a, B_nets (map hn l1 ++ mk_hnet r c (Some b) :: map hn l2)) :: R1)| |intros u0 Z0; exact Z0].
  { eapply good_perm; [exact K6|]. permt. }
  intros ok s7 (E7 & rs & LR & K7 & FT & FF & JF). destruct ok; simpl negb; cbv iota.
  - specialize (FT eq_refl). apply wp_bind. rewrite <- ER.
    eapply wp_mono; [eapply wp_json_rows with (rs0 := rs); [congruence|exact FT|exact K7]| |intros u0 Z0; exact Z0].
    intros good0 s8 (E8 & rs' & LR' & OR' & K8). set (n' := mk_tnet r c (Some (b, rs'))).
    assert (ON' : net_ok n') by (unfold n', net_ok; simpl; split; [lia|auto]).
    assert (K8' : good s8 ((a, B_nets (map hn l1 ++ hn n' :: map hn l2)) :: own_net n' ++ R1)).
    { eapply good_perm; [exact K8|]. unfold n', own_net, hn at 4. cbn [z_cells z_rows z_cols option_map fst]. permt. }
    destruct good0.
    + apply wp_ret. apply (FIN n'); [congruence|exact ON'|apply UP; exact K8'|]. intros [_ Z]. discriminate.
    + apply wp_bind. eapply wp_get_net; [rewrite E8, E7, E6, E5, E4; exact EG|exact K8'|left; reflexivity|rewrite <- (map_length hn l1); apply nth_mid|].
      apply wp_bind. eapply wp_mono; [eapply wp_json_drop with (R := (a, B_nets (map hn l1 ++ hn n' :: map hn l2)) :: R1); [exact ON'|]| |].
      { eapply good_perm; [exact K8'|]. permt. }
      2:{ intros u0 [_ [_ Z]]. discriminate. }
      intros u1 s9 (E9 & K9 & _). apply wp_bind. eapply SET; [congruence|exact K9|]. intros s10 E10 K10. apply wp_ret.
      apply (FIN (mk_tnet 0 0 None)); [congruence|exact Logic.I|apply UP; exact K10|]. intros [Z _]. simpl in Z. lia.
  - apply wp_bind. rewrite <- LR. eapply wp_mono; [eapply wp_json_unrow; [exact FF|exact K7]| |intros u0 Z0; exact Z0].
    intros u1 s8 (E8 & K8). apply wp_bind. eapply wp_free; [exact K8|]. intros s9 E9 _ K9. apply wp_bind.
    eapply wp_set_net with (o := mk_hnet r c (Some b)); [rewrite E9, E8, E7, E6, E5, E4; exact EG|exact K9|rewrite <- (map_length hn l1); apply nth_mid|].
    intros s10 E10 _ K10. rewrite <- (map_length hn l1), put_mid in K10. apply wp_ret.
    apply (FIN (mk_tnet 0 0 None)); [congruence|exact Logic.I|apply UP; exact K10|]. intros [Z _]. simpl in Z. lia.
Qed.

(** The whole document. *)
Definition plenty_doc (doc : list dnet) : Prop := Forall whole_net doc /\ forall k, G k = true.
Lemma wp_load_json a doc l R s : g_net (s_g s) = Some a -> g_nets (s_g s) = length l -> Forall net_ok l -> good s (nets a l ++ R) ->
  wp (h_load_json G (Some doc)) (fun _ s' => s_g s' = s_g s /\ exists l', length l' = length l /\ Forall net_ok l' /\ good s' (nets a l' ++ R)
        /\ (Exists hollow_t l' -> Exists hollow_t l \/ ~ plenty_doc doc))
     (fun u => u = H_null /\ (Exists hollow_t l \/ ~ plenty_doc doc)) s.
Proof.
  intros EG EN OK K. unfold h_load_json.
  assert (HC : forall m, Exists hollow_t (map clr_net m) -> Exists hollow_t m).
  { intros m Z. apply Exists_exists in Z as (x & I & Hx). apply in_map_iff in I as (y & <- & I). apply (proj1 (hollow_clr y)) in Hx. apply Exists_exists. exists y. auto. }
  assert (OC : forall m, Forall net_ok m -> Forall net_ok (map clr_net m)).
  { intros m F. apply Forall_forall. intros x I. apply in_map_iff in I as (y & <- & I). rewrite Forall_forall in F. apply net_ok_clr. auto. }
  apply wp_bind. eapply wp_mono; [eapply clear_ok; eauto| |].
  2:{ intros u [Z1 Z2]. split; auto. }
  intros u s1 (E1 & K1). apply wp_bind.
  set (I := fun s' => s_g s' = s_g s /\ exists l', length l' = length l /\ Forall net_ok l' /\ good s' (nets a l' ++ R)
        /\ (Exists hollow_t l' -> Exists hollow_t l \/ ~ plenty_doc doc)).
  eapply wp_mono with (Q := fun _ => I) (B := fun u => u = H_null /\ (Exists hollow_t l \/ ~ plenty_doc doc)); [|  |auto].
  - eapply wp_mono; [apply wp_while with (l := doc) (i := 0) (Inv := fun _ _ => I) (St := I)| |intros u0 Z0; exact Z0].
    + intros d x t s2 EL (E2 & l' & LL & OL & KL & HL). simpl. apply wp_bind. eapply wp_nth; [rewrite <- EL; apply nth_mid|].
      assert (PX : ~ plenty_for x -> ~ plenty_doc doc).
      { intros N [Q1 Q2]. apply N. split; auto. rewrite <- EL in Q1. apply Forall_app in Q1 as [_ Q1]. inversion Q1; auto. }
      eapply wp_mono; [eapply wp_json_net with (l := l'); [rewrite E2; eauto|rewrite E2; congruence|auto|exact KL]| |].
      * intros ok s3 (E3 & l'' & LL3 & OL3 & KL3 & HL3). assert (I s3).
        { split; [congruence|]. exists l''. split; [congruence|]. split; auto. split; auto. intro Z. apply HL3 in Z. destruct Z; auto. }
        destruct ok; auto.
      * intros u0 [Z1 Z2]. split; auto.
    + split; auto. exists (map clr_net l). rewrite map_length. auto 7.
    + intros [|]; auto.
  - intros ok s2 (E2 & l' & LL & OL & KL & HL). destruct ok.
    + apply wp_ret. split; auto. exists l'. auto.
    + apply wp_bind. eapply wp_mono; [eapply clear_ok with (l := l'); [rewrite E2; eauto|rewrite E2; congruence|auto|exact KL]| |].
      * intros u1 s3 (E3 & K3). apply wp_ret. split; [congruence|]. exists (map clr_net l'). rewrite map_length. auto 7.
      * intros u0 [Z1 Z2]. split; auto.
Qed.
End Grant.
