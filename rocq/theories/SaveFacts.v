(** Facts about saving programs as JSON. *)
From Coq Require Import String.
From Verif Require Export JsonFacts.
Open Scope list_scope.
Open Scope Z_scope.

(** ** Numbers as text *)

Lemma figures_value_snoc ds c : figures_value (ds ++ [c]) = 10 * figures_value ds + (c - 48).
Proof. unfold figures_value. rewrite fold_left_app. reflexivity. Qed.
Lemma digits_of_spec : forall f z acc, 0 <= z -> z < 10 ^ Z.of_nat (S f) -> exists ds, digits_of (S f) z acc = ds ++ acc /\ figures ds /\ figures_value ds = z.
Proof.
  induction f as [|f IH]; intros z acc Z0 Z1.
  - exists [48 + z mod 10]. cbn [digits_of]. change (10 ^ Z.of_nat 1) with 10 in Z1. rewrite (proj2 (Z.ltb_lt _ _)) by lia. rewrite Z.mod_small by lia. split; auto.
    split; [split; [discriminate|constructor; [lia|constructor]]|]. unfold figures_value. cbn [fold_left]. lia.
  - rewrite Nat2Z.inj_succ, Z.pow_succ_r in Z1 by lia. assert (M : 0 <= z mod 10 < 10) by (apply Z.mod_pos_bound; lia).
    remember (S f) as g. cbn [digits_of]. subst g. destruct (Z.ltb_spec z 10) as [K|K].
    + exists [48 + z mod 10]. split; auto. split; [split; [discriminate|constructor; [lia|constructor]]|]. rewrite Z.mod_small by lia. unfold figures_value. cbn [fold_left]. lia.
    + destruct (IH (z / 10) (48 + z mod 10 :: acc)) as (ds & E & F & V); [apply Z.div_pos; lia|apply Z.div_lt_upper_bound; lia|].
      exists (ds ++ [48 + z mod 10]). rewrite E, <- app_assoc. split; auto. destruct F as [F1 F2]. split.
      * split; [destruct ds; discriminate|]. apply Forall_app. split; auto. constructor; [lia|constructor].
      * rewrite figures_value_snoc, V. assert (z = 10 * (z / 10) + z mod 10) by (apply Z.div_mod; lia). lia.
Qed.
Lemma dec_text z : 0 <= z < 2 ^ 32 -> number_text (dec z) z.
Proof.
  intros B. destruct (digits_of_spec 9 z []) as (ds & E & F & V); [lia|change (10 ^ Z.of_nat 10) with 10000000000; lia|].
  unfold dec. rewrite E, app_nil_r. replace z with ((1 * figures_value ds) mod 2 ^ 32) at 1 by (rewrite V, Z.mod_small; lia).
  apply (nt_small [] [] 1 ds); [constructor|constructor|auto|lia].
Qed.
Lemma dec_load z : load_number (dec (u32 z)) = Some (i32 z).
Proof.
  apply load_number_iff. exists (u32 z). split; [right; apply dec_text; unfold u32; apply Z.mod_pos_bound; lia|]. symmetry. apply i32_u32.
Qed.
Lemma dec_port m p : 0 <= m <= 255 -> 0 <= p <= 255 -> parse_module_port (dec m ++ 46 :: dec p) = Some (m, p).
Proof.
  intros M P. apply parse_port_iff. exists (dec m), (dec p). split; auto. split; [apply dec_text; lia|]. split; [apply dec_text; lia|lia].
Qed.

Lemma i32_mod z : i32 z mod 2 ^ 32 = z mod 2 ^ 32.
Proof. unfold i32. Z.to_euclidean_division_equations; lia. Qed.
Lemma port_mod v : (v_module v + 256 * v_port v) mod 2 ^ 16 = v_raw v mod 2 ^ 16.
Proof. unfold v_module, v_port, u32. Z.to_euclidean_division_equations; lia. Qed.

(** ** Operands *)

(** The operand that is read back. *)
Definition restored (L : outside) (i : ins) (d : nat) (v : value) : value :=
  mk_value (v_type v)
    (if timer_base i d then i32 (v_raw v) else
     match v_type v with
     | R_I | R_Q => v_module v + 256 * v_port v
     | R_R => i32 (read_f L (firstn 31 (print_f L (u32 (v_raw v)))))
     | _ => i32 (v_raw v)
     end) None.
Lemma name3 a b c l : member (txt "name") (JObj ((txt "name", a) :: (txt "type", b) :: (txt "value", c) :: l)) = Some a
  /\ member (txt "type") (JObj ((txt "name", a) :: (txt "type", b) :: (txt "value", c) :: l)) = Some b
  /\ member (txt "value") (JObj ((txt "name", a) :: (txt "type", b) :: (txt "value", c) :: l)) = Some c.
Proof. repeat split. Qed.
Definition nameableb (i : ins) (d : nat) (t : reg) : bool :=
  if timer_base i d then match t with R_M | R_Q | R_I | R_Cd => true | _ => false end else
  match t with
  | R_NONE => match i, d with (I_CTU | I_CTD), 1%nat => true | _, _ => false end
  | R_S | R_INV | R_OTHER _ => false
  | _ => true
  end.
Lemma nameable_iff i d t : nameableb i d t = true <-> nameable i d t.
Proof.
  unfold nameableb, nameable. destruct (timer_base i d) eqn:T.
  - apply timer_base_iff in T. split.
    + intros H. left. split; auto. destruct t; try discriminate; simpl; auto.
    + intros [[_ H]|[H _]]; [|contradiction]. simpl in H. repeat destruct H as [<-|H]; auto; contradiction.
  - apply timer_base_not in T. split.
    + intros H. right. split; auto. destruct t; try discriminate; simpl; auto 20. right. split; auto. destruct i; try discriminate; destruct d as [|[|d]]; try discriminate; auto.
    + intros [[H _]|[_ H]]; [contradiction|]. destruct H as [H|(-> & [->| ->] & ->)]; [|auto|auto]. simpl in H. repeat destruct H as [<-|H]; auto; contradiction.
Qed.
Lemma preset_name i d : same_text (get_data_name i d) (txt "preset value") = match i, d with (I_CTU | I_CTD), 1%nat => true | _, _ => false end.
Proof. destruct i; destruct d as [|[|[|d]]]; vm_compute; reflexivity. Qed.
Lemma base_named i d t : timer_base i d = true ->
  look_up str_basetime all_regs (type_text i d t) = match t with R_M | R_Q | R_I | R_Cd => Some t | _ => None end.
Proof.
  intros T. assert (PN := preset_name i d). destruct t; unfold type_text; try (rewrite T; vm_compute; reflexivity); [|vm_compute; reflexivity].
  rewrite PN. destruct i; try discriminate T; vm_compute; reflexivity.
Qed.
Lemma type_named i d t : timer_base i d = false ->
  get_register_code (type_text i d t) = match t with R_NONE => match i, d with (I_CTU | I_CTD), 1%nat => R_NONE | _, _ => R_INV end | R_OTHER _ => R_INV | _ => t end.
Proof.
  intros T. assert (PN := preset_name i d). destruct t; unfold type_text; try (rewrite T; vm_compute; reflexivity); [|vm_compute; reflexivity].
  rewrite PN. destruct i; try (vm_compute; reflexivity); destruct d as [|[|d]]; vm_compute; reflexivity.
Qed.
Lemma ok_inj {A} (a b : A) : Ok a = Ok b -> a = b.
Proof. congruence. Qed.
Lemma load_saved_operand L i d v j : save_operand L i d v = Ok j -> load_operand L true i d j = if nameableb i d (v_type v) then Some (restored L i d v) else None.
Proof.
  unfold save_operand, load_operand, nameableb, restored. destruct (timer_base i d) eqn:T.
  - cbn [app]. intros H. injection H as <-. destruct (name3 (JStr (get_data_name i d)) (JStr (type_text i d (v_type v))) (JStr (dec (u32 (v_raw v)))) []) as (-> & -> & ->).
    rewrite (base_named i d (v_type v) T), dec_load. destruct (v_type v); reflexivity.
  - cbn [app]. assert (TN := type_named i d (v_type v) T).
    assert (PM : parse_module_port (dec (v_module v) ++ 46 :: dec (v_port v)) = Some (v_module v, v_port v)).
    { apply dec_port; unfold v_module, v_port; [assert (K := Z.mod_pos_bound (u32 (v_raw v)) (2 ^ 8) ltac:(lia))|assert (K := Z.mod_pos_bound (u32 (v_raw v) / 2 ^ 8) (2 ^ 8) ltac:(lia))]; lia. }
    assert (DL := dec_load (v_raw v)).
    destruct (v_type v) eqn:V; intros H; try discriminate H; apply ok_inj in H; subst j;
      match goal with |- context [JObj ((txt "name", ?a) :: (txt "type", ?b) :: (txt "value", ?x) :: ?l)] => destruct (name3 a b x l) as (-> & -> & ->) end; rewrite TN;
      try (rewrite PM; reflexivity); try (rewrite DL; reflexivity); try reflexivity.
    destruct i; try reflexivity; destruct d as [|[|d]]; try reflexivity; rewrite DL; reflexivity.
Qed.
Lemma save_operand_ok L i d v : timer_base i d = true \/ v_type v <> R_S -> exists j, save_operand L i d v = Ok j.
Proof. unfold save_operand. intros [->|H]; [eauto|]. destruct (timer_base i d); [eauto|]. destruct (v_type v); eauto. contradiction. Qed.
Lemma save_operand_string L i d v : timer_base i d = false -> v_type v = R_S -> save_operand L i d v = Bad UB_indet.
Proof. unfold save_operand. now intros -> ->. Qed.

(** ** Cells *)

Definition stringy (i : ins) (d : nat) (v : value) : Prop := timer_base i d = false /\ v_type v = R_S.
Lemma save_operands_spec L x : forall k d js, save_operands L x k d = Ok js ->
  length js = k /\ forall e j, nth_error js e = Some j -> exists v, elem (c_data x) (d + e) = Some v /\ save_operand L (c_code x) (d + e) v = Ok j.
Proof.
  induction k as [|k IH]; intros d js H; cbn [save_operands] in H.
  - injection H as <-. split; auto. intros [|e] j E; discriminate.
  - apply rbind_inv in H as (v & P & H). apply rbind_inv in H as (j & O & H). apply rbind_inv in H as (js' & R & H). injection H as <-.
    destruct (IH _ _ R) as [LN F]. split; [simpl; lia|]. intros [|e] j' E.
    + injection E as <-. exists v. rewrite Nat.add_0_r. split; auto. apply pget_ok in P as [_ P]. unfold ix in P. now rewrite Nat2Z.id in P.
    + simpl in E. destruct (F e j' E) as (v' & V1 & V2). exists v'. replace (d + S e)%nat with (S d + e)%nat by lia. auto.
Qed.
Lemma save_operands_or L x : forall k d, (forall e, (e < k)%nat -> elem (c_data x) (d + e) <> None) ->
  (exists js, save_operands L x k d = Ok js) /\ (forall e v, (e < k)%nat -> elem (c_data x) (d + e) = Some v -> ~ stringy (c_code x) (d + e) v)
  \/ save_operands L x k d = Bad UB_indet /\ exists e v, (e < k)%nat /\ elem (c_data x) (d + e) = Some v /\ stringy (c_code x) (d + e) v.
Proof.
  induction k as [|k IH]; intros d H; cbn [save_operands].
  - left. split; [eauto|]. intros. lia.
  - destruct (elem (c_data x) d) as [v|] eqn:E; [|exfalso; apply (H 0%nat); [lia|now rewrite Nat.add_0_r]]. rewrite (pget_nat _ _ _ E). cbn [rbind].
    assert (K : stringy (c_code x) d v \/ ~ stringy (c_code x) d v).
    { unfold stringy. destruct (timer_base (c_code x) d); [right; intros [? _]; discriminate|]. destruct (v_type v); auto; right; intros [_ ?]; discriminate. }
    destruct K as [[K1 K2]|K].
    + right. rewrite (save_operand_string L _ _ _ K1 K2). split; auto. exists 0%nat, v. rewrite Nat.add_0_r. split; [lia|]. split; auto. split; auto.
    + destruct (save_operand_ok L (c_code x) d v) as (j & J).
      { destruct (timer_base (c_code x) d) eqn:T; auto. right. intros V. apply K. split; auto. }
      rewrite J. cbn [rbind]. destruct (IH (S d)) as [[(js & ->) F]|[-> (e & w & A & B & C)]].
      * intros e A. replace (S d + e)%nat with (d + S e)%nat by lia. apply H. lia.
      * left. split; [cbn [rbind]; eauto|]. intros [|e] w A B; [rewrite Nat.add_0_r in *; congruence|]. replace (d + S e)%nat with (S d + e)%nat in * by lia. apply (F e); auto; lia.
      * right. split; auto. exists (S e), w. replace (d + S e)%nat with (S d + e)%nat by lia. split; [lia|auto].
Qed.
Lemma symbol_named i : get_instruction_code (symbol_text i) = match i with I_OTHER _ => I_INV | _ => i end.
Proof. destruct i; vm_compute; reflexivity. Qed.
Lemma cell3 a b c : member (txt "symbol") (JObj [(txt "symbol", a); (txt "bar", b); (txt "data", c)]) = Some a
  /\ member (txt "bar") (JObj [(txt "symbol", a); (txt "bar", b); (txt "data", c)]) = Some b
  /\ member (txt "data") (JObj [(txt "symbol", a); (txt "bar", b); (txt "data", c)]) = Some c.
Proof. repeat split. Qed.
(** The cell that is read back. *)
Definition read_back (L : outside) (x x' : cell) : Prop :=
  c_state x' = false /\ c_bar x' = c_bar x /\ c_code x' = c_code x /\ c_dq x' = c_dq x
  /\ forall d v, (d < c_dq x)%nat -> elem (c_data x) d = Some v -> elem (c_data x') d = Some (restored L (c_code x) d v).
Definition cell_storable (L : outside) (x : cell) : Prop :=
  operands_of L (c_code x) (c_dq x) /\ forall d v, (d < c_dq x)%nat -> elem (c_data x) d = Some v -> nameable (c_code x) d (v_type v).
Lemma cell_saved_back L x j x' : save_cell L x = Ok j -> cell_text L j x' -> cell_storable L x /\ read_back L x x'.
Proof.
  unfold save_cell. intros H. apply rbind_inv in H as (ds & O & H). apply ok_inj in H. subst j. destruct (save_operands_spec _ _ _ _ _ O) as [LN F].
  destruct (cell3 (JStr (symbol_text (c_code x))) (JBool (c_bar x)) (JArr ds)) as (M1 & M2 & M3).
  intros (s & i & b & ds' & vs & A & B & C & D & E & G & K & ->). apply member_iff in A, C, D. rewrite A in M1. rewrite C in M2. rewrite D in M3. injection M1 as M1. injection M2 as ->. injection M3 as ->.
  destruct (proj2 (symbol_iff (txt s) i) (ex_intro _ s (conj eq_refl B))) as [S1 S2]. rewrite M1, symbol_named in S1.
  assert (i = c_code x) as -> by (destruct (c_code x); congruence). clear S1 S2 A C D.
  assert (R : forall d v, (d < c_dq x)%nat -> elem (c_data x) d = Some v -> exists o v', nth_error ds d = Some o /\ nth_error vs d = Some v' /\ nameable (c_code x) d (v_type v) /\ v' = restored L (c_code x) d v).
  { intros d v DQ V. destruct (nth_error ds d) as [o|] eqn:N; [|apply nth_error_None in N; lia]. destruct (nth_error vs d) as [v'|] eqn:N'; [|apply nth_error_None in N'; lia].
    destruct (F d o N) as (v0 & V0 & S0). simpl in V0, S0. rewrite V in V0. injection V0 as <-. exists o, v'. split; auto. split; auto.
    assert (Q := load_operand_complete _ _ _ _ _ (K d o v' N N')). rewrite (load_saved_operand _ _ _ _ _ S0) in Q. destruct (nameableb (c_code x) d (v_type v)) eqn:NB; [|discriminate].
    injection Q as <-. split; auto. now apply nameable_iff. }
  split.
  - split; [now rewrite <- LN|]. intros d v DQ V. destruct (R d v DQ V) as (_ & _ & _ & _ & ? & _). auto.
  - split; auto. split; auto. split; auto. split; auto. intros d v DQ V. destruct (R d v DQ V) as (o & v' & N & N' & _ & ->). cbn [c_data]. destruct ds; [destruct d; discriminate|]. exact N'.
Qed.
Lemma list_choice {A B} (P : nat -> A -> B -> Prop) : forall ds d, (forall e o, nth_error ds e = Some o -> exists v, P (d + e)%nat o v) ->
  exists vs, length vs = length ds /\ forall e o v, nth_error ds e = Some o -> nth_error vs e = Some v -> P (d + e)%nat o v.
Proof.
  induction ds as [|o ds IH]; intros d H.
  - exists []. split; auto. intros [|e] o v E; discriminate.
  - destruct (H 0%nat o eq_refl) as (v & V). destruct (IH (S d)) as (vs & L & F).
    + intros e o' E. destruct (H (S e) o' E) as (w & W). exists w. replace (S d + e)%nat with (d + S e)%nat by lia. auto.
    + exists (v :: vs). split; [simpl; lia|]. intros [|e] o' v' E E'; simpl in E, E'; [congruence|]. replace (d + S e)%nat with (S d + e)%nat by lia. eauto.
Qed.
Lemma cell_saved_text L x j : save_cell L x = Ok j -> cell_storable L x -> exists x', cell_text L j x'.
Proof.
  unfold save_cell. intros H [Q N]. apply rbind_inv in H as (ds & O & H). apply ok_inj in H. subst j. destruct (save_operands_spec _ _ _ _ _ O) as [LN F].
  destruct (cell3 (JStr (symbol_text (c_code x))) (JBool (c_bar x)) (JArr ds)) as (M1 & M2 & M3).
  destruct (list_choice (fun d o v => operand_text L (c_code x) d o v) ds 0) as (vs & LV & P).
  { intros e o E. destruct (F e o E) as (v & V & SV). simpl in V, SV |- *. assert (ED : (e < length ds)%nat) by (apply nth_error_Some; congruence). rewrite LN in ED.
    exists (restored L (c_code x) e v). eapply load_operand_sound. rewrite (load_saved_operand _ _ _ _ _ SV). rewrite (proj2 (nameable_iff _ _ _) (N e v ED V)). reflexivity. }
  assert (NI : c_code x <> I_INV) by (intros K; rewrite K in Q; exact Q).
  destruct (proj1 (symbol_iff (symbol_text (c_code x)) (c_code x))) as (s & S1 & S2).
  { split; auto. rewrite symbol_named. destruct (c_code x); auto. contradiction. }
  eexists (mk_cell false (c_bar x) (c_code x) (length ds) (match ds with [] => None | _ => Some vs end)). exists s, (c_code x), (c_bar x), ds, vs. rewrite <- LN in Q. split; [apply member_iff; rewrite M1; congruence|]. split; auto. split; [now apply member_iff|]. split; [now apply member_iff|]. split; [exact Q|]. split; [exact LV|]. split; [exact P|reflexivity].
Qed.

(** ** Lists *)

Lemma save_list_spec {A} (get : nat -> res A) f : forall k i js, save_list get f k i = Ok js ->
  length js = k /\ forall e j, nth_error js e = Some j -> exists x, get (i + e)%nat = Ok x /\ f x = Ok j.
Proof.
  induction k as [|k IH]; intros i js H; cbn [save_list] in H.
  - injection H as <-. split; auto. intros [|e] j E; discriminate.
  - apply rbind_inv in H as (x & P & H). apply rbind_inv in H as (j & O & H). apply rbind_inv in H as (js' & R & H). injection H as <-.
    destruct (IH _ _ R) as [LN F]. split; [simpl; lia|]. intros [|e] j' E.
    + injection E as <-. exists x. now rewrite Nat.add_0_r.
    + simpl in E. replace (i + S e)%nat with (S i + e)%nat by lia. eauto.
Qed.
(** Either everything is good, or the first bad thing shows. *)
Lemma save_list_or {A} (get : nat -> res A) f (bad : A -> Prop) : forall k i,
  (forall e, (e < k)%nat -> exists x, get (i + e)%nat = Ok x /\ ((exists j, f x = Ok j) /\ ~ bad x \/ f x = Bad UB_indet /\ bad x)) ->
  (exists js, save_list get f k i = Ok js) /\ (forall e x, (e < k)%nat -> get (i + e)%nat = Ok x -> ~ bad x)
  \/ save_list get f k i = Bad UB_indet /\ exists e x, (e < k)%nat /\ get (i + e)%nat = Ok x /\ bad x.
Proof.
  induction k as [|k IH]; intros i H; cbn [save_list].
  - left. split; [eauto|]. intros. lia.
  - destruct (H 0%nat) as (x & G & K); [lia|]. rewrite Nat.add_0_r in G. rewrite G. cbn [rbind]. destruct K as [[(j & ->) B]|[-> B]]; cbn [rbind].
    + destruct (IH (S i)) as [[(js & ->) F]|[-> (e & y & E & E' & E'')]].
      * intros e E. replace (S i + e)%nat with (i + S e)%nat by lia. apply H. lia.
      * left. split; [cbn [rbind]; eauto|]. intros [|e] y E E'; [rewrite Nat.add_0_r in E'; congruence|]. replace (i + S e)%nat with (S i + e)%nat in E' by lia. apply (F e y); auto; lia.
      * right. split; auto. exists (S e), y. replace (i + S e)%nat with (S i + e)%nat by lia. split; [lia|auto].
    + right. split; auto. exists 0%nat, x. rewrite Nat.add_0_r. split; [lia|auto].
Qed.

(** ** Networks *)

Lemma row_saved L nt r j : save_row L nt r = Ok j -> exists cs, j = JArr cs /\ length cs = n_cols nt
  /\ forall col jc, nth_error cs col = Some jc -> exists x, ncell nt r col = Some x /\ save_cell L x = Ok jc.
Proof.
  unfold save_row. intros H. apply rbind_inv in H as (cs & O & H). injection H as <-. exists cs. split; auto. apply save_list_spec in O as [LN F]. split; auto.
  intros col jc E. destruct (F col jc E) as (x & G & S'). apply cell_in_inv in G. eauto.
Qed.
Lemma net4 a b c d : let j := JObj [(txt "id", a); (txt "rows", b); (txt "cols", c); (txt "networkData", d)] in
  member (txt "id") j = Some a /\ member (txt "rows") j = Some b /\ member (txt "cols") j = Some c /\ member (txt "networkData") j = Some d.
Proof. repeat split. Qed.
Lemma network_saved L c n j : save_network L c n = Ok j -> exists nt rs, net_of c n = Some nt /\ length rs = n_rows nt
  /\ (forall r jr, nth_error rs r = Some jr -> save_row L nt r = Ok jr)
  /\ member (txt "id") j = Some (int_num (Z.of_nat n)) /\ member (txt "rows") j = Some (int_num (Z.of_nat (n_rows nt)))
  /\ member (txt "cols") j = Some (int_num (Z.of_nat (n_cols nt))) /\ member (txt "networkData") j = Some (JArr rs).
Proof.
  unfold save_network. intros H. apply rbind_inv in H as (nt & N & H). apply rbind_inv in H as (rs & O & H). apply ok_inj in H. subst j. exists nt, rs. split; [now apply net_at_inv|].
  apply save_list_spec in O as [LN F]. split; auto. split; [|apply net4]. intros r jr E. destruct (F r jr E) as (x & G & S'). injection G as <-. exact S'.
Qed.
Lemma natural_int j k z n : member (txt k) j = Some (int_num z) -> natural_is j k n -> Z.of_nat n = z.
Proof. intros M N. apply natural_iff in N as (d & D & T). rewrite M in D. injection D as <-. apply dbl_trunc_iff in T as [(f & A & B & _) _]; [|lia]. simpl in *. lia. Qed.
Lemma int_natural j k n : member (txt k) j = Some (int_num (Z.of_nat n)) -> Z.of_nat n < 2 ^ 32 -> natural_is j k n.
Proof. intros M N. apply natural_iff. exists (Fin (Z.of_nat n) 0). split; auto. apply dbl_trunc_iff; [lia|]. split; [exists 0; simpl; lia|lia]. Qed.
Lemma forall2_nth {A B} (P : A -> B -> Prop) l l' i x : Forall2 P l l' -> nth_error l i = Some x -> exists y, nth_error l' i = Some y /\ P x y.
Proof. intros F. revert i. induction F as [|a b l l' H _ IH]; intros [|i] E; try discriminate; simpl in *; [injection E as <-; eauto|eauto]. Qed.
Lemma forall2_of {A B} (P : A -> B -> Prop) l : (forall i x, nth_error l i = Some x -> exists y, P x y) -> exists l', Forall2 P l l'.
Proof.
  induction l as [|x l IH]; intros H; [exists []; auto|]. destruct (H 0%nat x eq_refl) as (y & Y). destruct IH as (l' & L'); [intros i; apply (H (S i))|]. exists (y :: l'). auto.
Qed.
Definition net_storable (L : outside) (nt : network) : Prop :=
  forall r col x, (r < n_rows nt)%nat -> (col < n_cols nt)%nat -> ncell nt r col = Some x -> cell_storable L x.
Definition net_back (L : outside) (nt nt' : network) : Prop :=
  n_en nt' = true /\ n_rows nt' = n_rows nt /\ n_cols nt' = n_cols nt
  /\ forall r col x, (r < n_rows nt)%nat -> (col < n_cols nt)%nat -> ncell nt r col = Some x -> exists x', ncell nt' r col = Some x' /\ read_back L x x'.
Lemma net_saved_back L c n j nt nt' : save_network L c n = Ok j -> net_of c n = Some nt -> network_text L j nt' -> net_storable L nt /\ net_back L nt nt'.
Proof.
  intros H N (rows & cols & rs & cells & A & B & D & E & F & G & ->). apply network_saved in H as (nt0 & rs0 & N0 & LN & S0 & M1 & M2 & M3 & M4).
  rewrite N in N0. injection N0 as <-. apply member_iff in D. rewrite D in M4. injection M4 as <-. apply (natural_int _ _ _ _ M2) in A. apply (natural_int _ _ _ _ M3) in B.
  assert (rows = n_rows nt) as -> by lia. assert (cols = n_cols nt) as -> by lia. clear A B.
  assert (K : forall r col x, (r < n_rows nt)%nat -> (col < n_cols nt)%nat -> ncell nt r col = Some x ->
    cell_storable L x /\ exists x', ncell (mk_network true (n_rows nt) (n_cols nt) (Some cells)) r col = Some x' /\ read_back L x x').
  { intros r col x R C X. destruct (nth_error rs r) as [jr|] eqn:JR; [|apply nth_error_None in JR; lia]. destruct (row_saved _ _ _ _ (S0 r jr JR)) as (cs & -> & LC & SC).
    destruct (forall2_nth _ _ _ _ _ G JR) as (xs & XS & cs' & E' & L1 & L2 & FC). injection E' as <-.
    destruct (nth_error cs col) as [jc|] eqn:JC; [|apply nth_error_None in JC; lia]. destruct (SC col jc JC) as (x0 & X0 & SX). rewrite X in X0. injection X0 as <-.
    destruct (forall2_nth _ _ _ _ _ FC JC) as (x' & X' & CT). destruct (cell_saved_back _ _ _ _ SX CT) as [P Q]. split; auto. exists x'. split; auto.
    unfold ncell, elem, obind. simpl. now rewrite XS. }
  split; [intros r col x R C X; apply (K r col x R C X)|]. split; auto. split; auto. split; auto. intros r col x R C X. apply (K r col x R C X).
Qed.
Lemma net_saved_text L c n j nt : save_network L c n = Ok j -> net_of c n = Some nt -> net_storable L nt -> Z.of_nat (n_rows nt) < 2 ^ 31 -> Z.of_nat (n_cols nt) < 2 ^ 31 ->
  exists nt', network_text L j nt'.
Proof.
  intros H N ST RB CB. apply network_saved in H as (nt0 & rs & N0 & LN & S0 & M1 & M2 & M3 & M4). rewrite N in N0. injection N0 as <-.
  destruct (forall2_of (row_text L (n_cols nt)) rs) as (cells & FC).
  { intros r jr JR. assert (R : (r < n_rows nt)%nat) by (rewrite <- LN; apply nth_error_Some; congruence). destruct (row_saved _ _ _ _ (S0 r jr JR)) as (cs & -> & LC & SC).
    destruct (forall2_of (cell_text L) cs) as (xs & FX).
    { intros col jc JC. assert (C : (col < n_cols nt)%nat) by (rewrite <- LC; apply nth_error_Some; congruence). destruct (SC col jc JC) as (x & X & SX). eapply cell_saved_text; eauto. }
    exists xs, cs. auto. }
  exists (mk_network true (n_rows nt) (n_cols nt) (Some cells)), (n_rows nt), (n_cols nt), rs, cells.
  split; [apply int_natural; auto; lia|]. split; [apply int_natural; auto; lia|]. split; [now apply member_iff|]. auto.
Qed.

(** ** Programs *)

Lemma program_cell_net c n nt r col : net_of c n = Some nt -> (program_cell c n r col <-> (n < q_nets (x_q c))%nat /\ (r < n_rows nt)%nat /\ (col < n_cols nt)%nat).
Proof.
  intros N. unfold program_cell. simpl peek. rewrite N. simpl. split.
  - intros (A & en & rows & cols & E & R & C). injection E as <- <- <-. auto.
  - intros (A & R & C). split; auto. do 3 eexists. split; [reflexivity|auto].
Qed.
Lemma operand_at_net c n nt r col x d v : net_of c n = Some nt -> ncell nt r col = Some x -> (operand_at c n r col d v <-> elem (c_data x) d = Some v /\ (d < c_dq x)%nat).
Proof.
  intros N X. unfold operand_at. simpl peek. rewrite (cell_of_net _ _ _ r col N), X. simpl. split.
  - intros (A & b & i & dq & E & D). injection E as <- <- <-. split; auto. destruct (elem (c_data x) d); [injection A as ->; auto|discriminate].
  - intros (A & D). rewrite A. split; auto. do 3 eexists. split; [reflexivity|auto].
Qed.
Lemma storable_nets L c : nets_ok c -> (storable L c <-> forall n nt, (n < q_nets (x_q c))%nat -> net_of c n = Some nt -> net_storable L nt).
Proof.
  intros OK. split.
  - intros H n nt NQ N r col x R C X. assert (P : program_cell c n r col) by (apply (program_cell_net _ _ _ _ _ N); auto).
    assert (E : peek c (LCell n r col) = Some (VCell (c_bar x) (c_code x) (c_dq x))) by (simpl; now rewrite (cell_of_net _ _ _ r col N), X).
    destruct (H _ _ _ _ _ _ P E) as [A B]. split; auto. intros d v D V. apply B. apply (operand_at_net _ _ _ _ _ _ _ _ N X). auto.
  - intros H n r col bar i dq P E. destruct (OK n (proj1 P)) as (nt & N & NO). apply (program_cell_net _ _ _ _ _ N) in P as (NQ & R & C).
    destruct (proj2 NO r col R C) as (x & X & _). simpl in E. rewrite (cell_of_net _ _ _ r col N), X in E. injection E as <- <- <-.
    destruct (H n nt NQ N r col x R C X) as [A B]. split; auto. intros d v O. apply (operand_at_net _ _ _ _ _ _ _ _ N X) in O as [V D]. auto.
Qed.
Lemma program_saved L c j : program_to_json L c = Ok j -> exists js, j = JArr js /\ length js = q_nets (x_q c) /\ forall n jn, nth_error js n = Some jn -> save_network L c n = Ok jn.
Proof.
  unfold program_to_json. intros H. apply rbind_inv in H as (js & O & H). injection H as <-. exists js. split; auto. apply save_list_spec in O as [LN F]. split; auto.
  intros n jn E. destruct (F n jn E) as (x & G & S'). injection G as <-. exact S'.
Qed.
Lemma final_index ps : forall i e nt, (forall e p, nth_error ps e = Some p -> fst p = i + e)%nat -> nth_error ps e = Some ((i + e)%nat, nt) -> final ps (i + e) = Some nt.
Proof.
  induction ps as [|[k x] ps IH]; intros i e nt H E; [destruct e; discriminate|]. assert (K := H 0%nat _ eq_refl). simpl in K. rewrite Nat.add_0_r in K. subst k.
  assert (H' : forall e p, nth_error ps e = Some p -> fst p = (S i + e)%nat) by (intros e' p P; rewrite (H (S e') p P); lia).
  cbn [final]. destruct e as [|e].
  - simpl in E. injection E as E. subst x. rewrite Nat.add_0_r, Nat.eqb_refl.
    assert (F : final ps i = None); [|now rewrite F]. clear -H'. assert (G : forall l m, (forall e p, nth_error l e = Some p -> fst p = m + e)%nat -> forall k, (k < m)%nat -> final l k = None).
    { induction l as [|[a b] l IH]; intros m H k K; auto. cbn [final]. rewrite (IH (S m)); [|intros e p P; rewrite (H (S e) p P); lia|lia].
      assert (A := H 0%nat _ eq_refl). simpl in A. destruct (Nat.eqb_spec a k); [lia|auto]. }
    apply (G ps (S i) H' i). lia.
  - simpl in E. replace (i + S e)%nat with (S i + e)%nat in * by lia. now rewrite (IH (S i) e nt H' E).
Qed.
