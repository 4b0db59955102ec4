(** Lemmas on loading programs from JSON: the functions of the model agree with the vocabulary of SpecJson. *)
From Coq Require Import String.
From Verif Require Export SpecJson P_Init.
Open Scope list_scope.
Open Scope Z_scope.

(** ** Texts and members *)

Lemma same_text_eq a b : same_text a b = true <-> a = b.
Proof.
  revert b. induction a as [|x a IH]; destruct b as [|y b]; simpl; split; intros H; try discriminate; auto.
  - apply andb_true_iff in H as [H1 H2]. apply Z.eqb_eq in H1. apply IH in H2. congruence.
  - injection H as -> ->. rewrite Z.eqb_refl. simpl. now apply IH.
Qed.
Lemma same_text_refl a : same_text a a = true.
Proof. now apply same_text_eq. Qed.
Lemma same_text_neq a b : same_text a b = false <-> a <> b.
Proof. rewrite <- same_text_eq. destruct (same_text a b); split; intros; congruence. Qed.
Lemma find_member_is l k v : find_member l k = Some v <-> exists a b, l = a ++ (k, v) :: b /\ ~ In k (map fst a).
Proof.
  induction l as [|[k' v'] l IH]; simpl.
  - split; [discriminate|]. intros (a & b & H & _). destruct a; discriminate.
  - destruct (same_text k k') eqn:E.
    + apply same_text_eq in E as <-. split.
      * intros H. injection H as ->. exists [], l. auto.
      * intros (a & b & H & N). destruct a as [|p a]; simpl in H; injection H as H1 H2; [congruence|]. subst p. simpl in N. tauto.
    + apply same_text_neq in E. rewrite IH. split.
      * intros (a & b & -> & N). exists ((k', v') :: a), b. split; auto. simpl. intros [K|K]; auto.
      * intros (a & b & H & N). destruct a as [|p a]; simpl in H; injection H as H1 H2; [congruence|]. subst p. exists a, b. simpl in N. tauto.
Qed.
Lemma member_iff j k v : member (txt k) j = Some v <-> member_is j k v.
Proof.
  unfold member, member_is. destruct j; try (split; [discriminate|intros (a & z & H & _); discriminate]).
  rewrite find_member_is. split; intros (a & b & H & N); exists a, b; [subst; auto|injection H as ->; auto].
Qed.
Lemma member_fun j k v w : member_is j k v -> member_is j k w -> v = w.
Proof. rewrite <- !member_iff. congruence. Qed.

(** ** Tables *)

Lemma look_up_in {A} (t : list (list Z)) (vs : list A) s v : look_up t vs s = Some v -> In (s, v) (combine t vs).
Proof.
  revert vs. induction t as [|x t IH]; intros [|w vs]; simpl; try discriminate. destruct (same_text s x) eqn:E; intros H.
  - apply same_text_eq in E as <-. left. congruence.
  - right. auto.
Qed.
Lemma in_look_up {A} (t : list (list Z)) (vs : list A) s v : NoDup t -> In (s, v) (combine t vs) -> look_up t vs s = Some v.
Proof.
  intros ND. revert vs. induction ND as [|x t NI ND IH]; intros [|w vs]; simpl; try tauto. intros [H|H].
  - injection H as -> ->. now rewrite same_text_refl.
  - destruct (same_text s x) eqn:E; [|auto]. apply same_text_eq in E as ->. exfalso. apply NI. eapply in_combine_l; eauto.
Qed.
Fixpoint distinct (t : list (list Z)) : bool := match t with [] => true | x :: t => negb (existsb (same_text x) t) && distinct t end.
Lemma distinct_ok t : distinct t = true -> NoDup t.
Proof.
  induction t as [|x t IH]; simpl; intros H; constructor; apply andb_true_iff in H as [H1 H2]; auto.
  intros I. apply negb_true_iff in H1. 
  assert (existsb (same_text x) t = true) by (apply existsb_exists; exists x; split; auto; apply same_text_refl). congruence.
Qed.
Definition texts {A} (l : list (string * A)) : list (list Z * A) := map (fun p => (txt (fst p), snd p)) l.
Lemma in_texts {A} (l : list (string * A)) s v : In (s, v) (texts l) <-> exists k, s = txt k /\ In (k, v) l.
Proof.
  unfold texts. rewrite in_map_iff. split.
  - intros ([k w] & H & I). injection H as <- <-. eauto.
  - intros (k & -> & I). exists (k, v). auto.
Qed.
Lemma types_table : combine str_types all_regs = texts types ++ [(txt "INV", R_INV)].
Proof. reflexivity. Qed.
Lemma bases_table : combine str_basetime all_regs = texts bases.
Proof. reflexivity. Qed.
Lemma symbol_iff s i : get_instruction_code s = i /\ i <> I_INV <-> exists k, s = txt k /\ In (k, i) symbols.
Proof.
  rewrite <- in_texts. unfold get_instruction_code. split.
  - intros [H N]. destruct (look_up str_symbol all_codes s) as [x|] eqn:E; [|congruence]. subst x. apply look_up_in in E.
    change (In (s, i) (texts (firstn 37 symbols) ++ (txt "INV", I_INV) :: texts (skipn 37 symbols))) in E.
    rewrite <- (firstn_skipn 37 symbols). unfold texts. rewrite map_app. apply in_or_app. apply in_app_or in E as [E|[E|E]]; auto. congruence.
  - intros H. assert (E : In (s, i) (combine str_symbol all_codes)).
    { change (In (s, i) (texts (firstn 37 symbols) ++ (txt "INV", I_INV) :: texts (skipn 37 symbols))).
      rewrite <- (firstn_skipn 37 symbols) in H. unfold texts in *. rewrite map_app in H. apply in_or_app. apply in_app_or in H as [H|H]; auto. right. right. auto. }
    rewrite (in_look_up _ _ _ _ (distinct_ok str_symbol eq_refl) E). split; auto. intros ->. revert H. unfold texts. simpl.
    intros H. repeat (destruct H as [H|H]; [discriminate|]). exact H.
Qed.
Lemma base_iff s t : look_up str_basetime all_regs s = Some t <-> exists k, s = txt k /\ In (k, t) bases.
Proof.
  rewrite <- in_texts, <- bases_table. split; [apply look_up_in|apply in_look_up]. apply distinct_ok. reflexivity.
Qed.
Lemma type_iff s t : get_register_code s = t /\ t <> R_INV <-> exists k, s = txt k /\ In (k, t) (types ++ bases).
Proof.
  assert (P : (exists k, s = txt k /\ In (k, t) (types ++ bases)) <-> In (s, t) (texts types) \/ In (s, t) (texts bases)).
  { rewrite !in_texts. split.
    - intros (k & K & I). apply in_app_or in I as [I|I]; [left|right]; eauto.
    - intros [(k & K & I)|(k & K & I)]; exists k; split; auto; apply in_or_app; auto. }
  rewrite P. clear P. unfold get_register_code. split.
  - intros [H N]. destruct (look_up str_types all_regs s) as [x|] eqn:E.
    + subst x. apply look_up_in in E. rewrite types_table in E. apply in_app_or in E as [E|[E|[]]]; auto. congruence.
    + destruct (look_up str_basetime all_regs s) as [x|] eqn:F; [|congruence]. subst x. apply look_up_in in F. rewrite bases_table in F. auto.
  - intros [H|H].
    + assert (E : In (s, t) (combine str_types all_regs)) by (rewrite types_table; apply in_or_app; auto).
      rewrite (in_look_up _ _ _ _ (distinct_ok str_types eq_refl) E). split; auto. intros ->. revert H. unfold texts. simpl.
      intros H. repeat (destruct H as [H|H]; [discriminate|]). exact H.
    + assert (F : In (s, t) (combine str_basetime all_regs)) by (rewrite bases_table; auto).
      assert (E : look_up str_types all_regs s = None).
      { revert H. unfold texts. simpl. intros H. repeat (destruct H as [H|H]; [injection H as <- <-; reflexivity|]). contradiction. }
      rewrite E, (in_look_up _ _ _ _ (distinct_ok str_basetime eq_refl) F). split; auto. intros ->. revert H. unfold texts. simpl.
      intros H. repeat (destruct H as [H|H]; [discriminate|]). exact H.
Qed.

(** ** Numbers *)

Lemma dbl_trunc_iff d lo hi n : lo <= 0 <= hi -> (dbl_trunc d lo hi = Ok n <-> truncates d n /\ lo <= n <= hi).
Proof.
  intros R. destruct d as [m e|g]; simpl; [|split; [discriminate|tauto]].
  set (z := if 0 <=? e then m * 2 ^ e else m ÷ 2 ^ (- e)).
  assert (T : forall n, (exists f, m * 2 ^ Z.max e 0 = n * 2 ^ Z.max (- e) 0 + f /\ Z.abs f < 2 ^ Z.max (- e) 0 /\ 0 <= f * m) <-> n = z).
  { intros k. subst z. destruct (Z.leb_spec 0 e) as [L|L].
    - rewrite Z.max_l, Z.max_r by lia. change (2 ^ 0) with 1. split.
      + intros (f & A & B & _). lia.
      + intros ->. exists 0. lia.
    - rewrite Z.max_r, Z.max_l by lia. change (2 ^ 0) with 1. assert (P : 0 < 2 ^ (- e)) by (apply Z.pow_pos_nonneg; lia). set (q := 2 ^ (- e)) in *. clearbody q.
      split.
      + intros (f & A & B & C). rewrite Z.mul_1_r in A. destruct (Z.le_gt_cases 0 m) as [M|M].
        * apply Z.quot_unique with f; [auto| |lia]. destruct (Z.eq_dec m 0) as [M0|M0]; [|nia]. subst m. assert (k = 0) by (destruct (Z.lt_trichotomy k 0) as [K|[K|K]]; auto; exfalso; nia). lia.
        * rewrite <- (Z.opp_involutive m), Z.quot_opp_l by lia. enough (- k = - m ÷ q) by lia. apply Z.quot_unique with (- f); [lia| |lia]. nia.
      + intros ->. exists (Z.rem m q). rewrite Z.mul_1_r. pose proof (Z.quot_rem' m q). pose proof (Z.rem_bound_abs m q ltac:(lia)).
        split; [lia|]. split; [lia|]. apply Z.rem_sign_mul. lia. }
  rewrite T. destruct (_ && _) eqn:B.
  - apply andb_true_iff in B as [B1 B2]. apply Z.leb_le in B1, B2. split; [intros H; injection H as <-; auto|intros [-> _]; auto].
  - split; [discriminate|]. intros [-> [B1 B2]]. apply Z.leb_le in B1, B2. rewrite B1, B2 in B. discriminate.
Qed.
Lemma dbl_trunc_bad d lo hi : lo <= 0 <= hi -> (forall n, truncates d n -> ~ lo <= n <= hi) -> dbl_trunc d lo hi = Bad UB_float.
Proof.
  intros R H. destruct (dbl_trunc d lo hi) as [n|u|] eqn:E.
  - apply dbl_trunc_iff in E as [E1 E2]; auto. exfalso. eapply H; eauto.
  - destruct d; simpl in E; [destruct (_ && _) in E|]; congruence.
  - destruct d; simpl in E; [destruct (_ && _) in E|]; congruence.
Qed.
Lemma natural_iff j k n : natural_is j k n <-> exists d, member (txt k) j = Some (JNum d) /\ dbl_trunc d 0 (2 ^ 32 - 1) = Ok (Z.of_nat n).
Proof.
  unfold natural_is. split; intros (d & H).
  - destruct H as (A & B & C). exists d. split; [now apply member_iff|]. apply dbl_trunc_iff; [lia|]. split; auto. lia.
  - destruct H as (A & B). apply dbl_trunc_iff in B as [B C]; [|lia]. exists d. split; [now apply member_iff|]. split; auto. lia.
Qed.
Lemma natural_fun j k n n' : natural_is j k n -> natural_is j k n' -> n = n'.
Proof. rewrite !natural_iff. intros (d & A & B) (d' & A' & B'). rewrite A in A'. injection A' as <-. rewrite B in B'. injection B' as B'. lia. Qed.

Lemma skip_space_app w s : spaces w -> skip_space (w ++ s) = skip_space s.
Proof.
  induction 1 as [|c w H _ IH]; auto. simpl. assert (is_space c = true) as ->; auto. unfold is_space. destruct H as [->|H]; auto.
  apply orb_true_iff. right. apply andb_true_iff. rewrite !Z.leb_le. lia.
Qed.
Lemma skip_space_split s : exists w, spaces w /\ s = w ++ skip_space s /\ match skip_space s with c :: _ => is_space c = false | [] => True end.
Proof.
  induction s as [|c s (w & W & E & H)]; simpl.
  - exists []. repeat split. constructor.
  - destruct (is_space c) eqn:IS.
    + exists (c :: w). split; [|split; auto; simpl; congruence]. constructor; auto. unfold is_space in IS. apply orb_true_iff in IS as [IS|IS].
      * left. now apply Z.eqb_eq.
      * right. apply andb_true_iff in IS. rewrite !Z.leb_le in IS. lia.
    + exists []. repeat split; auto. constructor.
Qed.
Lemma is_digit_iff c : is_digit c = true <-> 48 <= c <= 57.
Proof. unfold is_digit. rewrite andb_true_iff, !Z.leb_le. tauto. Qed.
(** What follows the figures of a number. *)
Definition no_digit (s : list Z) : Prop := match s with c :: _ => is_digit c = false | [] => True end.
Lemma take_digits_app ds rest acc : Forall (fun c => 48 <= c <= 57) ds -> no_digit rest ->
  take_digits (ds ++ rest) acc = (fold_left (fun v c => 10 * v + (c - 48)) ds acc, rest).
Proof.
  intros F N. revert acc. induction F as [|c ds H _ IH]; intros acc; simpl.
  - destruct rest as [|c r]; simpl; auto. simpl in N. now rewrite N.
  - rewrite (proj2 (is_digit_iff c) H). apply IH.
Qed.
Lemma take_digits_split s acc : exists ds, Forall (fun c => 48 <= c <= 57) ds /\ s = ds ++ snd (take_digits s acc) /\ no_digit (snd (take_digits s acc)).
Proof.
  revert acc. induction s as [|c s IH]; intros acc; simpl.
  - exists []. auto.
  - destruct (is_digit c) eqn:D.
    + destruct (IH (10 * acc + (c - 48))) as (ds & A & B & C). exists (c :: ds). split; [constructor; auto; now apply is_digit_iff|]. split; [cbn [app]; f_equal; exact B|exact C].
    + exists []. simpl. auto.
Qed.
Lemma take_number_app ds rest : figures ds -> no_digit rest -> take_number (ds ++ rest) = Some (figures_value ds, rest).
Proof.
  intros [NE F] N. destruct ds as [|c ds]; [contradiction|]. unfold take_number. cbn [app]. inversion F; subst.
  rewrite (proj2 (is_digit_iff c)) by auto. f_equal. apply (take_digits_app (c :: ds) rest 0 F N).
Qed.
Lemma take_number_inv s v rest : take_number s = Some (v, rest) -> exists ds, figures ds /\ s = ds ++ rest /\ v = figures_value ds /\ no_digit rest.
Proof.
  unfold take_number. destruct s as [|c s]; [discriminate|]. destruct (is_digit c) eqn:D; [|discriminate]. intros H.
  destruct (take_digits_split (c :: s) 0) as (ds & F & E & N). assert (H' : take_digits (c :: s) 0 = (v, rest)) by congruence. clear H. rewrite H' in E, N.
  cbn [snd] in E, N. assert (NE : ds <> []). { intros ->. cbn [app] in E. subst rest. cbn [no_digit] in N. congruence. }
  exists ds. repeat split; auto. rewrite E, take_digits_app in H' by auto. injection H' as <-. auto.
Qed.
Lemma figures_nonneg ds : figures ds -> 0 <= figures_value ds.
Proof.
  intros [_ F]. unfold figures_value. assert (forall acc, 0 <= acc -> 0 <= fold_left (fun v c => 10 * v + (c - 48)) ds acc) as H; [|apply H; lia].
  induction F as [|c ds H _ IH]; intros acc A; cbn [fold_left]; auto. apply IH. lia.
Qed.
(** The value that strtoul gives to figures after a sign. *)
Definition sat (k v : Z) : Z := if 2 ^ 64 <=? v then 2 ^ 64 - 1 else if k =? -1 then (- v) mod 2 ^ 64 else v.
Lemma sign_start sg k ds rest : sign sg k -> figures ds -> let t := sg ++ ds ++ rest in
  skip_space t = t
  /\ (match t with c :: u => if c =? 45 then (true, u) else if c =? 43 then (false, u) else (false, t) | [] => (false, t) end) = (k =? -1, ds ++ rest)
  /\ (match t with c :: u => if (c =? 45) || (c =? 43) then u else t | [] => t end) = ds ++ rest.
Proof.
  intros S [NE F]. cbv zeta. destruct ds as [|c ds]; [contradiction|]. inversion F as [|? ? H1 H2]; subst. destruct S; cbn [app].
  - assert (is_space c = false) as I.
    { unfold is_space. apply orb_false_iff. split; [apply Z.eqb_neq; lia|]. apply andb_false_iff. right. apply Z.leb_gt. lia. }
    cbn [skip_space]. rewrite I, (proj2 (Z.eqb_neq c 45)), (proj2 (Z.eqb_neq c 43)) by lia. auto.
  - repeat split; reflexivity.
  - repeat split; reflexivity.
Qed.
Lemma strtoul_app w sg k ds rest : spaces w -> sign sg k -> figures ds -> no_digit rest ->
  strtoul (w ++ sg ++ ds ++ rest) = (sat k (figures_value ds), rest)
  /\ scan_u (w ++ sg ++ ds ++ rest) = Some (u32 (sat k (figures_value ds)), rest).
Proof.
  intros W S F N. destruct (sign_start sg k ds rest S F) as (A & B & C). unfold scan_u, strtoul. rewrite skip_space_app, A by auto.
  rewrite B, C, take_number_app by auto. auto.
Qed.
Lemma strtoul_inv s v rest : strtoul s = (v, rest) -> rest <> s -> exists w sg k ds, s = w ++ sg ++ ds ++ rest /\ spaces w /\ sign sg k /\ figures ds
  /\ no_digit rest /\ v = sat k (figures_value ds).
Proof.
  unfold strtoul. destruct (skip_space_split s) as (w & W & E & NS). set (t := skip_space s) in *. clearbody t.
  destruct (match t with c :: u => if c =? 45 then (true, u) else if c =? 43 then (false, u) else (false, t) | [] => (false, t) end) as [neg u] eqn:SG.
  assert (exists sg k, sign sg k /\ t = sg ++ u /\ neg = (k =? -1)) as (sg & k & S & T & K).
  { destruct t as [|c t']; [injection SG as <- <-; exists [], 1; repeat split; constructor|]. destruct (Z.eqb_spec c 45) as [->|].
    - injection SG as <- <-. exists [45], (-1). repeat split. constructor.
    - destruct (Z.eqb_spec c 43) as [->|]; injection SG as <- <-; [exists [43], 1|exists [], 1]; repeat split; constructor. }
  destruct (take_number u) as [[x r]|] eqn:TN; [|intros H; injection H as _ <-; congruence].
  apply take_number_inv in TN as (ds & F & U & X & N). intros H RS. injection H as V R. subst r x u neg. exists w, sg, k, ds.
  rewrite E, T. repeat (split; auto).
Qed.
Lemma strtoul_none s v rest : strtoul s = (v, rest) -> rest = s -> v = 0.
Proof.
  intros H R. unfold strtoul in H. destruct (match skip_space s with c :: u => if c =? 45 then (true, u) else if c =? 43 then (false, u) else (false, skip_space s) | [] => (false, skip_space s) end) as [neg u] eqn:SG.
  destruct (take_number u) as [[x r]|] eqn:TN; [|congruence]. exfalso. injection H as _ ->. subst rest.
  apply take_number_inv in TN as (ds & [NE _] & U & _).
  destruct (skip_space_split s) as (w & W & E & NS). assert (length u <= length (skip_space s))%nat.
  { destruct (skip_space s) as [|c t']; [injection SG as _ <-; auto|]. destruct (c =? 45); [injection SG as _ <-; simpl; lia|]. destruct (c =? 43); injection SG as _ <-; simpl; lia. }
  apply (f_equal (@length Z)) in E, U. rewrite app_length in E, U. destruct ds; [contradiction|]. simpl in U. lia.
Qed.
Lemma sat_mod sg k v : sign sg k -> 0 <= v -> u32 (sat k v) = if 2 ^ 64 <=? v then 2 ^ 32 - 1 else (k * v) mod 2 ^ 32.
Proof.
  intros S V. unfold sat, u32. destruct (2 ^ 64 <=? v); [reflexivity|]. destruct S; cbn [Z.eqb]; try (f_equal; lia).
  replace (-1 * v) with (- v) by lia. change (- (1) =? -1) with true. cbn iota. symmetry. apply Znumtheory.Zmod_div_mod; try lia. exists (2 ^ 32). reflexivity.
Qed.
Lemma number_text_iff s z : number_text s z <-> exists w sg k ds, s = w ++ sg ++ ds /\ spaces w /\ sign sg k /\ figures ds /\ z = u32 (sat k (figures_value ds)).
Proof.
  split.
  - intros H. destruct H as [w sg k ds W S F V|w sg k ds W S F V]; exists w, sg, k, ds; repeat split; auto; try apply F;
      rewrite (sat_mod sg) by (auto; now apply figures_nonneg).
    + rewrite (proj2 (Z.leb_gt _ _)) by auto. reflexivity.
    + rewrite (proj2 (Z.leb_le _ _)) by auto. reflexivity.
  - intros (w & sg & k & ds & -> & W & S & F & ->). rewrite (sat_mod sg) by (auto; now apply figures_nonneg). destruct (Z.leb_spec (2 ^ 64) (figures_value ds)).
    + now apply nt_large with k.
    + now apply nt_small.
Qed.
Lemma i32_u32 z : i32 (u32 z) = i32 z.
Proof. unfold i32, u32. rewrite Z.add_mod_idemp_l by lia. reflexivity. Qed.
Lemma scan_u_whole s z : scan_u s = Some (z, []) <-> number_text s z.
Proof.
  rewrite number_text_iff. split.
  - unfold scan_u. destruct (strtoul s) as [v rest] eqn:E. intros H.
    destruct (take_number _) as [p|] eqn:TN; [|discriminate]. injection H as <- ->.
    destruct s as [|c s]; [discriminate TN|]. destruct (strtoul_inv _ _ _ E) as (w & sg & k & ds & A & W & S & F & _ & V); [congruence|].
    rewrite app_nil_r in A. exists w, sg, k, ds. subst v. auto.
  - intros (w & sg & k & ds & -> & W & S & F & ->). destruct (strtoul_app w sg k ds [] W S F I) as [_ B]. now rewrite !app_nil_r in B.
Qed.
Lemma load_number_iff s z : load_number s = Some z <-> exists y, word_text s y /\ z = i32 y.
Proof.
  unfold load_number. split.
  - destruct (strtoul s) as [v rest] eqn:E. destruct rest; [|discriminate]. intros H. injection H as <-. exists (u32 v). rewrite i32_u32. split; auto.
    destruct s as [|c s]; [left; split; auto; injection E as <-; reflexivity|]. right.
    destruct (strtoul_inv _ _ _ E) as (w & sg & k & ds & A & W & S & F & _ & V); [congruence|]. apply number_text_iff. rewrite app_nil_r in A. exists w, sg, k, ds. subst v. auto.
  - intros (y & [[-> ->]|Y] & ->); [reflexivity|]. apply number_text_iff in Y as (w & sg & k & ds & -> & W & S & F & ->).
    destruct (strtoul_app w sg k ds [] W S F I) as [A _]. rewrite !app_nil_r in A. rewrite A, i32_u32. auto.
Qed.
Lemma no_digit_dot b : no_digit (46 :: b).
Proof. reflexivity. Qed.
Lemma parse_port_iff s m p : parse_module_port s = Some (m, p) <-> port_text s m p.
Proof.
  unfold parse_module_port, port_text. split.
  - destruct (scan_u s) as [[m' rest]|] eqn:E; [|discriminate]. destruct rest as [|c t]; [discriminate|]. destruct (Z.eqb_spec c 46) as [->|]; [|discriminate].
    cbn [negb]. destruct (scan_u t) as [[p' [|x rest]]|] eqn:F; try discriminate. destruct (_ && _) eqn:B; [|discriminate]. intros H. injection H as <- <-.
    apply andb_true_iff in B as [B1 B2]. apply Z.leb_le in B1, B2. apply scan_u_whole in F.
    unfold scan_u in E. destruct (strtoul s) as [v rest] eqn:G. destruct (take_number _) eqn:TN; [|discriminate]. injection E as <- ->.
    destruct (list_eq_dec Z.eq_dec (46 :: t) s) as [EQ|NE].
    { exfalso. subst s. discriminate TN. }
    destruct (strtoul_inv _ _ _ G NE) as (w & sg & k & ds & A & W & S & FI & _ & V). exists (w ++ sg ++ ds), t. rewrite <- !app_assoc. split; auto. split; auto.
    apply number_text_iff. exists w, sg, k, ds. subst v. auto.
  - intros (a & b & -> & A & B & M & P). apply number_text_iff in A as (w & sg & k & ds & -> & W & S & F & ->).
    rewrite <- !app_assoc. destruct (strtoul_app w sg k ds (46 :: b) W S F (no_digit_dot b)) as [_ ->]. change (46 =? 46) with true. cbn [negb].
    apply scan_u_whole in B. rewrite B. rewrite (proj2 (Z.leb_le _ _) M), (proj2 (Z.leb_le _ _) P). auto.
Qed.

(** ** Operands *)

Lemma timer_base_iff i d : timer_base i d = true <-> base_place i d.
Proof.
  unfold timer_base, base_place. split.
  - destruct i; try discriminate; destruct d as [|[|d]]; try discriminate; auto.
  - intros [[->|[->| ->]] ->]; reflexivity.
Qed.
Lemma timer_base_not i d : timer_base i d = false <-> ~ base_place i d.
Proof. rewrite <- timer_base_iff. destruct (timer_base i d); split; intros; congruence. Qed.
Lemma value_iff (L : outside) t s v : t <> R_INV ->
  (match t with
   | R_INV => None
   | R_S => Some (mk_value R_S 0 (Some s))
   | R_R => Some (mk_value R_R (i32 (read_f L s)) None)
   | (R_I | R_Q) as t => match parse_module_port s with Some (m, p) => Some (mk_value t (m + 256 * p) None) | None => None end
   | t => match load_number s with Some z => Some (mk_value t z None) | None => None end
   end = Some v) <-> stands_for L t s v.
Proof.
  intros NI. split.
  - destruct t; intros H; try congruence;
    try (destruct (load_number s) as [zz|] eqn:E; [|discriminate]; injection H as <-; apply load_number_iff in E as (y & Y & ->);
         apply sf_word; auto; simpl; intuition congruence);
    try (destruct (parse_module_port s) as [[m p]|] eqn:E; [|discriminate]; injection H as <-; apply parse_port_iff in E; apply sf_port; auto);
    injection H as <-; constructor.
  - intros H. destruct H as [s|s|t s m p T P|t s z N W]; auto.
    + apply parse_port_iff in P. destruct T as [-> | ->]; rewrite P; auto.
    + assert (E : load_number s = Some (i32 z)) by (apply load_number_iff; eauto). simpl in N. rewrite E.
      destruct t; auto; exfalso; apply N; auto 8.
Qed.
Lemma reg_eq_dec_inv (t : reg) : {t = R_INV} + {t <> R_INV}.
Proof. destruct t; auto; right; discriminate. Qed.
Lemma load_operand_sound L al i d j v : load_operand L al i d j = Some v -> operand_text L i d j v.
Proof.
  unfold load_operand. destruct (member (txt "name") j) as [jn|] eqn:E1; [|discriminate]. destruct jn as [| | |nm| |]; try discriminate.
  destruct (member (txt "type") j) as [jt|] eqn:E2; [|discriminate]. destruct jt as [| | |ty| |]; try discriminate.
  destruct (member (txt "value") j) as [jv|] eqn:E3; [|discriminate]. destruct jv as [| | |s| |]; try discriminate.
  apply member_iff in E1, E2, E3. intros H. unfold operand_text, string_is. destruct (timer_base i d) eqn:TB.
  - apply timer_base_iff in TB. destruct (look_up str_basetime all_regs ty) as [t|] eqn:B; [|discriminate]. apply base_iff in B as (k & -> & B).
    destruct (load_number s) as [z|] eqn:N; [|discriminate]. injection H as <-. apply load_number_iff in N as (y & Y & ->).
    exists nm, k, t, s. repeat split; auto. left. split; auto. split; auto. eauto.
  - apply timer_base_not in TB. destruct (reg_eq_dec_inv (get_register_code ty)) as [T|T]; [rewrite T in H; discriminate|].
    destruct (proj1 (type_iff ty _) (conj eq_refl T)) as (k & -> & K). exists nm, k, (get_register_code (txt k)), s. repeat split; auto. right. split; auto. split; auto.
    apply value_iff; auto. destruct (get_register_code (txt k)); auto. destruct al; [auto|discriminate].
Qed.
Lemma load_operand_complete L i d j v : operand_text L i d j v -> load_operand L true i d j = Some v.
Proof.
  intros (nm & ty & t & s & A & B & C & H). unfold string_is in *. apply member_iff in A, B, C. unfold load_operand. rewrite A, B, C. destruct H as [(P & I & z & Z & ->)|(P & I & V)].
  - apply timer_base_iff in P. rewrite P. rewrite (proj2 (base_iff (txt ty) t)) by eauto.
    rewrite (proj2 (load_number_iff s (i32 z))) by eauto. auto.
  - apply timer_base_not in P. rewrite P. destruct (proj2 (type_iff (txt ty) t)) as [K N]; [eauto|]. rewrite K.
    apply value_iff in V; auto. destruct t; auto.
Qed.
Lemma load_operands_sound L al i : forall js d vs, load_operands L al i d js = Some vs ->
  length vs = length js /\ forall k o v, nth_error js k = Some o -> nth_error vs k = Some v -> operand_text L i (d + k) o v.
Proof.
  induction js as [|j js IH]; simpl; intros d vs H.
  - injection H as <-. split; auto. intros [|k] o v A; discriminate.
  - destruct (load_operand L (al d) i d j) as [v|] eqn:E; [|discriminate]. apply load_operand_sound in E.
    destruct (load_operands L al i (S d) js) as [ws|] eqn:F; [|discriminate]. injection H as <-. apply IH in F as [F1 F2]. split; [simpl; congruence|].
    intros [|k] o w A B; simpl in A, B.
    + injection A as <-. injection B as <-. now rewrite Nat.add_0_r.
    + rewrite <- Nat.add_succ_comm. eauto.
Qed.
Lemma load_operands_complete L al i : (forall d, al d = true) -> forall js d vs, length vs = length js ->
  (forall k o v, nth_error js k = Some o -> nth_error vs k = Some v -> operand_text L i (d + k) o v) -> load_operands L al i d js = Some vs.
Proof.
  intros AL. induction js as [|j js IH]; intros d vs LE H; destruct vs as [|v vs]; try discriminate; auto. simpl.
  rewrite AL. rewrite (load_operand_complete L i d j v) by (rewrite <- (Nat.add_0_r d); now apply (H O)).
  rewrite (IH (S d) vs); auto. intros k o w A B. rewrite Nat.add_succ_comm. apply (H (S k)); auto.
Qed.

(** ** Cells and rows *)

Lemma data_qty_iff L i q : i <> I_INV -> (data_qty L i = Ok q <-> operands_of L i q).
Proof.
  intros NI. unfold data_qty, operands_of. destruct i; simpl; try tauto; try (split; [intros H; injection H as <-; reflexivity|intros ->; reflexivity]).
  split; [discriminate|tauto].
Qed.
Lemma ins_inv_dec (i : ins) : {i = I_INV} + {i <> I_INV}.
Proof. destruct i; auto; right; discriminate. Qed.
(** The loader's test for the invalid code, as a choice of two. *)
Lemma if_inv {A} (i : ins) (a b : A) : match i with I_INV => a | _ => b end = if ins_inv_dec i then a else b.
Proof. destruct (ins_inv_dec i) as [->|N]; [reflexivity|]. destruct i; congruence. Qed.
Lemma load_cell_sound L al als j x : load_cell L al als j = Ok (Some x) -> cell_text L j x.
Proof.
  unfold load_cell. destruct (member (txt "symbol") j) as [js|] eqn:E1; [|discriminate]. destruct js as [| | |s| |]; try discriminate. cbv zeta. rewrite if_inv.
  destruct (ins_inv_dec _) as [N|N]; [discriminate|]. destruct (proj1 (symbol_iff s _) (conj eq_refl N)) as (k & -> & K).
  set (i := get_instruction_code (txt k)) in *.
  destruct (member (txt "bar") j) as [jb|] eqn:E2; [|discriminate]. destruct jb as [|b| | | |]; try discriminate.
  destruct (member (txt "data") j) as [jd|] eqn:E3; [|discriminate]. destruct jd as [| | | |ds|]; try discriminate.
  apply member_iff in E1, E2, E3. intros H. apply rbind_inv in H as (q & Q & H). destruct (Nat.eqb_spec (length ds) q) as [<-|]; [|discriminate].
  apply data_qty_iff in Q; auto. destruct (Nat.eqb_spec (length ds) 0) as [Z|Z].
  - injection H as <-. destruct ds as [|o ds]; [|discriminate]. exists k, i, b, [], []. unfold string_is. repeat (split; [auto; fail|]). split; auto. intros [|d]; discriminate.
  - destruct al; [|discriminate]. destruct (load_operands L als i 0 ds) as [vs|] eqn:LO; [|discriminate]. injection H as <-.
    apply load_operands_sound in LO as [LO1 LO2]. exists k, i, b, ds, vs. unfold string_is.
    destruct ds as [|o ds]; [exfalso; apply Z; reflexivity|]. repeat (split; [auto; fail|]). auto.
Qed.
Lemma load_cell_complete L als j x : (forall d, als d = true) -> cell_text L j x -> load_cell L true als j = Ok (Some x).
Proof.
  intros AL (s & i & b & ds & vs & A & B & C & D & E & F & G & ->). unfold string_is in *. unfold load_cell. apply member_iff in A, C, D. rewrite A, C, D.
  destruct (proj2 (symbol_iff (txt s) i)) as [K N]; [eauto|]. cbv zeta. rewrite K, if_inv. destruct (ins_inv_dec i) as [X|X]; [contradiction|].
  rewrite (proj2 (data_qty_iff L i (length ds) N) E). cbn [rbind]. rewrite Nat.eqb_refl.
  destruct ds as [|o ds]; [reflexivity|]. cbn [length Nat.eqb].
  rewrite (load_operands_complete L als i AL (o :: ds) 0 vs) by auto. reflexivity.
Qed.
Lemma load_cell_total L al als j : (exists q, beyond L = Ok q) \/ ~ occupied j -> exists o, load_cell L al als j = Ok o.
Proof.
  intros T. unfold load_cell. destruct (member (txt "symbol") j) as [js|] eqn:E1; [|eauto]. destruct js as [| | |s| |]; eauto. cbv zeta. rewrite if_inv.
  destruct (ins_inv_dec _) as [N|N]; [eauto|]. destruct (member (txt "bar") j) as [jb|]; [|eauto]. destruct jb; eauto.
  destruct (member (txt "data") j) as [jd|]; [|eauto]. destruct jd; eauto.
  assert (exists q, data_qty L (get_instruction_code s) = Ok q) as [q ->].
  { destruct (proj1 (symbol_iff s _) (conj eq_refl N)) as (k & -> & K). destruct T as [[q T]|T].
    - unfold data_qty. destruct (get_instruction_code (txt k)) eqn:GI; cbn; eauto. clear -K. simpl in K. intuition discriminate.
    - assert (NM : get_instruction_code (txt k) <> I_MULTI).
      { intros GI. apply T. unfold occupied, string_is. apply member_iff. rewrite E1. rewrite GI in K. simpl in K.
        repeat (destruct K as [K|K]; [try discriminate; injection K as <-; reflexivity|]). contradiction. }
      unfold data_qty. destruct (get_instruction_code (txt k)) eqn:GI; cbn; eauto; [congruence|]. clear -K. simpl in K. intuition discriminate. }
  cbn [rbind]. destruct (_ =? _)%nat; [|eauto]. destruct (_ =? _)%nat; [eauto|]. destruct al; [|eauto]. destruct (load_operands _ _ _ _ _); eauto.
Qed.
Lemma load_cells_sound L (f : nat -> json -> res (option cell)) : (forall c j x, f c j = Ok (Some x) -> cell_text L j x) ->
  forall js c xs, load_cells f c js = Ok (Some xs) -> Forall2 (cell_text L) js xs.
Proof.
  intros F. induction js as [|j js IH]; intros c xs H; simpl in H; [injection H as <-; constructor|].
  apply rbind_inv in H as (o & O1 & H). destruct o as [x|]; [|discriminate]. apply rbind_inv in H as (os & O2 & H). destruct os as [ys|]; [|discriminate].
  injection H as <-. constructor; eauto.
Qed.
Lemma load_cells_complete L (f : nat -> json -> res (option cell)) : (forall c j x, cell_text L j x -> f c j = Ok (Some x)) ->
  forall js xs, Forall2 (cell_text L) js xs -> forall c, load_cells f c js = Ok (Some xs).
Proof. intros F. induction 1 as [|j x js xs H _ IH]; intros c; simpl; auto. rewrite (F c j x H). simpl. rewrite IH. reflexivity. Qed.
Lemma load_cells_total (f : nat -> json -> res (option cell)) : forall js c, (forall c j, In j js -> exists o, f c j = Ok o) -> exists o, load_cells f c js = Ok o.
Proof.
  induction js as [|j js IH]; intros c F; simpl; [eauto|]. destruct (F c j) as [o ->]; [left; auto|]. simpl. destruct o; [|eauto].
  destruct (IH (S c)) as [o ->]; [intros; apply F; right; auto|]. simpl. destruct o; eauto.
Qed.
Lemma cols_test cols n : 0 <= cols < 2 ^ 32 -> i32 cols =? Z.of_nat n = true <-> n = Z.to_nat cols /\ cols < 2 ^ 31.
Proof.
  intros C. rewrite Z.eqb_eq. unfold i32. destruct (Z.lt_ge_cases cols (2 ^ 31)) as [H|H].
  - rewrite Z.mod_small by lia. lia.
  - assert ((cols + 2 ^ 31) mod 2 ^ 32 = cols + 2 ^ 31 - 2 ^ 32) as -> by (symmetry; apply Z.mod_unique with 1; lia). lia.
Qed.
Lemma load_rows_sound L al i cols : 0 <= cols < 2 ^ 32 -> forall js r xs, load_rows L al i cols r js = Ok (Some xs) -> Forall2 (row_text L (Z.to_nat cols)) js xs.
Proof.
  intros C. induction js as [|j js IH]; intros r xs H; cbn [load_rows] in H; [injection H as <-; constructor|].
  destruct j as [| | | |cs|]; try discriminate. destruct (i32 cols =? Z.of_nat (length cs)) eqn:E; [|discriminate]. apply cols_test in E as [E1 E2]; auto.
  apply rbind_inv in H as (o & O1 & H). destruct o as [x|]; [|discriminate]. apply rbind_inv in H as (os & O2 & H). destruct os as [ys|]; [|discriminate].
  injection H as <-. constructor; [|eapply IH; exact O2]. exists cs. split; auto. split; auto. split; [lia|].
  eapply load_cells_sound; [|exact O1]. intros c0 j0 x0 H0. eapply load_cell_sound; exact H0.
Qed.
Lemma load_rows_complete L al i cols : (forall s, element_of s = i -> al s = true) -> 0 <= cols < 2 ^ 32 -> forall js xs, Forall2 (row_text L (Z.to_nat cols)) js xs ->
  forall r, load_rows L al i cols r js = Ok (Some xs).
Proof.
  intros AL C. induction 1 as [|j x js xs H _ IH]; intros r; auto. destruct H as (cs & -> & E1 & E2 & H). cbn [load_rows].
  rewrite (proj2 (cols_test cols (length cs) C)) by (split; [auto|lia]).
  rewrite (load_cells_complete L (fun c => load_cell L (al (A_data i r c)) (fun d => al (A_str i r c d)))) with (xs := x); auto.
  - cbn [rbind]. rewrite IH. reflexivity.
  - intros c j0 x0 K. rewrite AL by reflexivity. apply load_cell_complete; auto.
Qed.
Lemma load_rows_total L al i cols : forall js r, within_table L js -> exists o, load_rows L al i cols r js = Ok o.
Proof.
  induction js as [|j js IH]; intros r T; cbn [load_rows]; [eauto|]. destruct j as [| | | |cs|]; eauto. destruct (_ =? _); [|eauto].
  destruct (load_cells_total (fun c => load_cell L (al (A_data i r c)) (fun d => al (A_str i r c d))) cs 0) as [o ->].
  { intros c j J. apply load_cell_total. destruct T as [T|T]; auto. right. eapply T; [left; reflexivity|auto]. }
  cbn [rbind]. destruct o; [|eauto]. destruct (IH (S r)) as [o ->]; [|cbn; destruct o; eauto].
  destruct T as [T|T]; [left; auto|right]. intros cs' x' I1 I2. eapply T; [right; eauto|auto].
Qed.

(** ** Networks *)

(** All rows and cells of a network exist, and operand arrays are as long as the counts say. *)
Definition net_ok (nt : network) : Prop :=
  (forall r, (r < n_rows nt)%nat -> elem (n_cells nt) r <> None)
  /\ forall r col, (r < n_rows nt)%nat -> (col < n_cols nt)%nat -> exists x, ncell nt r col = Some x /\ data_there x = true.
Lemma net_ok_none en k : net_ok (mk_network en 0 k None).
Proof. split; simpl; intros; lia. Qed.
Lemma release_ok nt : net_ok nt -> release_cells nt = Ok tt.
Proof.
  intros [A B]. unfold release_cells. destruct (Nat.eqb_spec (n_rows nt) 0) as [Z|Z]; auto.
  destruct (n_cells nt) as [l|] eqn:C.
  - assert (LE : (n_rows nt <= length l)%nat).
    { specialize (A (n_rows nt - 1)%nat ltac:(lia)). simpl in A. apply nth_error_Some in A. lia. }
    rewrite (proj2 (Nat.leb_le _ _) LE). cbn [andb].
    replace (forallb (row_there (n_cols nt)) (firstn (n_rows nt) l)) with true; auto. symmetry. apply forallb_forall. intros row I.
    apply In_nth_error in I as [r R]. assert (RR : (r < n_rows nt)%nat).
    { assert (nth_error (firstn (n_rows nt) l) r <> None) as H by congruence. apply nth_error_Some in H. rewrite firstn_length in H. lia. }
    assert (R' : nth_error l r = Some row) by (rewrite <- (firstn_skipn (n_rows nt) l), nth_error_app1; auto; rewrite firstn_length; lia).
    assert (CC : forall col, (col < n_cols nt)%nat -> exists x, nth_error row col = Some x /\ data_there x = true).
    { intros col C0. destruct (B r col RR C0) as (x & X & D). unfold ncell in X. rewrite C in X. simpl in X. rewrite R' in X. eauto. }
    unfold row_there. apply andb_true_iff. split.
    + apply Nat.leb_le. destruct (n_cols nt) as [|k] eqn:K; [lia|]. destruct (CC k) as (x & X & _); [lia|].
      assert (nth_error row k <> None) as H by congruence. apply nth_error_Some in H. lia.
    + apply forallb_forall. intros x I. apply In_nth_error in I as [col X].
      assert (C0 : (col < n_cols nt)%nat). { assert (nth_error (firstn (n_cols nt) row) col <> None) as H by congruence. apply nth_error_Some in H. rewrite firstn_length in H. lia. }
      destruct (CC col C0) as (y & Y & D). assert (x = y); [|congruence].
      assert (nth_error row col = Some x); [|congruence]. rewrite <- (firstn_skipn (n_cols nt) row), nth_error_app1; auto.
      assert (nth_error (firstn (n_cols nt) row) col <> None) as H by congruence. now apply nth_error_Some in H.
  - specialize (A 0%nat ltac:(lia)). simpl in A. congruence.
Qed.
(** A network whose cells are all empty. *)
Definition net_blank (nt : network) : Prop :=
  forall r col x, (r < n_rows nt)%nat -> (col < n_cols nt)%nat -> ncell nt r col = Some x -> c_state x = false /\ c_bar x = false /\ c_code x = I_NOP /\ c_data x = None.
Lemma clear_blank nt nt' : map_cells clear_cell nt = Ok nt' -> (forall r col, (r < n_rows nt)%nat -> (col < n_cols nt)%nat -> ncell nt r col <> None) -> net_blank nt'.
Proof.
  intros H A. apply map_cells_spec in H as (_ & R & C & _ & _ & S). intros r col y R1 C1 Y. rewrite R in R1. rewrite C in C1. specialize (A r col R1 C1).
  destruct (ncell nt r col) as [x|] eqn:X; [|congruence]. specialize (S r col x X). rewrite (proj2 (in_rect_lt nt r col)) in S by auto.
  destruct S as (z & Z & S). rewrite S in Y. injection Y as ->. apply clear_cell_ok in Z. tauto.
Qed.
Lemma clear_net nt : net_ok nt -> exists nt', map_cells clear_cell nt = Ok nt' /\ net_ok nt'.
Proof.
  intros [A B]. assert (exists nt', map_cells clear_cell nt = Ok nt') as [nt' H].
  { unfold map_cells. destruct ((n_rows nt =? 0)%nat || (n_cols nt =? 0)%nat) eqn:Z0; [eauto|].
    destruct (pmap_first_ok (n_rows nt) (map_first (n_cols nt) clear_cell) (n_cells nt)) as [p Hp]; [|rewrite Hp; simpl; eauto].
    intros r R. destruct (elem (n_cells nt) r) as [rw|] eqn:RW; [|exfalso; eapply A; eauto].
    destruct (map_first_ok' (n_cols nt) clear_cell rw) as [rw' Hrw]; [|eauto].
    intros col C. destruct (B r col R C) as (x & X & D). unfold ncell in X. rewrite RW in X. simpl in X.
    unfold clear_cell. unfold data_there in D. exists x. destruct (c_data x); [rewrite D|]; eauto. }
  exists nt'. split; auto. apply map_cells_spec in H as (_ & R & C & _ & RL & S). split.
  - intros r R1. rewrite R in R1. specialize (RL r). specialize (A r R1). destruct (elem (n_cells nt) r); [|congruence]. destruct (elem (n_cells nt') r); [discriminate|discriminate RL].
  - intros r col R1 C1. rewrite R in R1. rewrite C in C1. destruct (B r col R1 C1) as (x & X & D). specialize (S r col x X). rewrite (proj2 (in_rect_lt nt r col)) in S by auto.
    destruct S as (z & Z & S). exists z. split; auto. apply clear_cell_ok in Z. unfold data_there. destruct Z as (_ & _ & _ & -> & _). auto.
Qed.
Lemma releasable_iff c : releasable c <-> forall n, (n < q_nets (x_q c))%nat -> exists nt, net_of c n = Some nt /\ net_ok nt.
Proof.
  split.
  - intros [W R] n N. destruct (W n N) as (en & rows & cols & HN & HC). assert (exists nt, net_of c n = Some nt) as [nt ON] by (simpl in HN; destruct (net_of c n); [eauto|discriminate]).
    exists nt. split; auto. assert (HN' := HN). simpl in HN. rewrite ON in HN. injection HN as E1 E2 E3. subst. split.
    + intros r R1 E. apply (R n _ _ _ r N HN' R1). simpl. unfold row_of. rewrite ON. simpl. now rewrite E.
    + intros r col R1 C1. destruct (HC r col R1 C1) as (bar & i & dq & H1 & H2). simpl in H1, H2. rewrite (cell_of_net _ _ _ _ _ ON) in *.
      destruct (ncell nt r col) as [x|]; [|discriminate]. exists x. split; auto. simpl in *. injection H1 as E1 E2 E3. unfold data_there. destruct (c_data x) as [d|]; auto.
      simpl in H2. apply Nat.leb_le. destruct H2 as [H2|(k & H2 & K)]; [discriminate|]. injection H2 as H2. lia.
  - intros H. split.
    + intros n N. destruct (H n N) as (nt & ON & A & B). exists (n_en nt), (n_rows nt), (n_cols nt). simpl. rewrite ON. split; auto. intros r col R C.
      rewrite (cell_of_net _ _ _ _ _ ON). destruct (B r col R C) as (x & -> & D). exists (c_bar x), (c_code x), (c_dq x). simpl. split; auto.
      unfold data_there in D. destruct (c_data x) as [d|]; [right|left; auto]. exists (length d). split; auto. now apply Nat.leb_le.
    + intros n en rows cols r N HN R. destruct (H n N) as (nt & ON & A & B). simpl in *. rewrite ON in HN. injection HN as <- <- <-.
      unfold row_of. rewrite ON. simpl. specialize (A r R). destruct (elem (n_cells nt) r); [discriminate|congruence].
Qed.
Lemma nth_error_forall2 {A B} (P : A -> B -> Prop) l l' i y : Forall2 P l l' -> nth_error l' i = Some y -> exists x, nth_error l i = Some x /\ P x y.
Proof.
  intros F. revert i. induction F as [|x z l l' H _ IH]; intros [|i] N; simpl in *; try discriminate; eauto. injection N as <-. eauto.
Qed.
Lemma forall2_len {A B} (P : A -> B -> Prop) l l' : Forall2 P l l' -> length l = length l'.
Proof. induction 1; simpl; congruence. Qed.
Lemma network_text_ok L j nt : network_text L j nt -> net_ok nt.
Proof.
  intros (rows & cols & rs & cells & _ & _ & _ & LR & _ & F & ->). assert (LC := forall2_len _ _ _ F). split; simpl.
  - intros r R E. apply nth_error_None in E. lia.
  - intros r col R C. destruct (nth_error cells r) as [row|] eqn:E; [|apply nth_error_None in E; lia].
    destruct (nth_error_forall2 _ _ _ _ _ F E) as (jr & _ & cs & _ & LCS & _ & G). assert (LX := forall2_len _ _ _ G).
    destruct (nth_error row col) as [x|] eqn:X; [|apply nth_error_None in X; lia]. exists x. unfold ncell. simpl. rewrite E. simpl. split; auto.
    destruct (nth_error_forall2 _ _ _ _ _ G X) as (jc & _ & s & i & b & ds & vs & _ & _ & _ & _ & _ & LV & _ & ->). unfold data_there. simpl.
    destruct ds; auto. apply Nat.leb_le. simpl in *. lia.
Qed.
Lemma trunc_range d z : dbl_trunc d 0 (2 ^ 32 - 1) = Ok z -> 0 <= z < 2 ^ 32.
Proof. intros H. apply dbl_trunc_iff in H; lia. Qed.
Lemma load_network_sound L al i j nt : load_network L al i j = Ok (nt, true) -> network_text L j nt.
Proof.
  unfold load_network. destruct (member (txt "rows") j) as [jr|] eqn:E1; [|discriminate]. destruct jr as [| |dr| | |]; try discriminate.
  intros H. apply rbind_inv in H as (rows & R & H). destruct (member (txt "cols") j) as [jc|] eqn:E2; [|discriminate]. destruct jc as [| |dc| | |]; try discriminate.
  apply rbind_inv in H as (cols & C & H). cbv zeta in H. destruct (member (txt "networkData") j) as [jn|] eqn:E3; [|discriminate]. destruct jn as [| | | |rs|]; try discriminate.
  destruct (_ =? _) eqn:LE; [|discriminate]. assert (R0 := trunc_range _ _ R). assert (C0 := trunc_range _ _ C). apply cols_test in LE as [LE1 LE2]; auto.
  destruct (al (A_cells i)); [|discriminate]. destruct (forallb _ _); [|discriminate]. apply rbind_inv in H as (o & O1 & H). destruct o as [x|]; [|discriminate].
  injection H as <-. apply load_rows_sound in O1; auto. exists (Z.to_nat rows), (Z.to_nat cols), rs, x.
  split; [apply natural_iff; exists dr; split; auto; rewrite R; f_equal; lia|]. split; [apply natural_iff; exists dc; split; auto; rewrite C; f_equal; lia|].
  split; [now apply member_iff|]. split; auto. split; [lia|]. auto.
Qed.
Lemma load_network_complete L al i j nt : (forall s, element_of s = i -> al s = true) -> network_text L j nt -> load_network L al i j = Ok (nt, true).
Proof.
  intros AL (rows & cols & rs & cells & A & B & C & D & E & F & ->). apply natural_iff in A as (dr & A1 & A2). apply natural_iff in B as (dc & B1 & B2).
  apply member_iff in C. unfold load_network. rewrite A1, A2. cbn [rbind]. rewrite B1, B2. cbn [rbind]. cbv zeta. rewrite C.
  assert (C0 := trunc_range _ _ B2). assert (R0 := trunc_range _ _ A2).
  rewrite (proj2 (cols_test _ (length rs) R0)) by (split; [lia|auto]). rewrite AL by reflexivity.
  replace (forallb _ _) with true by (symmetry; apply forallb_forall; auto).
  rewrite (load_rows_complete L al i _ AL C0 rs cells) by (now rewrite Nat2Z.id). cbn [rbind]. now rewrite !Nat2Z.id.
Qed.
Lemma load_network_false L al i j nt : load_network L al i j = Ok (nt, false) -> n_en nt = true /\ n_cells nt = None /\
  (n_rows nt = 0%nat \/ natural_is j "rows" (n_rows nt) /\ (n_cols nt = 0%nat /\ (forall k, ~ natural_is j "cols" k)
     \/ natural_is j "cols" (n_cols nt) /\ (al (A_cells i) = false \/ ~ (Z.of_nat (n_rows nt) < 2 ^ 31 /\ exists rs, member_is j "networkData" (JArr rs) /\ length rs = n_rows nt)))).
Proof.
  unfold load_network. destruct (member (txt "rows") j) as [jr|] eqn:E1; [|intros H; injection H as <-; auto].
  destruct jr as [| |dr| | |]; try (intros H; injection H as <-; auto; fail).
  intros H. apply rbind_inv in H as (rows & R & H). assert (R0 := trunc_range _ _ R).
  assert (NR : natural_is j "rows" (Z.to_nat rows)) by (apply natural_iff; exists dr; split; auto; rewrite R; f_equal; lia).
  destruct (member (txt "cols") j) as [jc|] eqn:E2.
  2: { injection H as <-. simpl. split; auto. split; auto. right. split; auto. left. split; auto. intros k K. apply natural_iff in K as (d & K & _). congruence. }
  destruct jc as [| |dc| | |]; try (injection H as <-; simpl; split; auto; split; auto; right; split; auto; left; split; auto; intros k K; apply natural_iff in K as (d & K & _); congruence).
  apply rbind_inv in H as (cols & C & H). assert (C0 := trunc_range _ _ C). cbv zeta in H.
  assert (NC : natural_is j "cols" (Z.to_nat cols)) by (apply natural_iff; exists dc; split; auto; rewrite C; f_equal; lia).
  destruct (member (txt "networkData") j) as [jn|] eqn:E3.
  2: { injection H as <-. simpl. split; auto. split; auto. right. split; auto. right. split; auto. right. intros (_ & rs & K & _). apply member_iff in K. congruence. }
  destruct jn as [| | | |rs|]; try (injection H as <-; simpl; split; auto; split; auto; right; split; auto; right; split; auto; right; intros (_ & rs & K & _); apply member_iff in K; congruence).
  destruct (_ =? _) eqn:LE.
  2: { injection H as <-. simpl. split; auto. split; auto. right. split; auto. right. split; auto. right. intros (K1 & rs' & K & K2). apply member_iff in K. rewrite E3 in K. injection K as <-.
       assert (i32 rows =? Z.of_nat (length rs) = true); [|congruence]. apply cols_test; auto. split; auto. lia. }
  destruct (al (A_cells i)).
  2: { injection H as <-. simpl. split; auto. split; auto. right. split; auto. }
  destruct (forallb _ _); [|injection H as <-; auto]. apply rbind_inv in H as (o & O1 & H). destruct o as [x|]; [discriminate|]. injection H as <-. auto.
Qed.
Lemma load_network_total L al i j : tame_number j "rows" -> tame_number j "cols" -> (forall rs, member_is j "networkData" (JArr rs) -> within_table L rs) ->
  exists p, load_network L al i j = Ok p.
Proof.
  intros TR TC WT. unfold load_network. destruct (member (txt "rows") j) as [jr|] eqn:E1; [|eauto]. destruct jr as [| |dr| | |]; eauto.
  apply member_iff in E1. destruct (TR dr E1) as (rows & R1 & R2). rewrite (proj2 (dbl_trunc_iff dr 0 (2 ^ 32 - 1) rows ltac:(lia))) by (split; [auto|lia]). cbn [rbind].
  destruct (member (txt "cols") j) as [jc|] eqn:E2; [|eauto]. destruct jc as [| |dc| | |]; eauto.
  apply member_iff in E2. destruct (TC dc E2) as (cols & C1 & C2). rewrite (proj2 (dbl_trunc_iff dc 0 (2 ^ 32 - 1) cols ltac:(lia))) by (split; [auto|lia]). cbn [rbind].
  destruct (member (txt "networkData") j) as [jn|] eqn:E3; [|eauto]. destruct jn as [| | | |rs|]; eauto. destruct (_ =? _); [|eauto]. destruct (al _); [|eauto]. destruct (forallb _ _); [|eauto].
  destruct (load_rows_total L al i cols rs 0) as [o ->]; [apply WT; now apply member_iff|]. cbn [rbind]. destruct o; eauto.
Qed.

(** ** Elements of the document *)

Definition put_net (n : nat) (nt : network) (c : ctx) : ctx := set_x_net (option_map (fun l => lset l n nt) (x_net c)) c.
Lemma put_q n nt c : q_nets (x_q (put_net n nt c)) = q_nets (x_q c).
Proof. destruct c; reflexivity. Qed.
Lemma put_net_of n nt c m : net_of (put_net n nt c) m = if (n =? m)%nat then match net_of c n with Some _ => Some nt | None => None end else net_of c m.
Proof.
  unfold net_of, put_net. destruct c; simpl. unfold elem, obind. destruct x_net as [l|]; simpl; [|destruct (n =? m)%nat; auto].
  destruct (Nat.eqb_spec n m) as [<-|N].
  - destruct (nth_error l n) as [x|] eqn:E.
    + apply nth_lset_same. apply nth_error_Some. congruence.
    + apply nth_error_None. rewrite lset_length. now apply nth_error_None.
  - now apply nth_lset_other.
Qed.
Lemma load_element_inv L al i j c c' ok : load_element L al i j c = Ok (c', ok) ->
  ok = false /\ c' = c \/ exists n nt nt', natural_is j "id" n /\ (n < q_nets (x_q c))%nat /\ net_of c n = Some nt /\ load_network L al i j = Ok (nt', ok) /\ c' = put_net n nt' c.
Proof.
  unfold load_element. destruct j as [| | | | |ms] eqn:J; try (intros H; injection H as <- <-; auto; fail). rewrite <- J in *.
  destruct (member (txt "id") j) as [ji|] eqn:E1; [|intros H; injection H as <- <-; auto]. destruct ji as [| |d| | |]; try (intros H; injection H as <- <-; auto; fail).
  intros H. apply rbind_inv in H as (n & D & H). assert (N0 := trunc_range _ _ D). destruct (Z.leb_spec (Z.of_nat (q_nets (x_q c))) n) as [Q|Q]; [injection H as <- <-; auto|].
  apply rbind_inv in H as (nt & N & H). apply rbind_inv in H as (u & _ & H). apply rbind_inv in H as ([nt' ok'] & LN & H). apply net_at_inv in N.
  right. exists (Z.to_nat n), nt, nt'. split; [apply natural_iff; exists d; split; auto; rewrite D; f_equal; lia|]. split; [lia|]. split; auto.
  unfold put_net. destruct (x_net c) as [l|]; [|discriminate]. injection H as <- <-. auto.
Qed.
Lemma load_element_run L al i j c n nt p : natural_is j "id" n -> (n < q_nets (x_q c))%nat -> net_of c n = Some nt -> net_ok nt -> load_network L al i j = p ->
  load_element L al i j c = (let? x := p in Ok (put_net n (fst x) c, snd x)).
Proof.
  intros A B C D <-. apply natural_iff in A as (d & A1 & A2). unfold load_element. destruct j as [| | | | |ms] eqn:J; try discriminate A1. rewrite <- J in *.
  rewrite A1, A2. cbn [rbind]. rewrite (proj2 (Z.leb_gt _ _)) by lia. rewrite Nat2Z.id, (net_at_of _ _ _ C). cbn [rbind]. rewrite (release_ok _ D). cbn [rbind].
  destruct (load_network L al i j) as [[nt' ok]|u|]; auto. cbn [rbind fst snd]. unfold put_net, net_of, elem, obind in *. destruct (x_net c); [auto|discriminate].
Qed.
(** Loading keeps the networks in shape as long as the elements are loaded. *)
Definition nets_ok (c : ctx) : Prop := forall n, (n < q_nets (x_q c))%nat -> exists nt, net_of c n = Some nt /\ net_ok nt.
Lemma put_nets_ok n nt c : nets_ok c -> net_ok nt -> nets_ok (put_net n nt c).
Proof.
  intros H K m M. rewrite put_q in M. rewrite put_net_of. destruct (H m M) as (x & X & Y). destruct (Nat.eqb_spec n m) as [->|]; [rewrite X|]; eauto.
Qed.
(** The context after the described networks were put in their places. *)
Fixpoint put_all (ps : list (nat * network)) (c : ctx) : ctx := match ps with [] => c | (n, nt) :: ps => put_all ps (put_net n nt c) end.
Lemma put_all_q ps : forall c, q_nets (x_q (put_all ps c)) = q_nets (x_q c).
Proof. induction ps as [|[n nt] ps IH]; simpl; intros c; auto. rewrite IH. apply put_q. Qed.
Lemma put_all_of ps : forall c m, net_of (put_all ps c) m = match final ps m with Some nt => match net_of c m with Some _ => Some nt | None => None end | None => net_of c m end.
Proof.
  induction ps as [|[n nt] ps IH]; simpl; intros c m; auto. rewrite IH, put_net_of. destruct (final ps m).
  - destruct (Nat.eqb_spec n m) as [->|]; auto. destruct (net_of c m); auto.
  - destruct (Nat.eqb_spec n m) as [->|]; auto.
Qed.
Lemma put_all_nets ps : forall c, set_x_net None (put_all ps c) = set_x_net None c /\ size (x_net (put_all ps c)) = size (x_net c).
Proof.
  induction ps as [|[n nt] ps IH]; simpl; intros c; auto. destruct (IH (put_net n nt c)) as [A B]. rewrite A, B. split; [destruct c; reflexivity|].
  unfold put_net. destruct c; simpl. destruct x_net; simpl; auto. now rewrite lset_length.
Qed.
Lemma load_elements_sound L al : forall js i c c', load_elements L al i js c = Ok (c', true) -> exists ps, describes_networks L (q_nets (x_q c)) js ps /\ c' = put_all ps c.
Proof.
  induction js as [|j js IH]; intros i c c' H; simpl in H.
  - injection H as <-. exists []. split; [constructor|auto].
  - apply rbind_inv in H as ([c1 ok] & E & H). destruct ok; [|discriminate]. apply load_element_inv in E as [[E _]|(n & nt & nt' & A & B & C & D & ->)]; [discriminate|].
    apply IH in H as (ps & P & ->). rewrite put_q in P. apply load_network_sound in D. exists ((n, nt') :: ps). split; auto. constructor; auto.
Qed.
Lemma load_elements_app L al : forall js i c ps rest, (forall s, (element_of s < i + length js)%nat -> al s = true) -> nets_ok c -> describes_networks L (q_nets (x_q c)) js ps ->
  load_elements L al i (js ++ rest) c = load_elements L al (i + length js) rest (put_all ps c) /\ nets_ok (put_all ps c).
Proof.
  induction js as [|j js IH]; intros i c ps rest AL OK D; inversion D as [|? [n nt] ? ps' (A & B & C) F]; subst; cbn [fst snd] in *.
  - simpl. now rewrite Nat.add_0_r.
  - destruct (OK n B) as (old & O1 & O2). cbn [app load_elements]. rewrite (load_element_run L al i j c n old _ A B O1 O2 (load_network_complete L al i j nt (fun s E => AL s ltac:(rewrite E; simpl; lia)) C)).
    cbn [rbind fst snd]. assert (F' : describes_networks L (q_nets (x_q (put_net n nt c))) js ps') by (now rewrite put_q).
    destruct (IH (S i) (put_net n nt c) ps' rest (fun s E => AL s ltac:(simpl in *; lia)) (put_nets_ok n nt c OK (network_text_ok _ _ _ C)) F') as [E K]. rewrite E. cbn [put_all length]. rewrite Nat.add_succ_comm. auto.
Qed.

(** ** Clearing *)

Lemma map_cells_exist f nt nt' r col : map_cells f nt = Ok nt' -> (r < n_rows nt)%nat -> (col < n_cols nt)%nat -> ncell nt r col <> None.
Proof.
  unfold map_cells. intros H R C. rewrite (proj2 (orb_false_iff _ _)) in H by (split; apply Nat.eqb_neq; lia).
  apply rbind_inv in H as (p & P & _). unfold pmap_first in P. destruct (n_rows nt) as [|k] eqn:K; [lia|]. destruct (n_cells nt) as [l|] eqn:CE; [|discriminate].
  apply rbind_inv in P as (l' & M & _). apply map_first_spec in M as (_ & LE & M). unfold ncell. rewrite CE. simpl.
  destruct (nth_error l r) as [row|] eqn:RW; [|apply nth_error_None in RW; lia]. simpl. destruct (M r row RW) as [M1 _]. destruct (M1 R) as (row' & M2 & _).
  apply map_first_spec in M2 as (_ & LE2 & _). apply nth_error_Some. lia.
Qed.
Lemma clearing_ok c : nets_ok c -> exists c', clear_program c = Ok c' /\ nets_ok c'.
Proof.
  intros H. destruct (pmap_first_ok (q_nets (x_q c)) (map_cells clear_cell) (x_net c)) as [p Hp].
  { intros n N. destruct (H n N) as (nt & O1 & K). destruct (clear_net nt K) as (nt' & K' & _). exists nt, nt'. auto. }
  assert (HC : clear_program c = Ok (set_x_net p c)) by (unfold clear_program; now rewrite Hp).
  exists (set_x_net p c). split; auto. intros n N. apply clear_program_nets in HC as (_ & _ & NS). assert (N' : (n < q_nets (x_q c))%nat) by (destruct c; exact N).
  specialize (NS n). destruct (H n N') as (nt & O1 & K). rewrite O1 in NS. rewrite (proj2 (Nat.ltb_lt _ _) N') in NS. destruct NS as (nt' & M & O2).
  destruct (clear_net nt K) as (nt2 & M2 & K2). rewrite M in M2. injection M2 as <-. eauto.
Qed.
Lemma clear_emptied c c' : clear_program c = Ok c' -> emptied c'.
Proof.
  intros H n r col (N & en & rows & cols & HN & R & C). apply clear_program_nets in H as (E & _ & NS). rewrite E in N. assert (N' : (n < q_nets (x_q c))%nat) by (destruct c; exact N).
  specialize (NS n). destruct (net_of c n) as [nt|] eqn:O1; [|simpl in HN; rewrite NS in HN; discriminate]. rewrite (proj2 (Nat.ltb_lt _ _) N') in NS. destruct NS as (nt' & M & O2).
  simpl in HN. rewrite O2 in HN. injection HN as <- <- <-. assert (M' := M). apply map_cells_spec in M' as (_ & RR & CC & _ & _ & S). rewrite RR in R. rewrite CC in C.
  assert (X := map_cells_exist _ _ _ r col M R C). destruct (ncell nt r col) as [x|] eqn:X1; [|congruence]. specialize (S r col x X1). rewrite (proj2 (in_rect_lt nt r col)) in S by auto.
  destruct S as (y & Y & S). apply clear_cell_ok in Y as (B1 & B2 & B3 & B4 & _). unfold blank, powered. simpl peek. rewrite (cell_of_net _ _ _ _ _ O2), S. simpl. rewrite B1, B2, B3, B4. eauto.
Qed.
Lemma clear_q c c' : clear_program c = Ok c' -> x_q c' = x_q c /\ set_x_net None c' = set_x_net None c /\ size (x_net c') = size (x_net c).
Proof. intros H. apply clear_program_nets in H as (E & S & _). rewrite E at 1 2. destruct c; simpl in *. auto. Qed.
(** Contexts that differ in networks only. *)
Lemma nets_frame c c' : set_x_net None c' = set_x_net None c -> size (x_net c') = size (x_net c) ->
  forall l, (forall n, network_place n l -> net_of c' n = net_of c n) -> peek c' l = peek c l.
Proof.
  intros E S l H.
  assert (NP : forall n, network_place n l -> peek c' l = peek c l).
  { intros n P. assert (K := H n P). destruct P as [->|[->|[(r & ->)|(r & col & [->|[->|[->|(j & ->)]]])]]]; simpl; unfold cell_of, row_of; now rewrite K. }
  unfold network_place, cell_place in NP. destruct l; try (eapply NP; eauto 10; fail); destruct c, c'; simpl in E, S; injection E; intros; subst; simpl; auto.
Qed.
(** What loading never touches. *)
Lemma load_frame L al : forall js i c c' ok, load_elements L al i js c = Ok (c', ok) ->
  x_q c' = x_q c /\ set_x_net None c' = set_x_net None c /\ size (x_net c') = size (x_net c) /\ forall n, (q_nets (x_q c) <= n)%nat -> net_of c' n = net_of c n.
Proof.
  assert (P : forall n nt c, (n < q_nets (x_q c))%nat -> x_q (put_net n nt c) = x_q c /\ set_x_net None (put_net n nt c) = set_x_net None c /\ size (x_net (put_net n nt c)) = size (x_net c)
    /\ forall m, (q_nets (x_q c) <= m)%nat -> net_of (put_net n nt c) m = net_of c m).
  { intros n nt c N. destruct (put_all_nets [(n, nt)] c) as [A B]. split; [destruct c; reflexivity|]. split; auto. split; auto. intros m M. rewrite put_net_of.
    destruct (Nat.eqb_spec n m); [lia|auto]. }
  induction js as [|j js IH]; intros i c c' ok H; simpl in H; [injection H as <- <-; auto|].
  apply rbind_inv in H as ([c1 b] & E & H). assert (F : x_q c1 = x_q c /\ set_x_net None c1 = set_x_net None c /\ size (x_net c1) = size (x_net c) /\ forall n, (q_nets (x_q c) <= n)%nat -> net_of c1 n = net_of c n).
  { apply load_element_inv in E as [[_ ->]|(n & nt & nt' & A & B & C & D & ->)]; auto. }
  destruct F as (F1 & F2 & F3 & F4). destruct b; [|injection H as <- <-; auto].
  apply IH in H as (G1 & G2 & G3 & G4). rewrite G1, G2, G3. split; auto. split; auto. split; auto. intros n N. rewrite G4; auto. rewrite F1. auto.
Qed.
Lemma clear_frame c c' : clear_program c = Ok c' -> x_q c' = x_q c /\ set_x_net None c' = set_x_net None c /\ size (x_net c') = size (x_net c)
  /\ forall n, (q_nets (x_q c) <= n)%nat -> net_of c' n = net_of c n.
Proof.
  intros H. destruct (clear_q _ _ H) as (A & B & C). split; auto. split; auto. split; auto. intros n N. apply clear_program_nets in H as (_ & _ & NS). specialize (NS n).
  destruct (net_of c n) as [nt|]; [|auto]. rewrite (proj2 (Nat.ltb_ge _ _) N) in NS. auto.
Qed.
Lemma load_elements_total L al : (forall i, al (A_cells i) = true) -> forall js i c, nets_ok c -> Forall (tame_element L) js -> exists c' ok, load_elements L al i js c = Ok (c', ok) /\ nets_ok c'.
Proof.
  intros AL. induction js as [|j js IH]; intros i c OK T; simpl; [eauto|]. inversion T as [|? ? (T1 & T2 & T3 & T4 & T5) T']; subst.
  destruct (load_network_total L al i j T2 T3 T5) as [[nt ok] LN].
  assert (NO : net_ok nt).
  { destruct ok; [eapply network_text_ok, load_network_sound; eauto|]. apply load_network_false in LN as (A & B & C). destruct nt as [en rows cols cells]. simpl in *. subst en cells.
    destruct C as [->|(C & D)]; [apply net_ok_none|]. destruct rows as [|rows]; [apply net_ok_none|]. exfalso. destruct (T4 _ C ltac:(lia)) as (K1 & k & rs & K2 & K3 & K4).
    destruct D as [(_ & D)|(_ & [D|D])]; [eapply D; eauto|congruence|]. apply D. eauto. }
  assert (exists c1 ok1, load_element L al i j c = Ok (c1, ok1) /\ nets_ok c1) as (c1 & ok1 & -> & OK1).
  { destruct (member (txt "id") j) as [ji|] eqn:E1.
    - assert ((exists d, ji = JNum d) \/ load_element L al i j c = Ok (c, false)) as [[d ->]|E].
      { unfold load_element. destruct j; try discriminate E1. rewrite E1. destruct ji; eauto. }
      + apply member_iff in E1. destruct (T1 d E1) as (n & N1 & N2). assert (NN : natural_is j "id" (Z.to_nat n)) by (exists d; rewrite Z2Nat.id by lia; auto with zarith).
        destruct (le_lt_dec (q_nets (x_q c)) (Z.to_nat n)) as [Q|Q].
        * exists c, false. split; auto. apply natural_iff in NN as (d' & A1 & A2). unfold load_element. destruct j; try discriminate A1. rewrite A1, A2. cbn [rbind].
          rewrite (proj2 (Z.leb_le _ _)) by lia. auto.
        * destruct (OK _ Q) as (old & O1 & O2). rewrite (load_element_run L al i j c _ old _ NN Q O1 O2 LN). cbn [rbind fst snd]. do 2 eexists. split; [reflexivity|]. now apply put_nets_ok.
      + eauto.
    - exists c, false. split; auto. unfold load_element. destruct j; auto. now rewrite E1. }
  cbn [rbind]. destruct ok1; [apply IH; auto|eauto].
Qed.
Lemma map_first_bad {A} (f : A -> res A) u : forall i n l x, (i < n)%nat -> (forall k, (k < i)%nat -> exists x y, nth_error l k = Some x /\ f x = Ok y) ->
  nth_error l i = Some x -> f x = Bad u -> map_first n f l = Bad u.
Proof.
  induction i as [|i IH]; intros n l x N B X F; destruct n as [|n]; try lia; destruct l as [|y l]; try discriminate; simpl.
  - injection X as ->. now rewrite F.
  - destruct (B 0%nat ltac:(lia)) as (z & w & Z & W). injection Z as ->. rewrite W. cbn [rbind]. rewrite (IH n l x); auto; [lia|]. intros k K. apply (B (S k)). lia.
Qed.
Lemma clear_bad c n nt u : (n < q_nets (x_q c))%nat -> (forall k, (k < n)%nat -> exists x, net_of c k = Some x /\ net_ok x) -> net_of c n = Some nt ->
  map_cells clear_cell nt = Bad u -> clear_program c = Bad u.
Proof.
  intros N B X F. unfold clear_program, pmap_first. destruct (q_nets (x_q c)) as [|q] eqn:Q; [lia|]. unfold net_of, elem, obind in *. destruct (x_net c) as [l|]; [|discriminate].
  rewrite (map_first_bad (map_cells clear_cell) u n (S q) l nt); auto. intros k K. destruct (B k K) as (x & X1 & X2). destruct (clear_net x X2) as (y & Y & _). eauto.
Qed.
Lemma load_network_wrong L al i j r k : natural_is j "rows" r -> natural_is j "cols" k ->
  al (A_cells i) = false \/ ~ (Z.of_nat r < 2 ^ 31 /\ exists rs, member_is j "networkData" (JArr rs) /\ length rs = r) -> load_network L al i j = Ok (mk_network true r k None, false).
Proof.
  intros A B H. apply natural_iff in A as (dr & A1 & A2). apply natural_iff in B as (dc & B1 & B2). unfold load_network. rewrite A1, A2. cbn [rbind]. rewrite B1, B2. cbn [rbind]. cbv zeta.
  rewrite !Nat2Z.id. destruct (member (txt "networkData") j) as [jn|] eqn:E; auto. destruct jn as [| | | |rs|]; auto. destruct (i32 (Z.of_nat r) =? Z.of_nat (length rs)) eqn:T; auto.
  destruct H as [->|H]; [auto|]. exfalso. apply cols_test in T as [T1 T2]; [|eapply trunc_range; eauto]. apply H. split; auto. exists rs. split; [now apply member_iff|lia].
Qed.
Lemma releasable_nets c : releasable c <-> nets_ok c.
Proof. apply releasable_iff. Qed.
