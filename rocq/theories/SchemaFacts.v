(** Facts about the validator. *)
From Coq Require Import String.
From Verif Require Export SpecSchema JsonFacts.
Open Scope list_scope.
Open Scope Z_scope.

(** ** Depth *)

Lemma list_max_in l x : In x l -> (x <= list_max l)%nat.
Proof. intros H. assert (K := proj1 (list_max_le l (list_max l)) (le_n _)). rewrite Forall_forall in K. auto. Qed.
Lemma depth_pos j : (0 < depth j)%nat.
Proof. destruct j; simpl; lia. Qed.
Lemma depth_elem l y : In y l -> (depth y < depth (JArr l))%nat.
Proof. intros H. simpl. apply (in_map depth) in H. apply list_max_in in H. lia. Qed.
Lemma depth_member l k y : In (k, y) l -> (depth y < depth (JObj l))%nat.
Proof. intros H. simpl. apply (in_map (fun p => depth (snd p))) in H. apply list_max_in in H. simpl in H. lia. Qed.
Lemma find_member_in l k v : find_member l k = Some v -> In (k, v) l.
Proof. intros H. apply find_member_is in H as (a & b & -> & _). apply in_or_app. simpl. auto. Qed.
Lemma depth_of s k v : member (txt k) s = Some v -> (depth v < depth s)%nat.
Proof. destruct s; try discriminate. simpl. intros H. apply find_member_in in H. apply (depth_member _ _ _ H). Qed.
Lemma depth_is s k v : member_is s k v -> (depth v < depth s)%nat.
Proof. intros H. apply member_iff in H. eapply depth_of; eauto. Qed.

(** ** Meaning *)

Lemma keywords_mono E V V' s j : (forall x y, (depth y < depth s)%nat -> (V x y <-> V' x y)) -> keywords E V s j -> keywords E V' s j.
Proof.
  intros H K. assert (KT := kw_then _ _ _ _ K). assert (KE := kw_else _ _ _ _ K). destruct K. constructor; auto.
  - intros ss js i x y M -> X Y. apply H; [|eauto]. apply depth_is in M. apply nth_error_In in Y. apply depth_elem in Y. lia.
  - intros i js x M N J I. apply H; [|eauto]. now apply depth_is in M.
  - intros ss a js i x M M' J X L. apply H; [|eauto]. now apply depth_is in M'.
  - intros ps a b k p v M J N I. apply H; [|eauto]. apply depth_is in M. apply depth_member in I. lia.
  - intros a l k v M J I N. apply H; [|eauto]. now apply depth_is in M.
  - intros ss x M I. apply H; [|eauto]. apply depth_is in M. apply depth_elem in I. lia.
  - intros i t M M' VI. apply H; [now apply depth_is in M'|]. apply (KT i t M M'). apply H; auto. now apply depth_is in M.
  - intros i t M M' VI. apply H; [now apply depth_is in M'|]. apply (KE i t M M'). intros K. apply VI, H; auto. now apply depth_is in M.
Qed.
Lemma draft7_unique E V V' : draft7 E V -> draft7 E V' -> forall j s, V j s <-> V' j s.
Proof.
  intros D D'. assert (H : forall n j s, (depth s <= n)%nat -> (V j s <-> V' j s)); [|intros; eapply H; eauto].
  induction n as [|n IH]; intros j s B; [assert (K := depth_pos s); lia|]. rewrite (D j s), (D' j s).
  split; (intros [A|[A K]]; [auto|right; split; auto]; eapply keywords_mono; [|exact K]; intros x y L; first [apply IH; lia | symmetry; apply IH; lia]).
Qed.
Fixpoint valid_at (E : json -> json -> Prop) (n : nat) (j s : json) : Prop :=
  match n with O => False | S n => s = JBool true \/ (exists l, s = JObj l) /\ keywords E (valid_at E n) s j end.
Lemma valid_at_enough E : forall n m j s, (depth s <= n)%nat -> (depth s <= m)%nat -> (valid_at E n j s <-> valid_at E m j s).
Proof.
  induction n as [|n IH]; intros m j s B B'; [assert (K := depth_pos s); lia|]. destruct m as [|m]; [assert (K := depth_pos s); lia|]. simpl.
  split; (intros [A|[A K]]; [auto|right; split; auto]; eapply keywords_mono; [|exact K]; intros x y L; first [apply IH; lia | symmetry; apply IH; lia]).
Qed.
Lemma draft7_exists E : draft7 E (fun j s => valid_at E (depth s) j s).
Proof.
  intros j s. assert (P := depth_pos s). destruct (depth s) as [|n] eqn:D; [lia|]. simpl.
  split; (intros [A|[A K]]; [auto|right; split; auto]; eapply keywords_mono; [|exact K]; intros x y L; apply valid_at_enough; lia).
Qed.

(** ** Fuel *)

Lemma all_ok_ext {A} (f g : A -> res bool) l : (forall x, In x l -> f x = g x) -> all_ok f l = all_ok g l.
Proof. induction l as [|x l IH]; intros H; auto. cbn [all_ok]. rewrite (H x) by (simpl; auto). destruct (g x) as [b| |]; auto. cbn [rbind]. destruct b; auto. apply IH. intros y Y. apply H. simpl; auto. Qed.
Lemma tuple_ok_ext f g : forall ss js, (forall j s, In s ss -> f j s = g j s) -> tuple_ok f ss js = tuple_ok g ss js.
Proof. induction ss as [|s ss IH]; intros [|j js] H; auto. cbn [tuple_ok]. rewrite (H j s) by (simpl; auto). destruct (g j s) as [b| |]; auto. cbn [rbind]. destruct b; auto. apply IH. intros y x Y. apply H. simpl; auto. Qed.
Lemma keywords_ext f g s j : (forall x y, (depth y < depth s)%nat -> f x y = g x y) -> keywords_ok f s j = keywords_ok g s j.
Proof.
  intros H. destruct j as [|b|d|t|js|l]; auto; cbn [keywords_ok].
  - unfold array_ok. f_equal. destruct (member (txt "items") s) as [i|] eqn:M; auto. apply depth_of in M. destruct i as [|b|d|t|ss|ps]; try (apply all_ok_ext; intros; apply H; auto; fail).
    rewrite (tuple_ok_ext f g); auto. intros x y Y. apply H. apply depth_elem in Y. lia.
  - unfold object_ok. f_equal. destruct (member (txt "properties") s) as [i|] eqn:M; auto. apply depth_of in M. destruct i as [|b|d|t|ss|ps]; auto.
    apply all_ok_ext. intros [k p] Y. cbn [fst snd]. destruct (member k (JObj l)); auto. apply H. apply depth_member in Y. lia.
Qed.
Lemma validate_fuel cmp : forall n m j s, (depth s <= n)%nat -> (depth s <= m)%nat -> validate n cmp j s = validate m cmp j s.
Proof.
  induction n as [|n IH]; intros m j s B B'; [assert (K := depth_pos s); lia|]. destruct m as [|m]; [assert (K := depth_pos s); lia|]. cbn [validate].
  destruct s as [| | | | |ms]; auto. set (s := JObj ms) in *.
  assert (IF : forall v k, member (txt k) s = Some v -> validate n cmp j v = validate m cmp j v) by (intros v k M; apply depth_of in M; apply IH; lia).
  assert (AL : match member (txt "allOf") s with Some (JArr ss) => all_ok (validate n cmp j) ss | _ => Ok true end = match member (txt "allOf") s with Some (JArr ss) => all_ok (validate m cmp j) ss | _ => Ok true end).
  { destruct (member (txt "allOf") s) as [a|] eqn:M; auto. destruct a; auto. apply all_ok_ext. intros x X. apply depth_of in M. apply depth_elem in X. apply IH; lia. }
  rewrite AL, (keywords_ext (validate n cmp) (validate m cmp) s j) by (intros x y L; apply IH; lia).
  destruct (member (txt "if") s) as [i|] eqn:MI; auto. destruct (member (txt "then") s) as [t|] eqn:MT; auto. now rewrite (IF i _ MI), (IF t _ MT).
Qed.

(** ** Deciding *)

Definition decides (r : res bool) (P : Prop) : Prop := exists b, r = Ok b /\ (b = true <-> P).
Lemma decides_iff r (P Q : Prop) : (P <-> Q) -> decides r P -> decides r Q.
Proof. intros H (b & E & K). exists b. split; auto. tauto. Qed.
Lemma decides_bool b (P : Prop) : (b = true <-> P) -> decides (Ok b) P.
Proof. intros H. exists b. auto. Qed.
Lemma decides_and r r' (P Q : Prop) : decides r P -> decides r' Q -> decides (let? b := r in if b then r' else Ok false) (P /\ Q).
Proof.
  intros (b & -> & H) (c & -> & K). cbn [rbind]. destruct b; [exists c|exists false]; split; auto.
  - tauto.
  - split; [discriminate|]. intros [A _]. apply H in A. discriminate.
Qed.
Lemma decides_andb r c (P Q : Prop) : decides r P -> (c = true <-> Q) -> decides (let? b := r in Ok (if b then c else false)) (P /\ Q).
Proof.
  intros (b & -> & H) K. cbn [rbind]. destruct b; apply decides_bool.
  - tauto.
  - split; [discriminate|]. intros [A _]. apply H in A. discriminate.
Qed.
Lemma decides_imp r r' (P Q : Prop) : decides r P -> decides r' Q -> decides (let? b := r in if b then r' else Ok true) (P -> Q).
Proof.
  intros (b & -> & H) (c & -> & K). cbn [rbind]. destruct b; [exists c|exists true]; split; auto.
  - tauto.
  - split; auto. intros _ A. apply H in A. discriminate.
Qed.
Lemma decides_all {A} (f : A -> res bool) (P : A -> Prop) l : (forall x, In x l -> decides (f x) (P x)) -> decides (all_ok f l) (forall x, In x l -> P x).
Proof.
  induction l as [|x l IH]; intros H; [apply decides_bool; simpl; tauto|]. cbn [all_ok].
  eapply decides_iff; [|apply (decides_and _ _ (P x) (forall y, In y l -> P y))]; [|apply H; simpl; auto|apply IH; intros; apply H; simpl; auto].
  simpl. split; [intros [B C] y [<-|Y]; auto|auto].
Qed.
Lemma decides_tuple f (P : json -> json -> Prop) : forall ss js, (forall x y, In x js -> In y ss -> decides (f x y) (P x y)) ->
  decides (tuple_ok f ss js) (forall i x y, nth_error js i = Some x -> nth_error ss i = Some y -> P x y).
Proof.
  induction ss as [|s ss IH]; intros [|j js] H; try (apply decides_bool; split; auto; intros _ [|i] x y; simpl; discriminate).
  cbn [tuple_ok]. eapply decides_iff; [|apply (decides_and _ _ (P j s) (forall i x y, nth_error js i = Some x -> nth_error ss i = Some y -> P x y))].
  - split.
    + intros [A B] [|i] x y; simpl; [intros [= <-] [= <-]; auto|apply B].
    + intros A. split; [apply (A O); auto|]. intros i x y X Y. apply (A (Datatypes.S i) x y); auto.
  - apply H; simpl; auto.
  - apply IH. intros x y X Y. apply H; simpl; auto.
Qed.

(** ** Numbers *)

Lemma at_most_iff a b : negb (dbl_lt b a) = true <-> at_most a b.
Proof.
  destruct a as [m e|n]; destruct b as [k f|n']; cbn.
  - rewrite negb_true_iff, Z.ltb_ge. replace (f - Z.min f e) with (Z.max (f - e) 0) by lia. replace (e - Z.min f e) with (Z.max (e - f) 0) by lia. tauto.
  - destruct n'; simpl; split; auto; discriminate.
  - destruct n; simpl; split; auto; try discriminate. intros [K|K]; discriminate.
  - destruct n, n'; simpl; split; auto; try discriminate. intros [K|K]; discriminate.
Qed.
Lemma whole_value d z : whole d z -> - 2 ^ 31 <= z < 2 ^ 31 -> valueint d = z.
Proof.
  destruct d as [m e|n]; [|intros []]. unfold whole, valueint. intros H B. destruct (0 <=? e) eqn:E.
  - apply Z.leb_le in E. rewrite (Z.max_l e 0), (Z.max_r (- e) 0), Z.pow_0_r, Z.mul_1_r in H by lia. lia.
  - apply Z.leb_gt in E. rewrite (Z.max_r e 0), (Z.max_l (- e) 0), Z.pow_0_r, Z.mul_1_r in H by lia. subst m.
    rewrite Z.quot_mul by (apply Z.pow_nonzero; lia). lia.
Qed.
Lemma whole_at_most d z n : whole d z -> (at_most d (Fin n 0) <-> z <= n).
Proof.
  destruct d as [m e|]; [|intros []]. cbn. intros H. replace (e - 0) with e by lia. replace (0 - e) with (- e) by lia. rewrite H.
  assert (0 < 2 ^ Z.max (- e) 0) by (apply Z.pow_pos_nonneg; lia). split; intros; nia.
Qed.
Lemma whole_at_least d z n : whole d z -> (at_most (Fin n 0) d <-> n <= z).
Proof.
  destruct d as [m e|]; [|intros []]. cbn. intros H. replace (e - 0) with e by lia. replace (0 - e) with (- e) by lia. rewrite H.
  assert (0 < 2 ^ Z.max (- e) 0) by (apply Z.pow_pos_nonneg; lia). split; intros; nia.
Qed.
Lemma whole_truncates d z : whole d z -> truncates d z.
Proof. destruct d as [m e|]; [|intros []]. unfold whole, truncates. intros H. exists 0. split; [lia|]. split; [|lia]. simpl Z.abs. apply Z.pow_pos_nonneg; lia. Qed.
Lemma truncates_fun d z z' : truncates d z -> truncates d z' -> z = z'.
Proof.
  intros H H'. set (lo := Z.min 0 (Z.min z z')). set (hi := Z.max 0 (Z.max z z')).
  assert (K : dbl_trunc d lo hi = Ok z) by (apply dbl_trunc_iff; [lia|split; [auto|lia]]).
  assert (K' : dbl_trunc d lo hi = Ok z') by (apply dbl_trunc_iff; [lia|split; [auto|lia]]). congruence.
Qed.
Lemma whole_eq d z : at_most d (Fin z 0) /\ at_most (Fin z 0) d <-> whole d z.
Proof.
  split.
  - destruct d as [m e|n]; cbn.
    + replace (e - 0) with e by lia. replace (0 - e) with (- e) by lia. lia.
    + intros [[->|K] L]; discriminate.
  - intros H. rewrite (whole_at_most d z z H), (whole_at_least d z z H). lia.
Qed.
Lemma decides_integer d z : truncates d z -> - 2 ^ 31 <= z < 2 ^ 31 ->
  decides (let? z := dbl_trunc d (- 2 ^ 31) (2 ^ 31 - 1) in Ok (negb (dbl_lt d (Fin z 0)) && negb (dbl_lt (Fin z 0) d))) (exists z, whole d z).
Proof.
  intros T B. assert (K : dbl_trunc d (- 2 ^ 31) (2 ^ 31 - 1) = Ok z) by (apply dbl_trunc_iff; [lia|split; [auto|lia]]).
  rewrite K. cbn [rbind]. apply decides_bool. rewrite andb_true_iff, !at_most_iff. rewrite and_comm, whole_eq. split; [eauto|].
  intros [z' W]. now rewrite (truncates_fun _ _ _ T (whole_truncates _ _ W)).
Qed.
Lemma txt_inj a b : txt a = txt b -> a = b.
Proof.
  unfold txt. revert b. induction a as [|c a IH]; intros [|d b]; simpl; try discriminate; auto. intros [= H K]. f_equal; auto.
  apply Nat2Z.inj in H || apply N2Z.inj in H. rewrite <- (Ascii.ascii_nat_embedding c), <- (Ascii.ascii_nat_embedding d) || rewrite <- (Ascii.ascii_N_embedding c), <- (Ascii.ascii_N_embedding d). congruence.
Qed.
Definition int_number (j : json) : Prop := forall d, j = JNum d -> exists z, truncates d z /\ - 2 ^ 31 <= z < 2 ^ 31.
Lemma type_known k j : int_number j -> decides (type_ok (txt k) j) (has_type k j).
Proof.
  intros IN. unfold type_ok.
  repeat match goal with
  | |- context [same_text (txt k) (txt ?n)] => let E := fresh "E" in destruct (same_text (txt k) (txt n)) eqn:E;
      [apply same_text_eq, txt_inj in E; subst k; cbv iota|apply same_text_neq in E]
  end;
  try (destruct j; apply decides_bool; cbn; split; auto; try discriminate; intros; try (destruct H as [|[]]); discriminate).
  - destruct j as [|b|d|s|l|l]; try (apply decides_bool; cbn; split; discriminate). destruct (IN d eq_refl) as (z & T & B).
    eapply decides_iff; [|apply (decides_integer d z T B)]. cbn. split; [right; auto|]. intros [K|[_ K]]; [discriminate|auto].
  - apply decides_bool. split; [discriminate|]. intros H. exfalso. destruct j; cbn in H; subst; try (match goal with E : ?x <> ?x |- _ => now apply E end).
    destruct H as [->|[-> _]]; match goal with E : ?x <> ?x |- _ => now apply E end.
Qed.
Lemma type_unknown t j : (forall k, t <> txt k) -> type_ok t j = Ok false.
Proof.
  intros H. unfold type_ok.
  repeat match goal with |- context [same_text t (txt ?n)] => let E := fresh "E" in destruct (same_text t (txt n)) eqn:E; [apply same_text_eq in E; destruct (H _ E)|] end. auto.
Qed.
Lemma type_decides t j : int_number j -> decides (type_ok t j) (exists k, t = txt k /\ has_type k j).
Proof.
  intros IN. destruct (type_ok t j) as [[]|u|] eqn:E.
  - apply decides_bool. split; auto. intros _.
    assert (K : exists k, t = txt k). { unfold type_ok in E. repeat match type of E with context [same_text t (txt ?n)] => let F := fresh "F" in destruct (same_text t (txt n)) eqn:F; [apply same_text_eq in F; eauto|] end. discriminate. }
    destruct K as [k ->]. exists k. split; auto. destruct (type_known k j IN) as (b & K & L). rewrite E in K. injection K as <-. tauto.
  - apply decides_bool. split; [discriminate|]. intros (k & -> & H). destruct (type_known k j IN) as (b & K & L). rewrite E in K. injection K as <-. tauto.
  - exfalso. assert (K : exists k, t = txt k). { unfold type_ok in E. repeat match type of E with context [same_text t (txt ?n)] => let F := fresh "F" in destruct (same_text t (txt n)) eqn:F; [apply same_text_eq in F; eauto|] end. discriminate. }
    destruct K as [k ->]. destruct (type_known k j IN) as (b & K & L). congruence.
  - exfalso. assert (K : exists k, t = txt k). { unfold type_ok in E. repeat match type of E with context [same_text t (txt ?n)] => let F := fresh "F" in destruct (same_text t (txt n)) eqn:F; [apply same_text_eq in F; eauto|] end. discriminate. }
    destruct K as [k ->]. destruct (type_known k j IN) as (b & K & L). congruence.
Qed.

(** ** One schema *)

(** The keywords for the kind of value at hand. *)
Definition specific (V : json -> json -> Prop) (s j : json) : Prop :=
  match j with
  | JNum d => (forall m, member_is s "minimum" (JNum m) -> at_most m d) /\ (forall m, member_is s "maximum" (JNum m) -> at_most d m)
  | JStr t => (forall m, member_is s "minLength" (JNum m) -> at_most m (Fin (Z.of_nat (length t)) 0))
      /\ (forall m, member_is s "maxLength" (JNum m) -> at_most (Fin (Z.of_nat (length t)) 0) m)
  | JArr js =>
      ((forall ss i x y, member_is s "items" (JArr ss) -> nth_error js i = Some x -> nth_error ss i = Some y -> V x y)
       /\ (forall i x, member_is s "items" i -> (forall ss, i <> JArr ss) -> In x js -> V x i)
       /\ (forall ss a i x, member_is s "items" (JArr ss) -> member_is s "additionalItems" a -> nth_error js i = Some x -> (length ss <= i)%nat -> V x a))
      /\ ((forall m, member_is s "minItems" (JNum m) -> at_most m (Fin (Z.of_nat (length js)) 0))
          /\ (forall m, member_is s "maxItems" (JNum m) -> at_most (Fin (Z.of_nat (length js)) 0) m))
  | JObj l =>
      ((forall ps k p v, member_is s "properties" (JObj ps) -> find_member l k = Some v -> In (k, p) ps -> V v p)
       /\ (forall rs k, member_is s "required" (JArr rs) -> In (JStr k) rs -> In k (map fst l)))
      /\ (forall a k v, member_is s "additionalProperties" a -> In (k, v) l -> (forall ps, member_is s "properties" (JObj ps) -> ~ In k (map fst ps)) -> V v a)
  | _ => True
  end.
Lemma keywords_split (E V : json -> json -> Prop) s j : absent s "if" \/ absent s "then" -> absent s "if" \/ absent s "else" -> (forall ts, ~ member_is s "type" (JArr ts)) ->
  (((forall ss x, member_is s "allOf" (JArr ss) -> In x ss -> V j x) /\ (forall t, string_is s "type" t -> exists k, t = txt k /\ has_type k j)
    /\ (forall es, member_is s "enum" (JArr es) -> exists e, In e es /\ E j e) /\ (forall v, member_is s "const" v -> E j v) /\ specific V s j)
   <-> keywords E V s j).
Proof.
  intros IT IE TY. split.
  - intros (A & T & EN & C & K). constructor; auto; try (intros; subst j; cbn [specific] in K; try (destruct K as [[? [? ?]] [? ?]] || destruct K as [[? ?] ?] || destruct K as [? ?]); eauto; fail).
    + intros ts H. destruct (TY ts H).
    + intros ps a b k p v M -> N I. cbn [specific] in K. destruct K as [[K _] _]. apply (K ps k p v M); auto. apply find_member_is. eauto.
    + intros i t Hi Ht. destruct IT as [B|B]; [destruct (B _ Hi)|destruct (B _ Ht)].
    + intros i t Hi Ht. destruct IE as [B|B]; [destruct (B _ Hi)|destruct (B _ Ht)].
  - intros K. destruct K. split; [exact kw_all_of|]. split; [auto|]. split; [auto|]. split; [auto|].
    destruct j; cbn [specific]; auto; repeat split; eauto.
    intros ps k p v M F I. apply find_member_is in F as (a & b & -> & N). eauto.
Qed.
Lemma opt_member (s : json) k (P : json -> Prop) (b : option json -> bool) :
  (b None = true) -> (forall v, b (Some v) = true <-> P v) -> (b (member (txt k) s) = true <-> forall v, member_is s k v -> P v).
Proof.
  intros N H. destruct (member (txt k) s) as [v|] eqn:M.
  - rewrite H. split; [|intros K; apply K; now apply member_iff]. intros K w W. apply member_iff in W. congruence.
  - split; auto. intros _ v W. apply member_iff in W. congruence.
Qed.
Lemma num_member s k (P : dbl -> Prop) (b : dbl -> bool) : (forall m, member_is s k (JNum m) -> (b m = true <-> P m)) ->
  (match member (txt k) s with Some (JNum m) => b m | _ => true end = true <-> forall m, member_is s k (JNum m) -> P m).
Proof.
  intros H. destruct (member (txt k) s) as [v|] eqn:M; [|split; auto; intros _ m W; apply member_iff in W; congruence].
  apply member_iff in M. destruct v as [|x|d|x|x|x]; try (split; auto; intros _ m W; assert (K := member_fun _ _ _ _ M W); discriminate).
  rewrite (H d M). split; [|auto]. intros K m W. assert (L := member_fun _ _ _ _ M W). injection L as <-. auto.
Qed.
Lemma range_decides s d : range_ok s d = true <-> (forall m, member_is s "minimum" (JNum m) -> at_most m d) /\ (forall m, member_is s "maximum" (JNum m) -> at_most d m).
Proof.
  unfold range_ok. rewrite andb_true_iff.
  rewrite (num_member s "minimum" (fun m => at_most m d) (fun m => negb (dbl_lt d m))) by (intros; apply at_most_iff).
  rewrite (num_member s "maximum" (fun m => at_most d m) (fun m => negb (dbl_lt m d))) by (intros; apply at_most_iff). tauto.
Qed.
Lemma count_decides s js : plain s -> (count_ok s js = true <-> (forall m, member_is s "minItems" (JNum m) -> at_most m (Fin (Z.of_nat (length js)) 0))
  /\ (forall m, member_is s "maxItems" (JNum m) -> at_most (Fin (Z.of_nat (length js)) 0) m)).
Proof.
  intros P. unfold count_ok. rewrite andb_true_iff.
  rewrite (num_member s "minItems" (fun m => at_most m (Fin (Z.of_nat (length js)) 0)) (fun m => valueint m <=? Z.of_nat (length js))).
  2: { intros m M. destruct (pl_counts _ P "minItems" m) as (z & W & B); [simpl; auto|exact M|]. rewrite (whole_value m z W), (whole_at_most m z _ W) by lia. apply Z.leb_le. }
  rewrite (num_member s "maxItems" (fun m => at_most (Fin (Z.of_nat (length js)) 0) m) (fun m => Z.of_nat (length js) <=? valueint m)).
  2: { intros m M. destruct (pl_counts _ P "maxItems" m) as (z & W & B); [simpl; auto|exact M|]. rewrite (whole_value m z W), (whole_at_least m z _ W) by lia. apply Z.leb_le. }
  tauto.
Qed.
Lemma size_t_id z : 0 <= z < 2 ^ 31 -> size_t z = z.
Proof. intros H. unfold size_t. apply Z.mod_small. lia. Qed.
Lemma lengths_decides s t : plain s -> (lengths_ok s t = true <-> (forall m, member_is s "minLength" (JNum m) -> at_most m (Fin (Z.of_nat (length t)) 0))
  /\ (forall m, member_is s "maxLength" (JNum m) -> at_most (Fin (Z.of_nat (length t)) 0) m)).
Proof.
  intros P. unfold lengths_ok. rewrite andb_true_iff.
  rewrite (num_member s "minLength" (fun m => at_most m (Fin (Z.of_nat (length t)) 0)) (fun m => size_t (valueint m) <=? Z.of_nat (length t))).
  2: { intros m M. destruct (pl_counts _ P "minLength" m) as (z & W & B); [simpl; auto|exact M|]. rewrite (whole_value m z W), (whole_at_most m z _ W), size_t_id by lia. apply Z.leb_le. }
  rewrite (num_member s "maxLength" (fun m => at_most (Fin (Z.of_nat (length t)) 0) m) (fun m => Z.of_nat (length t) <=? size_t (valueint m))).
  2: { intros m M. destruct (pl_counts _ P "maxLength" m) as (z & W & B); [simpl; auto|exact M|]. rewrite (whole_value m z W), (whole_at_least m z _ W), size_t_id by lia. apply Z.leb_le. }
  tauto.
Qed.
Lemma enum_decides (E : json -> json -> Prop) cmp s j : (forall a b, cmp a b = true <-> E a b) ->
  (enum_ok cmp s j = true <-> forall es, member_is s "enum" (JArr es) -> exists e, In e es /\ E j e).
Proof.
  intros CE. unfold enum_ok. destruct (member (txt "enum") s) as [v|] eqn:M; [|split; auto; intros _ m W; apply member_iff in W; congruence].
  apply member_iff in M. destruct v as [|x|x|x|es|x]; try (split; auto; intros _ m W; assert (K := member_fun _ _ _ _ M W); discriminate).
  rewrite existsb_exists. split.
  - intros (e & I & C) es' W. assert (K := member_fun _ _ _ _ M W). injection K as <-. exists e. split; auto. now apply CE.
  - intros H. destruct (H es M) as (e & I & C). exists e. split; auto. now apply CE.
Qed.
Lemma const_decides (E : json -> json -> Prop) cmp s j : (forall a b, cmp a b = true <-> E a b) -> (const_ok cmp s j = true <-> forall v, member_is s "const" v -> E j v).
Proof.
  intros CE. unfold const_ok. apply (opt_member s "const" (E j) (fun o => match o with Some v => cmp j v | None => true end)); auto.
Qed.
Lemma draft7_bool E V b j : draft7 E V -> (V j (JBool b) <-> b = true).
Proof. intros D. rewrite (D j (JBool b)). split; [intros [[=]|[[l [=]] _]]; auto|intros ->; auto]. Qed.
Lemma array_decides E V f s js : draft7 E V -> plain s ->
  (forall x y, In x js -> (member_is s "items" y /\ (forall ss, y <> JArr ss)) \/ (exists ss, member_is s "items" (JArr ss) /\ In y ss) -> decides (f x y) (V x y)) ->
  decides (array_ok f s js) (specific V s (JArr js)).
Proof.
  intros D P F. unfold array_ok. cbn [specific]. apply decides_andb; [|now apply count_decides].
  destruct (member (txt "items") s) as [i|] eqn:M.
  2: { apply decides_bool. split; auto. intros _. split; [|split]; intros; repeat match goal with H : member_is s "items" _ |- _ => apply member_iff in H end; congruence. }
  apply member_iff in M. assert (U := fun v H => member_fun s "items" i v M H).
  assert (ONE : (forall ss, i <> JArr ss) -> decides (all_ok (fun j => f j i) js) ((forall ss i x y, member_is s "items" (JArr ss) -> nth_error js i = Some x -> nth_error ss i = Some y -> V x y)
       /\ (forall i x, member_is s "items" i -> (forall ss, i <> JArr ss) -> In x js -> V x i)
       /\ (forall ss a i x, member_is s "items" (JArr ss) -> member_is s "additionalItems" a -> nth_error js i = Some x -> (length ss <= i)%nat -> V x a))).
  { intros N. eapply decides_iff; [|apply (decides_all _ (fun j => V j i))]; [|intros x X; apply F; auto]. split.
    - intros H. split; [|split].
      + intros ss k x y M'. destruct (N ss). now apply U.
      + intros i' x M' _ X. rewrite <- (U _ M'). auto.
      + intros ss a k x M'. destruct (N ss). now apply U.
    - intros (_ & H & _) x X. apply (H i x M N X). }
  destruct i as [|b|d|t|ss|ps]; try (apply ONE; discriminate). clear ONE.
  eapply decides_iff; [|apply (decides_andb _ _ (forall i x y, nth_error js i = Some x -> nth_error ss i = Some y -> V x y)
      (forall a i x, member_is s "additionalItems" a -> nth_error js i = Some x -> (length ss <= i)%nat -> V x a))].
  - split.
    + intros [A B]. split; [|split].
      * intros ss' i x y M'. assert (K := U _ M'). injection K as <-. apply A.
      * intros i x M' N. destruct (N ss). symmetry. now apply U.
      * intros ss' a i x M'. assert (K := U _ M'). injection K as <-. apply B.
    + intros (A & _ & B). split; [intros i x y; now apply A|intros a i x; now apply B].
  - apply decides_tuple. intros x y X Y. apply F; eauto.
  - unfold additems_ok. destruct (member (txt "additionalItems") s) as [a|] eqn:Ma.
    + apply member_iff in Ma. destruct (pl_more_items _ P a Ma) as [[|] ->].
      * split; auto. intros _ a i x M' X L. rewrite <- (member_fun _ _ _ _ Ma M'). apply (draft7_bool E V); auto.
      * rewrite Nat.leb_le. split.
        -- intros L a i x M' X L'. assert (i < length js)%nat by (apply nth_error_Some; congruence). lia.
        -- intros H. destruct (Nat.le_gt_cases (length js) (length ss)) as [L|L]; auto. exfalso.
           destruct (nth_error js (length ss)) as [x|] eqn:X; [|apply nth_error_None in X; lia].
           assert (K := H _ _ _ Ma X (le_n _)). apply (draft7_bool E V) in K; auto. discriminate.
    + split; auto. intros _ a i x M'. apply member_iff in M'. congruence.
Qed.
Lemma lower_case a b : lower a = lower b <-> a = b \/ 65 <= a <= 90 /\ b = a + 32 \/ 65 <= b <= 90 /\ a = b + 32.
Proof. unfold lower. destruct (65 <=? a) eqn:A, (a <=? 90) eqn:B, (65 <=? b) eqn:C, (b <=? 90) eqn:D; simpl; lia. Qed.
Lemma lower_text : forall a b, map lower a = map lower b <-> but_for_case a b.
Proof.
  unfold but_for_case. induction a as [|x a IH]; intros [|y b]; simpl; split; intros H; try discriminate; try (inversion H; fail); auto.
  - injection H as K L. apply lower_case in K. apply IH in L. constructor; auto.
  - inversion H; subst. f_equal; [now apply lower_case|now apply IH].
Qed.
Lemma find_some l k : In k (map fst l) -> exists v : json, find_member l k = Some v.
Proof.
  induction l as [|[k' v] l IH]; simpl; [tauto|]. intros H. destruct (same_text k k') eqn:S0; eauto. apply same_text_neq in S0. destruct H; [congruence|auto].
Qed.
Lemma required_iff s k : is_required s k = true <-> exists rs, member_is s "required" (JArr rs) /\ In (JStr k) rs.
Proof.
  unfold is_required. destruct (member (txt "required") s) as [v|] eqn:M.
  - apply member_iff in M. destruct v as [|x|x|x|rs|x]; try (split; [discriminate|intros (rs & W & _); assert (K := member_fun _ _ _ _ M W); discriminate]).
    rewrite existsb_exists. split.
    + intros (r & I & H). destruct r; try discriminate. apply same_text_eq in H. subst. eauto.
    + intros (rs' & W & I). assert (K := member_fun _ _ _ _ M W). injection K as <-. exists (JStr k). split; auto. apply same_text_refl.
  - split; [discriminate|]. intros (rs & W & _). apply member_iff in W. congruence.
Qed.
Lemma object_decides E V f s l : draft7 E V -> plain s ->
  (forall ps k k', member_is s "properties" (JObj ps) -> In k (map fst l) -> In k' (map fst ps) -> but_for_case k k' -> k = k') ->
  (forall ps k x y, member_is s "properties" (JObj ps) -> In (k, y) ps -> In (k, x) l -> decides (f x y) (V x y)) ->
  decides (object_ok f s (JObj l) l) (specific V s (JObj l)).
Proof.
  intros D P CS F. unfold object_ok. cbn [specific]. apply decides_andb.
  - destruct (member (txt "properties") s) as [i|] eqn:M.
    + apply member_iff in M. assert (U := fun v H => member_fun s "properties" i v M H).
      assert (NO : (forall ps, i <> JObj ps) -> decides (Ok true) ((forall ps k p v, member_is s "properties" (JObj ps) -> find_member l k = Some v -> In (k, p) ps -> V v p)
        /\ (forall rs k, member_is s "required" (JArr rs) -> In (JStr k) rs -> In k (map fst l)))).
      { intros N. apply decides_bool. split; auto. intros _. split.
        - intros ps k p v M'. destruct (N ps). now apply U.
        - intros rs k R I. destruct (pl_required _ P rs k R I) as (ps & M' & _). destruct (N ps). now apply U. }
      destruct i as [|x|x|x|x|ps]; try (apply NO; discriminate). clear NO.
      eapply decides_iff; [|apply (decides_all _ (fun p => match find_member l (fst p) with None => is_required s (fst p) = false | Some v => V v (snd p) end))].
      * split.
        -- intros H. split.
           ++ intros ps' k p v M' K I. assert (L := U _ M'). injection L as <-. specialize (H _ I). cbn [fst snd] in H. now rewrite K in H.
           ++ intros rs k R I. destruct (pl_required _ P rs k R I) as (ps' & M' & I'). assert (L := U _ M'). injection L as <-.
              apply in_map_iff in I' as ([k' p] & K & I'). cbn [fst] in K. subst k'. specialize (H _ I'). cbn [fst snd] in H.
              destruct (find_member l k) as [v|] eqn:FM; [apply find_member_in in FM; apply (in_map fst) in FM; auto|].
              assert (B : is_required s k = true) by (apply required_iff; eauto). congruence.
        -- intros [A B] [k p] I. cbn [fst snd]. destruct (find_member l k) as [v|] eqn:FM; [eauto|].
           apply not_true_iff_false. intros R. apply required_iff in R as (rs & R & I'). destruct (find_some l k (B rs k R I')) as [v K]. congruence.
      * intros [k p] I. cbn [fst snd member]. destruct (find_member l k) as [v|] eqn:FM.
        -- apply (F ps k); auto. now apply find_member_in.
        -- apply decides_bool. apply negb_true_iff.
    + apply decides_bool. split; auto. intros _. split.
      * intros ps k p v M'. apply member_iff in M'. congruence.
      * intros rs k R I. destruct (pl_required _ P rs k R I) as (ps & M' & _). apply member_iff in M'. congruence.
  - unfold addprops_ok. destruct (member (txt "additionalProperties") s) as [a|] eqn:Ma.
    + apply member_iff in Ma. destruct (pl_more_properties _ P a Ma) as [[|] ->].
      * split; auto. intros _ a k v M' X L. rewrite <- (member_fun _ _ _ _ Ma M'). apply (draft7_bool E V); auto.
      * rewrite forallb_forall. split.
        -- intros H a k v M' I N. exfalso. specialize (H _ I). destruct (member (txt "properties") s) as [i|] eqn:M; [|discriminate]. apply member_iff in M.
           destruct i as [|x|x|x|x|ps]; try discriminate. cbn [has_item fst] in H. apply existsb_exists in H as ([k' p] & I' & H). cbn [fst] in H.
           apply same_text_eq, lower_text in H. apply (N ps M). apply (in_map fst) in I, I'. cbn [fst] in *.
           rewrite (CS ps k k' M I I'); auto. apply lower_text. symmetry. now apply lower_text.
        -- intros H [k v] I. cbn [fst].
           assert (K : ~ forall ps, member_is s "properties" (JObj ps) -> ~ In k (map fst ps)).
           { intros N. assert (K := H _ k v Ma I N). apply (draft7_bool E V) in K; auto. discriminate. }
           destruct (member (txt "properties") s) as [i|] eqn:M; [|destruct K; intros ps W; apply member_iff in W; congruence]. apply member_iff in M.
           destruct i as [|x|x|x|x|ps]; try (destruct K; intros ps W; assert (L := member_fun _ _ _ _ M W); discriminate).
           cbn [has_item]. destruct (existsb (fun p => same_text (map lower (fst p)) (map lower k)) ps) eqn:X; auto. destruct K.
           intros ps' W J. assert (L := member_fun _ _ _ _ M W). injection L as <-. apply in_map_iff in J as (p & <- & J).
           assert (Y : existsb (fun p0 => same_text (map lower (fst p0)) (map lower (fst p))) ps = true) by (apply existsb_exists; exists p; split; auto; apply same_text_refl). congruence.
    + split; auto. intros _ a k v M'. apply member_iff in M'. congruence.
Qed.

(** ** All of it *)

Lemma part_trans s t x : part s t -> part t x -> part s x.
Proof. induction 1; intros; auto; [eapply pt_if|eapply pt_all|eapply pt_items|eapply pt_property]; eauto. Qed.
Lemma inside_trans s t x : contains s t -> contains t x -> contains s x.
Proof. induction 1; intros; auto; [eapply is_elem|eapply is_member]; eauto. Qed.
Lemma testable_sub s j s' j' : testable s j -> part s s' -> contains j j' -> testable s' j'.
Proof.
  intros [A B] S0 J. split.
  - intros d D. apply A. eapply inside_trans; eauto.
  - intros x ps l k k' X M L. apply (B x ps l); auto; [eapply part_trans|eapply inside_trans]; eauto.
Qed.
Lemma plain_decides E V cmp : draft7 E V -> (forall a b, cmp a b = true <-> E a b) -> forall n j s, (depth s <= n)%nat -> (forall x, part s x -> plain x) -> testable s j ->
  decides (validate n cmp j s) (V j s).
Proof.
  intros D CE. induction n as [|n IH]; intros j s B PL CH; [assert (K := depth_pos s); lia|].
  assert (P := PL s (pt_self s)).
  assert (SUB : forall x y, (depth y < depth s)%nat -> part s y -> contains j x -> decides (validate n cmp x y) (V x y)).
  { intros x y L Y X. apply IH; [lia| |eapply testable_sub; eauto]. intros z Z. apply PL. eapply part_trans; eauto. }
  destruct (pl_shape _ P) as [[b ->]|[ms SH]].
  { apply decides_bool. symmetry. eapply draft7_bool; eauto. }
  assert (VK : V j s <-> keywords E V s j). { rewrite (D j s). rewrite SH. split; [intros [[=]|[_ K]]; auto|]. intros K; right; split; eauto. }
  apply (decides_iff _ (keywords E V s j)); [tauto|].
  cbn [validate].
  assert (NF : forall r : res bool, (absent s "if" \/ absent s "then" -> decides r (keywords E V s j)) ->
    decides (match member (txt "if") s, member (txt "then") s with Some i, Some t => let? b := validate n cmp j i in if b then validate n cmp j t else Ok true | _, _ => r end) (keywords E V s j)).
  { intros r R. destruct (member (txt "if") s) as [i|] eqn:MI; [|apply R; left; intros v W; apply member_iff in W; congruence].
    destruct (member (txt "then") s) as [t|] eqn:MT; [|apply R; right; intros v W; apply member_iff in W; congruence].
    apply member_iff in MI, MT.
    eapply decides_iff; [|apply (decides_imp _ _ (V j i) (V j t)); apply SUB;
      [now apply depth_is in MI|eapply pt_if; [left; exact MI|constructor]|constructor|now apply depth_is in MT|eapply pt_if; [right; exact MT|constructor]|constructor]].
    split.
    - intros H. destruct (pl_if _ P) as [A|[A|A]]; [destruct (A _ MI)|destruct (A _ MT)|]. rewrite Forall_forall in A.
      assert (NO : forall k v, In k ["type"; "enum"; "const"; "minimum"; "maximum"; "minLength"; "maxLength"; "items"; "additionalItems"; "minItems"; "maxItems";
                       "properties"; "required"; "additionalProperties"; "allOf"]%string -> ~ member_is s k v) by (intros k v K; apply (A k K)).
      constructor; try (intros; exfalso; match goal with M : member_is s ?k ?v |- _ => apply (NO k v); [simpl; tauto|exact M] | M : string_is s ?k ?v |- _ => apply (NO k (JStr v)); [simpl; tauto|exact M] end; fail).
      + intros i' t' I' T'. rewrite <- (member_fun _ _ _ _ MI I'), <- (member_fun _ _ _ _ MT T'). auto.
      + intros i' t' I' T'. destruct (pl_else _ P) as [X|X]; [destruct (X _ I')|destruct (X _ T')].
    - intros K. apply (kw_then _ _ _ _ K i t MI MT). }
  rewrite SH at 1. apply NF. clear NF. intros IT.
  eapply decides_iff; [apply (keywords_split E V s j IT (pl_else _ P) (pl_type _ P))|].
  apply decides_and.
  - destruct (member (txt "allOf") s) as [a|] eqn:M.
    + apply member_iff in M. destruct a as [|x|x|x|ss|x]; try (apply decides_bool; split; auto; intros _ ss y W; assert (K := member_fun _ _ _ _ M W); discriminate).
      eapply decides_iff; [|apply (decides_all _ (V j) ss)].
      * split; [|eauto]. intros H ss' x W. assert (K := member_fun _ _ _ _ M W). injection K as <-. auto.
      * intros x X. apply SUB; [apply depth_is in M; apply depth_elem in X; lia| |constructor]. eapply pt_all; [left; exact M|exact X|constructor].
    + apply decides_bool. split; auto. intros _ ss x W. apply member_iff in W. congruence.
  - apply decides_and.
    + assert (IN : int_number j) by (intros d ->; apply (proj1 CH d); constructor).
      destruct (member (txt "type") s) as [a|] eqn:M.
      * apply member_iff in M. destruct a as [|x|x|t|x|x]; try (apply decides_bool; split; auto; intros _ y W; assert (K := member_fun _ _ _ _ M W); discriminate).
        eapply decides_iff; [|apply (type_decides t j IN)]. split; [|intros H; now apply H]. intros H t' W. assert (K := member_fun _ _ _ _ M W). injection K as <-. auto.
      * apply decides_bool. split; auto. intros _ ss W. apply member_iff in W. congruence.
    + assert (EN := enum_decides E cmp s j CE). assert (CO := const_decides E cmp s j CE).
      destruct (enum_ok cmp s j); [|apply decides_bool; split; [discriminate|intros (A & _); apply EN in A; discriminate]].
      destruct (const_ok cmp s j); [|apply decides_bool; split; [discriminate|intros (_ & A & _); apply CO in A; discriminate]].
      apply (decides_iff _ (specific V s j)); [tauto|]. clear EN CO.
      destruct j as [|b|d|t|js|l]; cbn [keywords_ok].
      * apply decides_bool. cbn. tauto.
      * apply decides_bool. cbn. tauto.
      * apply decides_bool, range_decides.
      * apply decides_bool, lengths_decides, P.
      * apply (array_decides E); auto. intros x y X [[M N]|(ss & M & Y)]; apply SUB.
        -- now apply depth_is in M.
        -- eapply pt_items; [exact M|exact N|constructor].
        -- eapply is_elem; [exact X|constructor].
        -- apply depth_is in M. apply depth_elem in Y. lia.
        -- eapply pt_all; [right; exact M|exact Y|constructor].
        -- eapply is_elem; [exact X|constructor].
      * apply (object_decides E); auto.
        -- intros ps k k' M I I'. apply (proj2 CH s ps l k k'); auto; constructor.
        -- intros ps k x y M Y X. apply SUB; [apply depth_is in M; apply depth_member in Y; lia|eapply pt_property; [exact M|exact Y|constructor]|eapply is_member; [exact X|constructor]].
Qed.
