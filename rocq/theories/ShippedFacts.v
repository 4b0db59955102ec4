(** What the shipped schema means. *)
From Coq Require Import String.
From Verif Require Export SpecShipped DemoSchema.
Open Scope string_scope.
Open Scope list_scope.
Open Scope Z_scope.

(** ** The schema from its pieces *)

Definition type_s (t : string) : json := obj_j [("type", JStr (txt t))].
Definition one_s (ts : list string) : json := match ts with [t] => obj_j [("const", JStr (txt t))] | _ => obj_j [("enum", texts_j ts)] end.
Definition props_s (ps : list (string * json)) : json := obj_j [("properties", obj_j ps)].
Definition op_s (f : string * list string) : json := props_s [("name", obj_j [("const", JStr (txt (fst f)))]); ("type", one_s (snd f)); ("value", type_s "string")].
Definition data_s (os : list (string * list string)) : json :=
  obj_j ([("minItems", int_num (Z.of_nat (length os))); ("maxItems", int_num (Z.of_nat (length os)))] ++ match os with [] => [] | _ => [("items", JArr (map op_s os))] end).
Definition form_s (f : list string * list (string * list string)) : json :=
  obj_j [("if", props_s [("symbol", one_s (fst f))]); ("then", props_s [("data", data_s (snd f))])].
Definition closed_s (ps : list (string * json)) (ss : list json) : json :=
  obj_j ([("type", JStr (txt "object")); ("properties", obj_j ps); ("required", texts_j (map fst ps)); ("additionalProperties", JBool false)]
         ++ match ss with [] => [] | _ => [("allOf", JArr ss)] end).
Definition list_s (s : json) : json := obj_j [("type", JStr (txt "array")); ("items", s)].
Definition text_s (ts : list string) : json := obj_j [("type", JStr (txt "string")); ("enum", texts_j ts)].
Definition all_symbols : list string :=
  ["CONN"; "NEG"; "NO"; "NC"; "RE"; "FE"; "COIL"; "COILL"; "TON"; "TOF"; "TP"; "CTU"; "occupied"; "NOP"; "CTD"; "MOV"; "SUB"; "ADD"; "MUL"; "NE"; "TMOV"; "DIV"; "MOD";
   "SHL"; "SHR"; "ROL"; "ROR"; "AND"; "OR"; "XOR"; "NOT"; "EQ"; "GT"; "GE"; "LT"; "LE"; "COILU"].
Definition all_types : list string := ["I"; "M"; "T"; "MS"; "C"; "D"; "NONE"; "Q"; "SEC"; "10MS"; "100MS"; "MIN"].
Definition operand_s : json := closed_s [("name", type_s "string"); ("type", text_s all_types); ("value", type_s "string")] [].
Definition cell_s : json := closed_s [("symbol", text_s all_symbols); ("bar", type_s "boolean"); ("data", list_s operand_s)] (map form_s forms).
Definition net_s : json := closed_s [("id", type_s "integer"); ("rows", type_s "integer"); ("cols", type_s "integer"); ("networkData", list_s (list_s cell_s))] [].
Lemma shipped_pieces : shipped = obj_j [("$schema", JStr (txt "http://json-schema.org/draft-07/schema#")); ("type", JStr (txt "array")); ("items", net_s)].
Proof. vm_compute. reflexivity. Qed.

(** ** One schema, by its members *)

Definition on (s : json) (k : string) (P : json -> Prop) : Prop := match member (txt k) s with Some v => P v | None => True end.
Definition on_value (V : json -> json -> Prop) (s j : json) : Prop :=
  match j with
  | JArr js =>
      on s "items" (fun i => match i with JArr ss => forall i x y, nth_error js i = Some x -> nth_error ss i = Some y -> V x y | _ => Forall (fun x => V x i) js end)
      /\ on s "minItems" (fun m => match m with JNum m => at_most m (Fin (Z.of_nat (length js)) 0) | _ => True end)
      /\ on s "maxItems" (fun m => match m with JNum m => at_most (Fin (Z.of_nat (length js)) 0) m | _ => True end)
  | JObj l =>
      on s "properties" (fun p => match p with JObj ps => forall k p v, In (k, p) ps -> find_member l k = Some v -> V v p | _ => True end)
      /\ on s "required" (fun r => match r with JArr rs => forall k, In (JStr k) rs -> In k (map fst l) | _ => True end)
      /\ on s "additionalProperties" (fun a => forall k v, In (k, v) l -> on s "properties" (fun p => match p with JObj ps => ~ In k (map fst ps) | _ => True end) -> V v a)
  | _ => True
  end.
Definition by_members (E V : json -> json -> Prop) (s j : json) : Prop :=
  on s "allOf" (fun a => match a with JArr ss => Forall (V j) ss | _ => True end)
  /\ on s "type" (fun t => match t with JStr t => exists k, t = txt k /\ has_type k j | _ => True end)
  /\ on s "enum" (fun e => match e with JArr es => exists e, In e es /\ E j e | _ => True end)
  /\ on s "const" (E j) /\ on_value V s j.
Lemma on_iff s k (P : json -> Prop) : on s k P <-> forall v, member_is s k v -> P v.
Proof.
  unfold on. destruct (member (txt k) s) as [v|] eqn:M; split; auto.
  - intros H w W. apply member_iff in W. congruence.
  - intros H. apply H. now apply member_iff.
  - intros _ w W. apply member_iff in W. congruence.
Qed.
Lemma on_arr s k (P : list json -> Prop) : on s k (fun v => match v with JArr l => P l | _ => True end) <-> forall l, member_is s k (JArr l) -> P l.
Proof. rewrite on_iff. split; [intros H l M; apply (H _ M)|]. intros H v M. destruct v; auto. Qed.
Lemma on_num s k (P : dbl -> Prop) : on s k (fun v => match v with JNum l => P l | _ => True end) <-> forall l, member_is s k (JNum l) -> P l.
Proof. rewrite on_iff. split; [intros H l M; apply (H _ M)|]. intros H v M. destruct v; auto. Qed.
Lemma on_str s k (P : list Z -> Prop) : on s k (fun v => match v with JStr l => P l | _ => True end) <-> forall l, member_is s k (JStr l) -> P l.
Proof. rewrite on_iff. split; [intros H l M; apply (H _ M)|]. intros H v M. destruct v; auto. Qed.
Lemma on_obj s k (P : list (list Z * json) -> Prop) : on s k (fun v => match v with JObj l => P l | _ => True end) <-> forall l, member_is s k (JObj l) -> P l.
Proof. rewrite on_iff. split; [intros H l M; apply (H _ M)|]. intros H v M. destruct v; auto. Qed.
Lemma valid_by E V l j : draft7 E V -> let s := JObj l in
  forallb (noneb s) ["if"; "minimum"; "maximum"; "minLength"; "maxLength"; "additionalItems"] = true -> (forall ts, ~ member_is s "type" (JArr ts)) -> (V j s <-> by_members E V s j).
Proof.
  intros D s A TY. rewrite forallb_forall in A. assert (AB := fun k K => noneb_ok s k (A k K)). clear A.
  rewrite (D j s). transitivity (keywords E V s j); [split; [intros [K|[_ K]]; [discriminate K|auto]|intros K; right; split; [eexists; reflexivity|auto]]|].
  rewrite <- (keywords_split E V s j); [|left; apply AB; simpl; auto|left; apply AB; simpl; auto|exact TY].
  unfold by_members. rewrite on_arr, on_str, on_arr, on_iff. 
  assert (SP : specific V s j <-> on_value V s j).
  { destruct j as [|b|d|t|js|ms]; cbn [specific on_value]; try tauto.
    - split; auto. intros _. split; intros m M; exfalso; apply (AB "minimum" ltac:(simpl; tauto) _) in M || apply (AB "maximum" ltac:(simpl; tauto) _) in M; auto.
    - split; auto. intros _. split; intros m M; exfalso; apply (AB "minLength" ltac:(simpl; tauto) _) in M || apply (AB "maxLength" ltac:(simpl; tauto) _) in M; auto.
    - rewrite on_num, on_num, on_iff. split.
      + intros ((I1 & I2 & I3) & I4 & I5). split; [|auto]. intros v M. destruct v as [|x|x|x|ss|x]; try (apply Forall_forall; intros y Y; apply (I2 _ y M); [discriminate|exact Y]). intros i x y. now apply I1.
      + intros (I1 & I4 & I5). split; [split; [|split]|auto].
        * intros ss i x y M. apply (I1 _ M).
        * intros i x M N X. specialize (I1 _ M). destruct i as [|y|y|y|ss|y]; try (rewrite Forall_forall in I1; now apply I1). now destruct (N ss).
        * intros ss a i x M M'. now apply (AB "additionalItems" ltac:(simpl; tauto)) in M'.
    - rewrite on_obj, on_arr, on_iff. split.
      + intros ((I1 & I2) & I3). split; [|split].
        * intros ps M k p v I F. apply (I1 ps k p v); auto.
        * intros rs M k I. apply (I2 rs k); auto.
        * intros a M k v I. rewrite on_obj. intros N. apply (I3 a k v M I N).
      + intros (I1 & I2 & I3). split; [split|].
        * intros ps k p v M F I. apply (I1 ps M k p v I F).
        * intros rs k M I. apply (I2 rs M k I).
        * intros a k v M I N. apply (I3 a M k v I). rewrite on_obj. exact N. }
  split.
  - intros (B1 & B2 & B3 & B4 & B5). split; [intros ss M; apply Forall_forall; intros x; now apply B1|]. split; [exact B2|]. split; [exact B3|]. split; [exact B4|now apply SP].
  - intros (B1 & B2 & B3 & B4 & B5). split; [intros ss x M X; specialize (B1 ss M); rewrite Forall_forall in B1; auto|]. split; [exact B2|]. split; [exact B3|]. split; [exact B4|now apply SP].
Qed.
Ltac ons := repeat match goal with |- context [on ?s ?k ?P] =>
  let r := eval hnf in (member (txt k) s) in change (on s k P) with (match r with Some v => P v | None => True end); cbv beta iota; cbn [snd fst] end.
Ltac by_m D := match goal with |- context [?V ?j (JObj ?l)] => rewrite (valid_by _ V l j D); [|reflexivity|let a := fresh in let b := fresh in intros a b; apply member_iff in b; discriminate b] end.
Lemma and_true (P : Prop) : True /\ P <-> P.
Proof. tauto. Qed.

Lemma forall2_by {A B} (P : A -> B -> Prop) : forall l l', length l = length l' -> (forall i x y, nth_error l i = Some x -> nth_error l' i = Some y -> P x y) -> Forall2 P l l'.
Proof.
  induction l as [|x l IH]; intros [|y l'] L H; try discriminate; constructor; [apply (H O); reflexivity|]. apply IH; [injection L; auto|]. intros i a b. apply (H (Datatypes.S i)).
Qed.

Section Pieces.
Variables (E V : json -> json -> Prop).
Hypothesis (D : draft7 E V).
Hypothesis (ET : forall x t, E x (JStr t) <-> x = JStr t).

Lemma v_type t j : V j (type_s t) <-> has_type t j.
Proof.
  unfold type_s, obj_j. by_m D. unfold by_members. ons. rewrite !and_true.
  assert (X : on_value V (JObj (map (fun p : string * json => (txt (fst p), snd p)) [("type", JStr (txt t))])) j <-> True) by (split; auto; intros _; destruct j; cbn [on_value]; auto; ons; tauto).
  cbn [map fst snd] in *. rewrite X. split; [intros ((k & K & H) & _)|intros H; split; eauto]. apply txt_inj in K. congruence.
Qed.
Lemma v_one ts j : ts <> [] -> (V j (one_s ts) <-> exists t, In t ts /\ j = JStr (txt t)).
Proof.
  intros N. unfold one_s. destruct ts as [|t [|t' ts]]; [congruence| |].
  - unfold obj_j. by_m D. unfold by_members. ons.
    assert (X : on_value V (JObj (map (fun p : string * json => (txt (fst p), snd p)) [("const", JStr (txt t))])) j <-> True) by (split; auto; intros _; destruct j; cbn [on_value]; auto; ons; tauto).
    cbn [map fst snd] in *. rewrite X, ET. simpl In. split; [intros H; exists t; tauto|]. intros (x & [<-|[]] & ->). tauto.
  - set (l := t :: t' :: ts). unfold obj_j. by_m D. unfold by_members. ons.
    assert (X : on_value V (JObj (map (fun p : string * json => (txt (fst p), snd p)) [("enum", texts_j l)])) j <-> True) by (split; auto; intros _; destruct j; cbn [on_value]; auto; ons; tauto).
    cbn [map fst snd] in *. rewrite X. unfold texts_j. split.
    + intros (_ & _ & (e & I & H) & _). apply in_map_iff in I as (x & <- & I). apply ET in H. eauto.
    + intros (x & I & ->). split; [auto|]. split; [auto|]. split; [|auto]. exists (JStr (txt x)). split; [apply in_map_iff; eauto|now apply ET].
Qed.
Lemma v_text ts j : V j (text_s ts) <-> exists t, In t ts /\ j = JStr (txt t).
Proof.
  unfold text_s, obj_j. by_m D. unfold by_members. ons.
  assert (X : on_value V (JObj (map (fun p : string * json => (txt (fst p), snd p)) [("type", JStr (txt "string")); ("enum", texts_j ts)])) j <-> True) by (split; auto; intros _; destruct j; cbn [on_value]; auto; ons; tauto).
  cbn [map fst snd] in *. rewrite X. unfold texts_j. split.
  - intros (_ & _ & (e & I & H) & _). apply in_map_iff in I as (x & <- & I). apply ET in H. eauto.
  - intros (x & I & ->). split; [auto|]. split; [exists "string"; split; [auto|reflexivity]|]. split; [|auto]. exists (JStr (txt x)). split; [apply in_map_iff; eauto|now apply ET].
Qed.
Lemma find_is l k v : find_member l (txt k) = Some v <-> member_is (JObj l) k v.
Proof. rewrite <- member_iff. simpl. tauto. Qed.
Lemma v_props ps j : V j (props_s ps) <-> forall k p v, In (k, p) ps -> member_is j k v -> V v p.
Proof.
  unfold props_s. unfold obj_j at 1. by_m D. unfold by_members. ons. rewrite !and_true.
  destruct j as [|b|d|t|js|l]; cbn [on_value]; ons; try (split; auto; intros _ k p v _ M; apply member_iff in M; discriminate M).
  unfold obj_j. cbv iota. split.
  - intros (H & _) k p v I M. apply (H (txt k) p v); [apply in_map_iff; exists (k, p); auto|now apply find_is].
  - intros H. split; [|auto]. intros k p v I F. apply in_map_iff in I as ([k' p'] & K & I). cbn [fst snd] in K. injection K as <- <-. apply (H k' p' v); auto. now apply find_is.
Qed.
Lemma v_list s j : (exists l, s = JObj l) -> (V j (list_s s) <-> exists l, j = JArr l /\ Forall (fun x => V x s) l).
Proof.
  intros [ms ->]. unfold list_s. unfold obj_j. by_m D. unfold by_members. ons. rewrite !and_true. split.
  - intros ((k & K & H) & W). apply txt_inj in K. subst k. destruct j as [|b|d|t|js|l]; try discriminate H; try (destruct H as [H|[H _]]; discriminate H).
    cbn [on_value] in W. revert W. ons. intros (W & _). eauto.
  - intros (l & -> & H). split; [exists "array"; split; [auto|reflexivity]|]. cbn [on_value]. ons. auto.
Qed.
Lemma only_iff j ks : only j ks <-> exists l, j = JObj l /\ forall k, In k (map fst l) -> In k (map txt ks).
Proof.
  unfold only. split; intros (l & -> & H); exists l; split; auto; intros k K.
  - destruct (H k K) as (s & S0 & ->). now apply in_map.
  - apply H in K. apply in_map_iff in K as (s & <- & S0). eauto.
Qed.
Lemma v_closed ps ss j : V j (closed_s ps ss) <-> only j (map fst ps) /\ (forall k p, In (k, p) ps -> exists v, member_is j k v /\ V v p) /\ Forall (V j) ss.
Proof.
  assert (NB : forall x, ~ V x (JBool false)) by (intros x X; apply (draft7_bool E V) in X; [discriminate|exact D]).
  assert (W : forall l, on_value V (closed_s ps ss) (JObj l) <->
    (forall k p v, In (k, p) (map (fun p : string * json => (txt (fst p), snd p)) ps) -> find_member l k = Some v -> V v p)
    /\ (forall k, In (JStr k) (map (fun t => JStr (txt t)) (map fst ps)) -> In k (map fst l))
    /\ (forall k v, In (k, v) l -> ~ In k (map fst (map (fun p : string * json => (txt (fst p), snd p)) ps)) -> V v (JBool false))).
  { intros l. unfold closed_s. cbn [on_value]. ons. unfold obj_j, texts_j. cbv iota. tauto. }
  assert (A : V j (closed_s ps ss) <-> Forall (V j) ss /\ has_type "object" j /\ on_value V (closed_s ps ss) j).
  { unfold closed_s in *. unfold obj_j at 1. destruct ss as [|s ss]; by_m D; unfold by_members; ons; rewrite !and_true.
    - split; [intros ((k & K & H) & X); apply txt_inj in K; subst k; split; [constructor|auto]|]. intros (_ & H & X). split; [eauto|auto].
    - split; [intros (F & (k & K & H) & X); apply txt_inj in K; subst k; auto|]. intros (F & H & X). split; [auto|]. split; [eauto|auto]. }
  rewrite A. clear A. split.
  - intros (F & T & O0). destruct j as [|b|d|t|js|l]; try discriminate T; try (destruct T as [T|[T _]]; discriminate T). apply W in O0 as (O1 & O2 & O3). clear W. split; [|split; [|exact F]].
    + apply only_iff. exists l. split; [reflexivity|]. intros k K. apply in_map_iff in K as ([k' v] & <- & K). cbn [fst].
      destruct (in_dec (list_eq_dec Z.eq_dec) k' (map fst (map (fun p : string * json => (txt (fst p), snd p)) ps))) as [I|I]; [|destruct (NB v (O3 k' v K I))].
      rewrite map_map in I. rewrite map_map. exact I.
    + intros k p I. destruct (find_some l (txt k)) as [v K].
      * refine (O2 (txt k) _). rewrite map_map. apply in_map_iff. exists (k, p). auto.
      * exists v. split; [now apply find_is|]. apply (O1 (txt k) p v); [|exact K]. apply in_map_iff. exists (k, p). auto.
  - intros (O1 & O2 & F). apply only_iff in O1 as (l & -> & O1). split; [exact F|]. split; [reflexivity|]. apply W. split; [|split].
    + intros k p v I K. apply in_map_iff in I as ([k' p'] & X & I). cbn [fst snd] in X. injection X as <- <-. destruct (O2 k' p' I) as (w & M & H). apply find_is in M. congruence.
    + intros k K. rewrite map_map in K. apply in_map_iff in K as ([k' p'] & X & I). cbn [fst snd] in X. injection X as <-. destruct (O2 k' p' I) as (w & M & H). apply find_is, find_member_in in M. now apply (in_map fst) in M.
    + intros k v I N. exfalso. apply N. apply (in_map fst) in I. cbn [fst] in I. apply O1 in I. rewrite !map_map in *. exact I.
Qed.
Lemma v_op f j : snd f <> [] -> (V j (op_s f) <-> (forall v, member_is j "name" v -> v = JStr (txt (fst f))) /\ (forall v, member_is j "type" v -> exists t, In t (snd f) /\ v = JStr (txt t))
  /\ (forall v, member_is j "value" v -> exists s, v = JStr s)).
Proof.
  intros N. unfold op_s. rewrite v_props. assert (C : forall v, V v (obj_j [("const", JStr (txt (fst f)))]) <-> v = JStr (txt (fst f))).
  { intros v. change (obj_j [("const", JStr (txt (fst f)))]) with (one_s [fst f]). rewrite v_one by discriminate. simpl. split; [intros (t & [<-|[]] & ->); auto|intros ->; eauto]. }
  assert (T : forall v, V v (type_s "string") <-> exists s, v = JStr s).
  { intros v. rewrite v_type. destruct v; simpl; split; try discriminate; try (intros (s & [=]); fail); eauto. intros [X|[X _]]; discriminate. }
  split.
  - intros H. split; [|split]; intros v M.
    + apply C. apply (H "name" _ v); simpl; auto.
    + apply v_one; [exact N|]. apply (H "type" _ v); simpl; auto.
    + apply T. apply (H "value" _ v); simpl; auto.
  - intros (A & B & F) k p v [I|[I|[I|[]]]] M; injection I as <- <-; [apply C|apply v_one|apply T]; auto.
Qed.
Lemma v_data os j : V j (data_s os) <-> forall ds, j = JArr ds -> length ds = length os /\ forall i o f, nth_error ds i = Some o -> nth_error os i = Some f -> V o (op_s f).
Proof.
  assert (A : V j (data_s os) <-> on_value V (data_s os) j).
  { unfold data_s. unfold obj_j. destruct os as [|o os]; cbn [app]; by_m D; unfold by_members; ons; rewrite !and_true; tauto. }
  rewrite A. clear A. destruct j as [|b|d|t|js|l]; try (cbn [on_value]; split; [intros _ ds [=]|auto]; fail).
  - assert (L : forall n m : nat, at_most (Fin (Z.of_nat n) 0) (Fin (Z.of_nat m) 0) <-> (n <= m)%nat) by (intros n m; cbn; lia).
    unfold data_s. destruct os as [|f0 os].
    + cbn [on_value length app]. ons. unfold int_num. cbv iota. rewrite !L. split.
      * intros (_ & _ & H) ds [= <-]. split; [simpl in H; lia|]. intros i o f _ K. destruct i; discriminate.
      * intros H. destruct (H js eq_refl) as [K _]. rewrite K. simpl. auto.
    + cbn [on_value]. remember (f0 :: os) as l0. ons. unfold int_num. cbv iota. rewrite !L. split.
      * intros (A & B & C) ds [= <-]. split; [lia|]. intros i o f X Y. apply (A i o (op_s f) X). rewrite nth_error_map, Y. auto.
      * intros H. destruct (H js eq_refl) as [K M]. split; [|lia]. intros i x y X Y. rewrite nth_error_map in Y. destruct (nth_error l0 i) as [f|] eqn:Z; [|discriminate]. cbn [option_map] in Y. injection Y as <-. eapply M; eauto.
  - cbn [on_value]. split; [intros _ ds [=]|]. intros _. unfold data_s. destruct os as [|f0 os]; cbn [app]; ons; auto.
Qed.
Lemma v_form f j : V j (form_s f) <-> (V j (props_s [("symbol", one_s (fst f))]) -> V j (props_s [("data", data_s (snd f))])).
Proof.
  rewrite (D j (form_s f)). assert (MI : member_is (form_s f) "if" (props_s [("symbol", one_s (fst f))])) by (apply member_iff; reflexivity).
  assert (MT : member_is (form_s f) "then" (props_s [("data", data_s (snd f))])) by (apply member_iff; reflexivity).
  split.
  - intros [K|[_ K]]; [discriminate K|]. apply (kw_then _ _ _ _ K _ _ MI MT).
  - intros H. right. split; [eexists; reflexivity|].
    assert (NO : forall k v, member (txt k) (form_s f) = None -> ~ member_is (form_s f) k v) by (intros k v N M; apply member_iff in M; congruence).
    constructor; try (intros; exfalso; match goal with M : member_is (form_s f) ?k ?v |- _ => apply (NO k v); [reflexivity|exact M] | M : string_is (form_s f) ?k ?v |- _ => apply (NO k (JStr v)); [reflexivity|exact M] end; fail).
    intros i t M M'. rewrite <- (member_fun _ _ _ _ MI M), <- (member_fun _ _ _ _ MT M'). exact H.
Qed.
Lemma v_string v : V v (type_s "string") <-> exists s, v = JStr s.
Proof. rewrite v_type. split; [|intros (s & ->); reflexivity]. destruct v; simpl; try discriminate; eauto. intros [X|[X _]]; discriminate. Qed.
Lemma v_boolean v : V v (type_s "boolean") <-> exists b, v = JBool b.
Proof. rewrite v_type. split; [|intros (s & ->); reflexivity]. destruct v; simpl; try discriminate; eauto. intros [X|[X _]]; discriminate. Qed.
Lemma v_integer v : V v (type_s "integer") <-> exists d z, v = JNum d /\ whole d z.
Proof.
  rewrite v_type. split; [|intros (d & z & -> & W); right; eauto]. destruct v; simpl; try discriminate. intros [X|[_ [z X]]]; [discriminate|eauto].
Qed.
Lemma v_operand j : V j operand_s <-> only j ["name"; "type"; "value"] /\ (exists s, string_is j "name" s) /\ (exists t, In t all_types /\ string_is j "type" (txt t)) /\ exists s, string_is j "value" s.
Proof.
  unfold operand_s. rewrite v_closed. cbn [map fst]. split.
  - intros (A & B & _). split; [exact A|]. split; [|split].
    + destruct (B "name" (type_s "string")) as (v & M & H); [simpl; auto|]. apply v_string in H as (s & ->). exists s. exact M.
    + destruct (B "type" (text_s all_types)) as (v & M & H); [simpl; auto|]. apply v_text in H as (t & I & ->). exists t. split; [exact I|exact M].
    + destruct (B "value" (type_s "string")) as (v & M & H); [simpl; auto|]. apply v_string in H as (s & ->). exists s. exact M.
  - intros (A & (s & N) & (t & I & T) & (v & W)). split; [exact A|]. split; [|constructor]. intros k p [K|[K|[K|[]]]]; injection K as <- <-.
    + exists (JStr s). split; [exact N|]. apply v_string. eauto.
    + exists (JStr (txt t)). split; [exact T|]. apply v_text. eauto.
    + exists (JStr v). split; [exact W|]. apply v_string. eauto.
Qed.
Definition types_listed : bool := forallb (fun f => forallb (fun o : string * list string => forallb (fun t => existsb (String.eqb t) all_types) (snd o) && negb (match snd o with [] => true | _ => false end)) (snd f)
   && forallb (fun s => existsb (String.eqb s) all_symbols) (fst f) && negb (match fst f with [] => true | _ => false end)) forms.
Lemma forms_facts ss os : In (ss, os) forms -> ss <> [] /\ (forall s, In s ss -> In s all_symbols) /\ forall o, In o os -> snd o <> [] /\ forall t, In t (snd o) -> In t all_types.
Proof.
  intros I. assert (T : types_listed = true) by (vm_compute; reflexivity). unfold types_listed in T. rewrite forallb_forall in T. specialize (T _ I). cbn [fst snd] in T.
  rewrite !andb_true_iff in T. destruct T as [[A B] C]. rewrite forallb_forall in A, B. split; [intros ->; discriminate C|]. split.
  - intros s S0. specialize (B s S0). apply existsb_exists in B as (x & X & Y). apply String.eqb_eq in Y. now subst.
  - intros o O0. specialize (A o O0). apply andb_true_iff in A as [A A']. split; [intros K; rewrite K in A'; discriminate A'|]. rewrite forallb_forall in A.
    intros t T. specialize (A t T). apply existsb_exists in A as (x & X & Y). apply String.eqb_eq in Y. now subst.
Qed.
Lemma all_in_forms s : In s all_symbols -> exists ss os, In (ss, os) forms /\ In s ss.
Proof.
  intros I. assert (T : forallb (fun s => existsb (fun f => existsb (String.eqb s) (fst f)) forms) all_symbols = true) by (vm_compute; reflexivity).
  rewrite forallb_forall in T. specialize (T s I). apply existsb_exists in T as ([ss os] & F & T). exists ss, os. split; [exact F|]. cbn [fst] in T. apply existsb_exists in T as (x & X & Y). apply String.eqb_eq in Y. now subst.
Qed.
Fixpoint distinctb (l : list string) : bool := match l with [] => true | x :: l => negb (existsb (String.eqb x) l) && distinctb l end.
Lemma one_form s f f' : In f forms -> In f' forms -> In s (fst f) -> In s (fst f') -> f = f'.
Proof.
  assert (T : distinctb (flat_map fst forms) = true) by (vm_compute; reflexivity). revert T. generalize forms. intros l. induction l as [|g l IH]; intros T A B S0 S1; [destruct A|].
  assert (APP : forall a b, distinctb (a ++ b) = true -> (forall x, In x a -> ~ In x b) /\ distinctb b = true).
  { clear. induction a as [|x a IH]; simpl; intros b T; [split; [tauto|auto]|]. apply andb_true_iff in T as [T1 T2]. destruct (IH b T2) as [A B]. split; [|auto].
    intros y [<-|Y]; [|auto]. intros I. apply negb_true_iff in T1. assert (K : existsb (String.eqb x) (a ++ b) = true) by (apply existsb_exists; exists x; split; [apply in_or_app; auto|apply String.eqb_refl]). congruence. }
  cbn [flat_map] in T. apply APP in T as [T T']. assert (FM : forall h, In h l -> In s (fst h) -> In s (flat_map fst l)) by (intros h H K; apply in_flat_map; eauto).
  destruct A as [<-|A], B as [<-|B]; auto.
  - destruct (T s S0). eapply FM; eauto.
  - destruct (T s S1). eapply FM; eauto.
Qed.
Lemma v_cell j : V j cell_s <-> cell_form j.
Proof.
  unfold cell_s. rewrite v_closed. cbn [map fst]. unfold cell_form. split.
  - intros (A & B & C). split; [exact A|]. rewrite Forall_map, Forall_forall in C.
    destruct (B "symbol" (text_s all_symbols)) as (v & M & H); [simpl; auto|]. apply v_text in H as (s & I & ->).
    destruct (B "bar" (type_s "boolean")) as (v & M' & H); [simpl; auto|]. apply v_boolean in H as (b & ->). split; [eauto|].
    destruct (B "data" (list_s operand_s)) as (v & M2 & H); [simpl; auto|]. apply v_list in H as (ds & -> & H); [|eexists; reflexivity].
    destruct (all_in_forms s I) as (ss & os & F & S0). exists ss, os, s, ds. split; [exact F|]. split; [exact S0|]. split; [exact M|]. split; [exact M2|].
    destruct (forms_facts _ _ F) as (N & _ & T). specialize (C _ F). apply v_form in C.
    + rewrite v_props in C. specialize (C "data" _ (JArr ds) (or_introl eq_refl) M2). apply v_data with (ds := ds) in C as [L C]; [|reflexivity]. cbn [snd] in *.
      apply forall2_by; [now symmetry|]. intros i f o X Y. specialize (C i o f Y X). rewrite Forall_forall in H. assert (K := H o (nth_error_In _ _ Y)). apply v_operand in K as (K1 & (n & K2) & (t & K3 & K4) & K5).
      assert (NE := proj1 (T f (nth_error_In _ _ X))). apply v_op in C as (C1 & C2 & C3); [|exact NE]. split; [exact K1|]. split; [|split; [|exact K5]].
      * assert (Q := C1 _ K2). injection Q as ->. exact K2.
      * destruct (C2 _ K4) as (t' & T' & Q). injection Q as Q. apply txt_inj in Q. subst t'. eauto.
    + apply v_props. cbn [fst]. intros k p v [K|[]] M3. injection K as <- <-. apply v_one; [exact N|]. rewrite (member_fun _ _ _ _ M3 M). eauto.
  - intros (A & (b & M') & ss & os & s & ds & F & S0 & M & M2 & H). destruct (forms_facts _ _ F) as (N & S1 & T). split; [exact A|]. split.
    + intros k p [K|[K|[K|[]]]]; injection K as <- <-.
      * exists (JStr (txt s)). split; [exact M|]. apply v_text. eauto.
      * exists (JBool b). split; [exact M'|]. apply v_boolean. eauto.
      * exists (JArr ds). split; [exact M2|]. apply v_list; [eexists; reflexivity|]. exists ds. split; [reflexivity|]. apply Forall_forall. intros o O0.
        apply In_nth_error in O0 as (i & O0). destruct (nth_error_forall2 _ _ _ _ _ H O0) as (f & F0 & K1 & K2 & (t & K3 & K4) & K5).
        apply v_operand. split; [exact K1|]. split; [eauto|]. split; [|exact K5]. exists t. split; [|exact K4]. apply (T f); [apply nth_error_In in F0; exact F0|exact K3].
    + rewrite Forall_map, Forall_forall. intros f F'. destruct (forms_facts (fst f) (snd f)) as (N' & _ & T'); [destruct f; exact F'|]. apply v_form. intros C. rewrite v_props in C. specialize (C "symbol" _ _ (or_introl eq_refl) M). apply v_one in C as (s' & S' & Q); [|exact N'].
      injection Q as Q. apply txt_inj in Q. subst s'. assert (FF := one_form s (ss, os) f F F' S0 S'). subst f. cbn [fst snd] in *.
      apply v_props. intros k p v [K|[]] M3. injection K as <- <-. rewrite (member_fun _ _ _ _ M3 M2). apply v_data. intros ds' [= <-]. split; [symmetry; eapply forall2_len; eauto|].
      intros i o f X Y. destruct (nth_error_forall2 _ _ _ _ _ H X) as (f' & F0 & K1 & K2 & (t & K3 & K4) & (w & K5)). rewrite Y in F0. injection F0 as <-.
      apply v_op; [apply (T f); apply nth_error_In in Y; exact Y|]. split; [|split].
      * intros v0 M4. apply (member_fun _ _ _ _ M4 K2).
      * intros v0 M4. rewrite (member_fun _ _ _ _ M4 K4). eauto.
      * intros v0 M4. rewrite (member_fun _ _ _ _ M4 K5). eauto.
Qed.
Lemma v_net j : V j net_s <-> network_form j.
Proof.
  unfold net_s. rewrite v_closed. cbn [map fst]. unfold network_form.
  assert (RS : forall v, V v (list_s (list_s cell_s)) <-> exists rs, v = JArr rs /\ Forall (fun r => exists cs, r = JArr cs /\ Forall cell_form cs) rs).
  { intros v. rewrite v_list by (eexists; reflexivity). split; intros (l & -> & H); exists l; (split; [reflexivity|]); eapply Forall_impl; try exact H; intros r R.
    - apply v_list in R as (cs & -> & R); [|eexists; reflexivity]. exists cs. split; [reflexivity|]. eapply Forall_impl; [|exact R]. intros x. apply v_cell.
    - destruct R as (cs & -> & R). apply v_list; [eexists; reflexivity|]. exists cs. split; [reflexivity|]. eapply Forall_impl; [|exact R]. intros x. apply v_cell. }
  split.
  - intros (A & B & _). split; [exact A|].
    assert (W : forall k, In k ["id"; "rows"; "cols"] -> whole_member j k).
    { intros k K. destruct (B k (type_s "integer")) as (v & M & H); [simpl in K; destruct K as [<-|[<-|[<-|[]]]]; simpl; auto|]. apply v_integer in H as (d & z & -> & H). exists d, z. auto. }
    split; [apply W; simpl; auto|]. split; [apply W; simpl; auto|]. split; [apply W; simpl; auto|].
    destruct (B "networkData" (list_s (list_s cell_s))) as (v & M & H); [simpl; auto|]. apply RS in H as (rs & -> & H). eauto.
  - intros (A & (d1 & z1 & M1 & W1) & (d2 & z2 & M2 & W2) & (d3 & z3 & M3 & W3) & rs & M & H). split; [exact A|]. split; [|constructor].
    intros k p [K|[K|[K|[K|[]]]]]; injection K as <- <-; [exists (JNum d1)|exists (JNum d2)|exists (JNum d3)|exists (JArr rs)]; (split; [assumption|]); [apply v_integer; eauto..|apply RS; eauto].
Qed.
Lemma v_shipped j : V j shipped <-> document_form j.
Proof.
  assert (A : V j shipped <-> V j (list_s net_s)).
  { rewrite shipped_pieces. unfold list_s, obj_j. cbn [map fst snd].
    match goal with |- V j (JObj ?l) <-> V j (JObj ?l') => rewrite (valid_by _ V l j D), (valid_by _ V l' j D); [|reflexivity|intros ts TS; apply member_iff in TS; discriminate TS|reflexivity|intros ts TS; apply member_iff in TS; discriminate TS] end.
    unfold by_members. ons. destruct j; cbn [on_value]; ons; tauto. }
  rewrite A, v_list by (eexists; reflexivity). unfold document_form. split; intros (l & -> & H); exists l; (split; [reflexivity|]); eapply Forall_impl; try exact H; intros r; apply v_net.
Qed.
End Pieces.
