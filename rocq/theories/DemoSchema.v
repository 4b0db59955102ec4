(** Computing whether a schema is plain and a document testable, and the documents of the examples. *)
From Coq Require Import String.
From Verif Require Export Shipped.
Open Scope string_scope.
Open Scope list_scope.
Open Scope Z_scope.

Definition look (k : string) (s : json) : option json := member (txt k) s.
(** The schemas directly below. *)
Definition below (s : json) : list json :=
  match look "if" s with Some v => [v] | None => [] end ++ match look "then" s with Some v => [v] | None => [] end
  ++ match look "allOf" s with Some (JArr l) => l | _ => [] end
  ++ match look "items" s with Some (JArr l) => l | Some v => [v] | None => [] end
  ++ match look "properties" s with Some (JObj l) => map snd l | _ => [] end.
Fixpoint parts (n : nat) (s : json) : list json := match n with O => [] | S n => s :: flat_map (parts n) (below s) end.
Fixpoint values (n : nat) (j : json) : list json :=
  match n with
  | O => []
  | S n => j :: match j with JArr l => flat_map (values n) l | JObj l => flat_map (fun p => values n (snd p)) l | _ => [] end
  end.
Lemma below_depth s y : In y (below s) -> (depth y < depth s)%nat.
Proof.
  unfold below, look. rewrite !in_app_iff. intros [H|[H|[H|[H|H]]]].
  - destruct (member (txt "if") s) as [v|] eqn:M; [|destruct H]. destruct H as [<-|[]]. eapply depth_of; eauto.
  - destruct (member (txt "then") s) as [v|] eqn:M; [|destruct H]. destruct H as [<-|[]]. eapply depth_of; eauto.
  - destruct (member (txt "allOf") s) as [v|] eqn:M; [|destruct H]. apply depth_of in M. destruct v as [|x|x|x|l|x]; try (destruct H; fail).
    eapply Nat.lt_trans; [|exact M]. now apply depth_elem.
  - destruct (member (txt "items") s) as [v|] eqn:M; [|destruct H]. apply depth_of in M. destruct v; try (destruct H as [<-|[]]; exact M).
    eapply Nat.lt_trans; [|exact M]. now apply depth_elem.
  - destruct (member (txt "properties") s) as [v|] eqn:M; [|destruct H]. apply depth_of in M. destruct v as [|x|x|x|x|l]; try (destruct H; fail).
    eapply Nat.lt_trans; [|exact M]. apply in_map_iff in H as ([k z] & <- & I). now apply (depth_member _ k).
Qed.
Lemma part_below s x : part s x -> x = s \/ exists y, In y (below s) /\ part y x.
Proof.
  intros H. inversion H; subst; auto; right; unfold below, look.
  - exists v. split; auto. rewrite !in_app_iff. destruct H0 as [M|M]; apply member_iff in M; rewrite M; simpl; auto.
  - exists y. split; auto. rewrite !in_app_iff. destruct H0 as [M|M]; apply member_iff in M; rewrite M; auto.
  - exists v. split; auto. rewrite !in_app_iff. apply member_iff in H0. rewrite H0. right. right. right. left. destruct v; simpl; auto. now destruct (H1 l).
  - exists v. split; auto. rewrite !in_app_iff. apply member_iff in H0. rewrite H0. right. right. right. right. apply (in_map snd) in H1. auto.
Qed.
Lemma parts_all : forall n s x, (depth s <= n)%nat -> part s x -> In x (parts n s).
Proof.
  induction n as [|n IH]; intros s x D H; [assert (K := depth_pos s); lia|]. cbn [parts]. apply part_below in H as [->|(y & Y & H)]; [simpl; auto|].
  right. apply in_flat_map. exists y. split; auto. apply IH; auto. apply below_depth in Y. lia.
Qed.
Lemma values_all : forall n j x, (depth j <= n)%nat -> contains j x -> In x (values n j).
Proof.
  induction n as [|n IH]; intros j x D H; [assert (K := depth_pos j); lia|]. cbn [values]. inversion H; subst; [simpl; auto|right|right]; apply in_flat_map.
  - exists y. split; auto. apply IH; auto. apply depth_elem in H0. lia.
  - exists (k, y). split; auto. apply IH; auto. apply depth_member in H0. simpl. lia.
Qed.

Definition noneb (s : json) (k : string) : bool := match look k s with None => true | Some _ => false end.
Definition boolb (s : json) (k : string) : bool := match look k s with None | Some (JBool _) => true | Some _ => false end.
Definition keyb (k : list Z) (l : list (list Z * json)) : bool := existsb (fun p => same_text k (fst p)) l.
Definition natb (s : json) (k : string) : bool :=
  match look k s with Some (JNum (Fin m 0)) => (0 <=? m) && (m <? 2 ^ 31) | Some (JNum _) => false | _ => true end.
Definition plainb (s : json) : bool :=
  match s with JBool _ | JObj _ => true | _ => false end
  && (noneb s "if" || noneb s "then" || forallb (noneb s) ["type"; "enum"; "const"; "minimum"; "maximum"; "minLength"; "maxLength"; "items"; "additionalItems"; "minItems"; "maxItems";
                       "properties"; "required"; "additionalProperties"; "allOf"])
  && (noneb s "if" || noneb s "else")
  && match look "type" s with Some (JArr _) => false | _ => true end
  && match look "required" s with
     | Some (JArr rs) => forallb (fun r => match r with JStr k => match look "properties" s with Some (JObj ps) => keyb k ps | _ => false end | _ => true end) rs
     | _ => true
     end
  && boolb s "additionalItems" && boolb s "additionalProperties"
  && forallb (natb s) ["minLength"; "maxLength"; "minItems"; "maxItems"].
Lemma noneb_ok s k : noneb s k = true -> absent s k.
Proof. unfold noneb, look, absent. intros H v M. apply member_iff in M. rewrite M in H. discriminate. Qed.
Lemma boolb_ok s k : boolb s k = true -> forall v, member_is s k v -> exists b, v = JBool b.
Proof. unfold boolb, look. intros H v M. apply member_iff in M. rewrite M in H. destruct v; try discriminate. eauto. Qed.
Lemma keyb_iff k l : keyb k l = true <-> In k (map fst l).
Proof.
  unfold keyb. rewrite existsb_exists, in_map_iff. split; intros (p & A & B); exists p.
  - apply same_text_eq in B. auto.
  - split; auto. apply same_text_eq. auto.
Qed.
Lemma plainb_ok s : plainb s = true -> plain s.
Proof.
  unfold plainb. rewrite !andb_true_iff, !orb_true_iff. intros [[[[[[[A B] C] D] F] G] H] I]. constructor.
  - destruct s; try discriminate; eauto.
  - destruct B as [[B|B]|B]; auto using noneb_ok. right. right. apply Forall_forall. rewrite forallb_forall in B. intros k K. apply noneb_ok. auto.
  - destruct C as [C|C]; auto using noneb_ok.
  - intros ts M. apply member_iff in M. unfold look in D. rewrite M in D. discriminate.
  - intros rs k M K. apply member_iff in M. unfold look in F. rewrite M in F. rewrite forallb_forall in F. specialize (F _ K). unfold look in F.
    destruct (member (txt "properties") s) as [p|] eqn:P; [|discriminate]. destruct p as [|x|x|x|x|ps]; try discriminate. exists ps. split; [now apply member_iff|now apply keyb_iff].
  - now apply boolb_ok.
  - now apply boolb_ok.
  - intros k d K M. rewrite forallb_forall in I. specialize (I k K). unfold natb, look in I. apply member_iff in M. rewrite M in I.
    destruct d as [m e|]; [|discriminate]. destruct e; try discriminate. apply andb_true_iff in I as [I J]. apply Z.leb_le in I. apply Z.ltb_lt in J. exists m. split; [reflexivity|split; assumption].
Qed.
Lemma plain_parts s : forallb plainb (parts (depth s) s) = true -> forall x, part s x -> plain x.
Proof. intros H x P. rewrite forallb_forall in H. apply plainb_ok, H. now apply parts_all. Qed.
Lemma shipped_plain : forall x, part shipped x -> plain x.
Proof. apply plain_parts. vm_compute. reflexivity. Qed.

(** The names of the document and those listed. *)
Definition names (j : json) : list (list Z) := match j with JObj l => map fst l | _ => [] end.
Definition testableb (s j : json) : bool :=
  forallb (fun x => match x with JNum d => match dbl_trunc d (- 2 ^ 31) (2 ^ 31 - 1) with Ok _ => true | _ => false end | _ => true end) (values (depth j) j)
  && let listed := flat_map (fun x => match look "properties" x with Some (JObj l) => map fst l | _ => [] end) (parts (depth s) s) in
     forallb (fun x => forallb (fun k => forallb (fun k' => negb (same_text (map lower k) (map lower k')) || same_text k k') listed) (names x)) (values (depth j) j).
Lemma testableb_ok s j : testableb s j = true -> testable s j.
Proof.
  unfold testableb. rewrite andb_true_iff. intros [A B]. split.
  - intros d D. rewrite forallb_forall in A. apply values_all with (n := depth j) in D; auto. specialize (A _ D). cbv beta iota in A.
    destruct (dbl_trunc d (- 2 ^ 31) (2 ^ 31 - 1)) as [z| |] eqn:T; try discriminate. apply dbl_trunc_iff in T; [|lia]. exists z. destruct T as [T U]. split; [exact T|lia].
  - intros x ps l k k' X M L K K' C. cbv zeta in B. rewrite forallb_forall in B. apply values_all with (n := depth j) in L; auto. specialize (B _ L). rewrite forallb_forall in B.
    specialize (B k K). rewrite forallb_forall in B. specialize (B k'). apply lower_text in C. apply same_text_eq in C. rewrite C in B. apply same_text_eq. apply B.
    apply in_flat_map. exists x. split; [now apply parts_all|]. apply member_iff in M. unfold look. rewrite M. auto.
Qed.

(** ** Examples *)

(** Equality of texts, enough for schemas that compare with texts only. *)
Definition cmp_text : comparison := fun a b => match a, b with JStr x, JStr y => same_text x y | _, _ => false end.
Definition valid_doc (j s : json) : option bool := match validate_file cmp_text (F_doc j) (F_doc s) with Ok b => Some b | _ => None end.
Definition one_cell (s : string) (ds : list json) : json :=
  JArr [obj_j [("id", int_num 0); ("rows", int_num 1); ("cols", int_num 1);
    ("networkData", JArr [JArr [obj_j [("symbol", JStr (txt s)); ("bar", JBool false); ("data", JArr ds)]]])]].
Definition operand_j (n t v : string) : json := obj_j [("name", JStr (txt n)); ("type", JStr (txt t)); ("value", JStr (txt v))].
