(** Lemmas about lists, arrays and the monad. *)
From Coq Require Export ZifyBool.
From Verif Require Export Spec.

(** ** Lists *)
Lemma lset_length {A} (l : list A) i v : length (lset l i v) = length l.
Proof. revert i; induction l as [|a l IH]; destruct i; simpl; auto. Qed.
Lemma nth_lset_same {A} (l : list A) i v : (i < length l)%nat -> nth_error (lset l i v) i = Some v.
Proof. revert i; induction l as [|a l IH]; destruct i; simpl; intros; try lia; auto. apply IH; lia. Qed.
Lemma nth_lset_other {A} (l : list A) i j v : i <> j -> nth_error (lset l i v) j = nth_error l j.
Proof. revert i j; induction l as [|a l IH]; destruct i, j; simpl; intros; try congruence; auto. Qed.
Lemma nth_some_lt {A} (l : list A) i a : nth_error l i = Some a -> (i < length l)%nat.
Proof. intros H; apply nth_error_Some; congruence. Qed.
Lemma nth_lt_some {A} (l : list A) i : (i < length l)%nat -> exists a, nth_error l i = Some a.
Proof. intros H; destruct (nth_error l i) eqn:E; eauto. apply nth_error_None in E; lia. Qed.
Lemma lset_same {A} (l : list A) i a : nth_error l i = Some a -> lset l i a = l.
Proof. revert i; induction l as [|x l IH]; destruct i; simpl; intros; try congruence. f_equal; auto. Qed.
Lemma lset_lset {A} (l : list A) i a b : lset (lset l i a) i b = lset l i b.
Proof. revert i; induction l as [|x l IH]; destruct i; simpl; intros; f_equal; auto. Qed.
Lemma nth_error_ext {A} (l l' : list A) : (forall i, nth_error l i = nth_error l' i) -> l = l'.
Proof.
  revert l'; induction l as [|a l IH]; destruct l' as [|b l']; intros H; auto.
  - specialize (H 0%nat); discriminate.
  - specialize (H 0%nat); discriminate.
  - f_equal. { specialize (H 0%nat); simpl in H; congruence. }
    apply IH; intros i; exact (H (S i)).
Qed.
Lemma nth_repeat {A} (a : A) n i : (i < n)%nat -> nth_error (repeat a n) i = Some a.
Proof. revert i; induction n; destruct i; simpl; intros; try lia; auto. apply IHn; lia. Qed.
Lemma nth_repeat_inv {A} (a b : A) n i : nth_error (repeat a n) i = Some b -> a = b /\ (i < n)%nat.
Proof.
  intros H. assert (i < n)%nat by (rewrite <- (repeat_length a n); eapply nth_some_lt; eauto).
  rewrite nth_repeat in H by auto. split; congruence.
Qed.
Lemma nth_firstn {A} (l : list A) n i : (i < n)%nat -> nth_error (firstn n l) i = nth_error l i.
Proof. revert n i; induction l; destruct n, i; simpl; intros; try lia; auto. apply IHl; lia. Qed.
Lemma nth_skipn {A} (l : list A) n i : nth_error (skipn n l) i = nth_error l (n + i).
Proof. revert n; induction l; destruct n; simpl; auto. destruct i; auto. Qed.
Lemma firstn_length_eq {A} (l : list A) n : (n <= length l)%nat -> length (firstn n l) = n.
Proof. intros; rewrite firstn_length; lia. Qed.

(** ** C arrays *)
Lemma idx_ok_spec {A} (l : list A) z : idx_ok l z = true <-> 0 <= z < Z.of_nat (length l).
Proof. unfold idx_ok; lia. Qed.
Lemma pget_elem {A} (p : option (list A)) z a :
  0 <= z -> elem p (ix z) = Some a -> pget p z = Ok a.
Proof.
  intros Hz H. destruct p as [l|]; simpl in *; [|discriminate]. unfold lget.
  pose proof (nth_some_lt _ _ _ H). replace (idx_ok l z) with true by (symmetry; apply idx_ok_spec; unfold ix in *; lia).
  unfold ix in H; rewrite H; auto.
Qed.
Lemma pget_ok {A} (p : option (list A)) z a : pget p z = Ok a -> 0 <= z /\ elem p (ix z) = Some a.
Proof.
  destruct p as [l|]; simpl; [|discriminate]. unfold lget. destruct (idx_ok l z) eqn:Hi; [|discriminate].
  apply idx_ok_spec in Hi. unfold ix. destruct (nth_error l (Z.to_nat z)) eqn:Hn; [|discriminate].
  intros H; inversion H; subst. split; [lia|auto].
Qed.
Lemma pget_nat {A} (p : option (list A)) i a : elem p i = Some a -> pget p (Z.of_nat i) = Ok a.
Proof. intros; apply pget_elem; [lia|]. unfold ix; rewrite Nat2Z.id; auto. Qed.
Lemma pset_elem {A} (p : option (list A)) z a v :
  0 <= z -> elem p (ix z) = Some a -> pset p z v = Ok (option_map (fun l => lset l (ix z) v) p).
Proof.
  intros Hz H. destruct p as [l|]; simpl in *; [|discriminate].
  pose proof (nth_some_lt _ _ _ H). replace (idx_ok l z) with true by (symmetry; apply idx_ok_spec; unfold ix in *; lia).
  reflexivity.
Qed.
Lemma elem_lset_same {A} (p : option (list A)) i v a :
  elem p i = Some a -> elem (option_map (fun l => lset l i v) p) i = Some v.
Proof. destruct p; simpl; intros; [|discriminate]. apply nth_lset_same. eapply nth_some_lt; eauto. Qed.
Lemma elem_lset_other {A} (p : option (list A)) i j v :
  i <> j -> elem (option_map (fun l => lset l i v) p) j = elem p j.
Proof. destruct p; simpl; intros; auto. apply nth_lset_other; auto. Qed.
Lemma size_lset {A} (p : option (list A)) i v : size (option_map (fun l => lset l i v) p) = size p.
Proof. destruct p; simpl; auto. rewrite lset_length; auto. Qed.
Lemma elem_size {A} (p p' : option (list A)) : (forall i, elem p i = elem p' i) -> size p = size p' -> p = p'.
Proof.
  destruct p, p'; simpl; intros H1 H2; try discriminate; auto. f_equal; apply nth_error_ext; auto.
Qed.
Lemma arr_ok_elem p n i : arr_ok p n -> (i < n)%nat -> exists z, elem p i = Some z.
Proof. intros (l & -> & H) Hi; simpl. apply nth_lt_some; lia. Qed.

(** ** Monad *)
Lemma bind_ok {A B} (m : M A) (k : A -> M B) s a s' : m s = Ok (a, s') -> bind m k s = k a s'.
Proof. unfold bind; intros ->; auto. Qed.
Lemma bind_inv {A B} (m : M A) (k : A -> M B) s b s' :
  bind m k s = Ok (b, s') -> exists a s1, m s = Ok (a, s1) /\ k a s1 = Ok (b, s').
Proof. unfold bind; destruct (m s) as [[a s1]| |]; intros; try discriminate; eauto. Qed.
Lemma bind_getc {B} (k : ctx -> M B) s : bind getc k s = k (s_ctx s) s.
Proof. reflexivity. Qed.
Lemma bind_ret {A B} (a : A) (k : A -> M B) s : bind (ret a) k s = k a s.
Proof. reflexivity. Qed.
Lemma bind_bind {A B C} (m : M A) (k : A -> M B) (h : B -> M C) s :
  bind (bind m k) h s = bind m (fun a => bind (k a) h) s.
Proof. unfold bind; destruct (m s) as [[a s1]| |]; auto. Qed.
Lemma lift_ok {A} (r : res A) a s : r = Ok a -> lift r s = Ok (a, s).
Proof. intros ->; auto. Qed.
Lemma updc_ok f s c : f (s_ctx s) = Ok c -> updc f s = Ok (tt, mk_st c (s_tr s)).
Proof. unfold updc; intros ->; auto. Qed.
Lemma rbind_inv {A B} (m : res A) (k : A -> res B) b : rbind m k = Ok b -> exists a, m = Ok a /\ k a = Ok b.
Proof. destruct m; simpl; intros; try discriminate; eauto. Qed.

(** The same state with another context. *)
Definition inc (s : st) (c : ctx) : st := mk_st c (s_tr s).
Lemma inc_self s : inc s (s_ctx s) = s. Proof. destruct s; auto. Qed.
Lemma inc_inc s a b : inc (inc s a) b = inc s b. Proof. auto. Qed.

(** ** Changes *)
Lemma changes_refl c S : changes_only c c S. Proof. intros l _; auto. Qed.
Lemma changes_trans a b c S : changes_only a b S -> changes_only b c S -> changes_only a c S.
Proof. intros H1 H2 l Hl. rewrite H2, H1; auto. Qed.
Lemma changes_mono a b (S T : loc -> Prop) : (forall l, S l -> T l) -> changes_only a b S -> changes_only a b T.
Proof. intros H H1 l Hl. apply H1; auto. Qed.

Definition bank_eq_dec (a b : bank) : {a = b} + {a <> b}. Proof. decide equality. Defined.
Definition ik_eq_dec (a b : ik) : {a = b} + {a <> b}. Proof. decide equality. Defined.
Definition ok_eq_dec (a b : ok) : {a = b} + {a <> b}. Proof. decide equality. Defined.
Definition loc_eq_dec (a b : loc) : {a = b} + {a <> b}.
Proof.
  decide equality; try apply Nat.eq_dec; try apply bank_eq_dec; try apply ik_eq_dec; apply ok_eq_dec.
Defined.
