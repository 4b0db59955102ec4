(** Facts about the allocator and the blocks of a machine. *)
From Coq Require Import Permutation.
From Verif Require Export SpecHeap.
From Coq Require Import Lia List.
Import ListNotations.
Open Scope nat_scope.

(** ** Lists of blocks up to order *)
Definition hval_dec (x y : hval) : {x = y} + {x <> y}. Proof. repeat decide equality. Defined.
Definition ins_dec (x y : ins) : {x = y} + {x <> y}. Proof. repeat decide equality. Defined.
Definition hcell_dec (x y : hcell) : {x = y} + {x <> y}. Proof. decide equality; try apply ins_dec; repeat decide equality. Defined.
Definition block_dec (x y : block) : {x = y} + {x <> y}.
Proof. decide equality; try (apply list_eq_dec; first [apply hcell_dec | apply hval_dec | repeat decide equality]); repeat decide equality. Defined.
Definition entry_dec (x y : nat * block) : {x = y} + {x <> y}. Proof. decide equality; [apply block_dec|decide equality]. Defined.
Definition cnt (e : nat * block) (l : list (nat * block)) : nat := count_occ entry_dec l e.
Definition one (x e : nat * block) : nat := if entry_dec x e then 1 else 0.
Lemma cnt_nil e : cnt e [] = 0. Proof. reflexivity. Qed.
Lemma cnt_cons e x l : cnt e (x :: l) = one x e + cnt e l.
Proof. unfold cnt, one. simpl. destruct (entry_dec x e); lia. Qed.
Lemma cnt_app e a b : cnt e (a ++ b) = cnt e a + cnt e b. Proof. apply count_occ_app. Qed.
Lemma perm_cnt a b : (forall e, cnt e a = cnt e b) <-> Permutation a b.
Proof. unfold cnt. split; intro K; apply (Permutation_count_occ entry_dec); auto. Qed.
Lemma cnt_perm a b e : Permutation a b -> cnt e a = cnt e b. Proof. intro K. now apply perm_cnt. Qed.

Ltac cntn := rewrite ?map_app, ?flat_map_app, ?cnt_app, ?cnt_cons, ?cnt_nil;
  cbn [flat_map map app]; rewrite ?cnt_app, ?cnt_cons, ?cnt_nil.
Ltac perm := apply perm_cnt; let e := fresh "e" in intro e; repeat (progress cntn); try lia.

(** ** Good states *)
Definition keyed (h : list (nat * block)) (n : nat) : Prop := NoDup (map fst h) /\ Forall (fun e => fst e < n) h.
Definition good (s : hst) (L : list (nat * block)) : Prop := keyed (s_heap s) (s_n s) /\ Permutation (s_heap s) L.

Lemma good_perm s L L' : good s L -> Permutation L L' -> good s L'.
Proof. intros [A B] C. split; auto. now rewrite B. Qed.
Lemma keyed_perm h h' n : keyed h n -> Permutation h h' -> keyed h' n.
Proof.
  intros [A B] P. split. - apply (Permutation_NoDup (Permutation_map fst P)). auto.
  - eapply Permutation_Forall; eauto.
Qed.
Lemma find_in h a b n : keyed h n -> In (a, b) h -> find_block h a = Some b.
Proof.
  intros [N _] I. unfold find_block. revert N I. induction h as [|[x y] h IH]; intros N I; [destruct I|].
  simpl. simpl in N. apply NoDup_cons_iff in N as [N1 N2]. destruct I as [I|I].
  - injection I as -> ->. rewrite Nat.eqb_refl. reflexivity.
  - destruct (x =? a) eqn:E; [apply Nat.eqb_eq in E; subst; exfalso; apply N1; apply (in_map fst) in I; auto|auto].
Qed.
Lemma find_some h a b : find_block h a = Some b -> In (a, b) h.
Proof.
  unfold find_block. induction h as [|[x y] h IH]; simpl; [discriminate|]. destruct (x =? a) eqn:E.
  - apply Nat.eqb_eq in E. subst. simpl. intro K. injection K as ->. auto.
  - auto.
Qed.
Lemma drop_cons h a b L n : keyed h n -> Permutation h ((a, b) :: L) -> Permutation (drop_block h a) L.
Proof.
  intros K P. assert (K2 : keyed ((a, b) :: L) n) by (eapply keyed_perm; eauto).
  assert (E : Permutation (drop_block h a) (drop_block ((a, b) :: L) a)).
  { unfold drop_block. clear - P. induction P; simpl; auto.
    - destruct (negb (fst x =? a)); auto.
    - destruct (negb (fst x =? a)), (negb (fst y =? a)); auto. constructor.
    - eapply perm_trans; eauto. }
  rewrite E. unfold drop_block. simpl. rewrite Nat.eqb_refl. simpl.
  destruct K2 as [N _]. simpl in N. apply NoDup_cons_iff in N as [N1 N2]. clear - N1.
  induction L as [|[x y] L IH]; simpl; auto. simpl in N1. destruct (x =? a) eqn:E; simpl.
  - apply Nat.eqb_eq in E. subst. exfalso; apply N1; auto.
  - constructor. apply IH. intro; apply N1; auto.
Qed.
Lemma drop_keyed h a n : keyed h n -> keyed (drop_block h a) n.
Proof.
  intros [N F]. unfold drop_block. split.
  - clear F. induction h as [|[x y] h IH]; simpl; [constructor|]. simpl in N. apply NoDup_cons_iff in N as [N1 N2].
    destruct (negb (x =? a)); simpl; auto. constructor; auto. intro I. apply N1. apply in_map_iff in I as (e & <- & I). apply filter_In in I as [I _].
    apply in_map. auto.
  - apply Forall_forall. intros e I. apply filter_In in I as [I _]. rewrite Forall_forall in F. auto.
Qed.

(** ** Outcomes *)
Definition wp {A} (m : H A) (Q : A -> hst -> Prop) (B : hub -> Prop) (s : hst) : Prop :=
  match m s with HOk (a, s') => Q a s' | HBad u => B u end.
Lemma wp_ret A (a : A) (Q : A -> hst -> Prop) B s : Q a s -> wp (hret a) Q B s. Proof. auto. Qed.
Lemma wp_bad A u (Q : A -> hst -> Prop) (B : hub -> Prop) s : B u -> wp (hbad u) Q B s. Proof. auto. Qed.
Lemma wp_bind A C (m : H A) (f : A -> H C) Q B s : wp m (fun a s' => wp (f a) Q B s') B s -> wp (hbind m f) Q B s.
Proof. unfold wp, hbind. destruct (m s) as [[a s']|u]; auto. Qed.
Lemma wp_mono A (m : H A) (Q Q' : A -> hst -> Prop) (B B' : hub -> Prop) s :
  wp m Q B s -> (forall a s', Q a s' -> Q' a s') -> (forall u, B u -> B' u) -> wp m Q' B' s.
Proof. unfold wp. destruct (m s) as [[a s']|u]; auto. Qed.
Lemma wp_getg (Q : hctx -> hst -> Prop) B s : Q (s_g s) s -> wp getg Q B s. Proof. auto. Qed.
Lemma wp_modg f (Q : unit -> hst -> Prop) B s : Q tt (mk_hst (s_n s) (s_heap s) (f (s_g s))) -> wp (modg f) Q B s. Proof. auto. Qed.
Lemma wp_ok A (m : H A) (Q : A -> hst -> Prop) s : wp m Q (fun _ => False) s -> exists a s', m s = HOk (a, s') /\ Q a s'.
Proof. unfold wp. destruct (m s) as [[a s']|u]; [eauto|tauto]. Qed.
Lemma wp_nth A (l : list A) i x (Q : A -> hst -> Prop) B s : nth_error l i = Some x -> Q x s -> wp (hnth l i) Q B s.
Proof. intros E K. unfold hnth. rewrite E. auto. Qed.
Lemma wp_load a b L (Q : block -> hst -> Prop) B s : good s L -> In (a, b) L -> Q b s -> wp (h_load (Some a)) Q B s.
Proof.
  intros [K P] I Z. unfold wp, h_load. rewrite (find_in (s_heap s) a b (s_n s)); auto. eapply Permutation_in; [apply Permutation_sym|]; eauto.
Qed.
Lemma wp_store a b b' L (Q : unit -> hst -> Prop) B s : good s ((a, b) :: L) ->
  (forall s', s_g s' = s_g s -> s_n s' = s_n s -> good s' ((a, b') :: L) -> Q tt s') -> wp (h_store (Some a) b') Q B s.
Proof.
  intros [K P] Z. unfold wp, h_store. rewrite (find_in (s_heap s) a b (s_n s)); auto.
  2:{ eapply Permutation_in; [apply Permutation_sym|]; eauto. left; auto. }
  pose proof (drop_cons _ _ _ _ _ K P) as D.
  apply Z; simpl; auto. split; simpl.
  2: now constructor.
  pose proof (keyed_perm _ _ _ K P) as [N F]. simpl in N. pose proof (drop_keyed (s_heap s) a _ K) as [N2 F2].
  apply NoDup_cons_iff in N as [N1 _]. inversion F; subst. simpl in *. split; simpl.
  - constructor; auto. intro I. apply N1. eapply Permutation_in; [apply Permutation_map|]; eauto.
  - constructor; auto.
Qed.
Lemma wp_free a b L (Q : unit -> hst -> Prop) B s : good s ((a, b) :: L) ->
  (forall s', s_g s' = s_g s -> s_n s' = s_n s -> good s' L -> Q tt s') -> wp (h_free (Some a)) Q B s.
Proof.
  intros [K P] Z. unfold wp, h_free. rewrite (find_in (s_heap s) a b (s_n s)); auto.
  2:{ eapply Permutation_in; [apply Permutation_sym|]; eauto. left; auto. }
  apply Z; simpl; auto. split; simpl. - now apply drop_keyed. - eapply drop_cons; eauto.
Qed.
Lemma wp_free_null (Q : unit -> hst -> Prop) B s : Q tt s -> wp (h_free None) Q B s. Proof. auto. Qed.
Lemma good_new s b L : good s L -> good (mk_hst (S (s_n s)) ((s_n s, b) :: s_heap s) (s_g s)) ((s_n s, b) :: L).
Proof.
  intros [[N F] P]. split; simpl; [|now constructor]. split; simpl.
  - constructor; auto. intro I. apply in_map_iff in I as (e & E & I). rewrite Forall_forall in F. apply F in I. lia.
  - constructor; simpl; auto. eapply Forall_impl; [|exact F]. simpl. intros; lia.
Qed.
Lemma good_refused s L : good s L -> good (mk_hst (S (s_n s)) (s_heap s) (s_g s)) L.
Proof. intros [[N F] P]. split; simpl; auto. split; auto. eapply Forall_impl; [|exact F]. simpl. intros; lia. Qed.
Lemma wp_alloc G b L (Q : ptr -> hst -> Prop) B s : good s L ->
  (forall s', s_g s' = s_g s -> s_n s' = S (s_n s) -> G (s_n s) = true -> good s' ((s_n s, b) :: L) -> Q (Some (s_n s)) s') ->
  (forall s', s_g s' = s_g s -> s_n s' = S (s_n s) -> G (s_n s) = false -> good s' L -> Q None s') ->
  wp (h_alloc G b) Q B s.
Proof.
  intros K Z1 Z2. unfold wp, h_alloc. destruct (G (s_n s)) eqn:E.
  - apply Z1; auto. now apply good_new.
  - apply Z2; auto. now apply good_refused.
Qed.
Lemma good_g s L f : good s L -> good (mk_hst (s_n s) (s_heap s) f) L. Proof. auto. Qed.

(** Loops over a list. *)
Lemma wp_for X (f : nat -> H unit) (Inv : list X -> list X -> hst -> Prop) B (l : list X) i s :
  (forall d x t s, d ++ x :: t = l -> Inv d (x :: t) s -> wp (f (i + length d)) (fun _ => Inv (d ++ [x]) t) B s) ->
  Inv [] l s -> wp (hfor (length l) i f) (fun _ => Inv l []) B s.
Proof.
  intros STEP. assert (GEN : forall t d s, d ++ t = l -> Inv d t s -> wp (hfor (length t) (i + length d) f) (fun _ => Inv l []) B s).
  { induction t as [|x t IH]; intros d s0 E K; simpl.
    - apply wp_ret. rewrite app_nil_r in E. subst. auto.
    - apply wp_bind. eapply wp_mono; [apply STEP; [exact E|exact K]| |auto]. intros u s1 K1.
      specialize (IH (d ++ [x]) s1). rewrite app_length in IH. simpl in IH. rewrite Nat.add_1_r, Nat.add_succ_r in IH.
      apply IH; auto. rewrite <- app_assoc. exact E. }
  intro K. specialize (GEN l [] s eq_refl K). simpl in GEN. rewrite Nat.add_0_r in GEN. exact GEN.
Qed.
Lemma wp_while X (f : nat -> H bool) (Inv : list X -> list X -> hst -> Prop) (St : hst -> Prop) B (l : list X) i s :
  (forall d x t s, d ++ x :: t = l -> Inv d (x :: t) s ->
     wp (f (i + length d)) (fun b s' => if b then Inv (d ++ [x]) t s' else St s') B s) ->
  Inv [] l s -> wp (hwhile (length l) i f) (fun b s' => if b then Inv l [] s' else St s') B s.
Proof.
  intros STEP. assert (GEN : forall t d s, d ++ t = l -> Inv d t s ->
    wp (hwhile (length t) (i + length d) f) (fun b s' => if b then Inv l [] s' else St s') B s).
  { induction t as [|x t IH]; intros d s0 E K; simpl.
    - apply wp_ret. rewrite app_nil_r in E. subst. auto.
    - apply wp_bind. eapply wp_mono; [apply STEP; [exact E|exact K]| |auto]. intros [|] s1 K1; [|apply wp_ret; auto].
      specialize (IH (d ++ [x]) s1). rewrite app_length in IH. simpl in IH. rewrite Nat.add_1_r, Nat.add_succ_r in IH.
      apply IH; auto. rewrite <- app_assoc. exact E. }
  intro K. specialize (GEN l [] s eq_refl K). simpl in GEN. rewrite Nat.add_0_r in GEN. exact GEN.
Qed.
Lemma nth_mid A (d : list A) x t : nth_error (d ++ x :: t) (length d) = Some x.
Proof. rewrite nth_error_app2 by lia. now rewrite Nat.sub_diag. Qed.
Lemma put_mid A (d : list A) x y t : put (d ++ x :: t) (length d) y = d ++ y :: t.
Proof. induction d; simpl; congruence. Qed.
Lemma nth_split_at A (l : list A) i x : nth_error l i = Some x -> exists d t, l = d ++ x :: t /\ length d = i.
Proof. apply nth_error_split. Qed.
Lemma nth_map_mid A B (f : A -> B) d x t : nth_error (map f (d ++ x :: t)) (length d) = Some (f x).
Proof. rewrite map_app. simpl. rewrite nth_error_app2; rewrite map_length; auto. now rewrite Nat.sub_diag. Qed.
Lemma put_map_mid A B (f : A -> B) d x t y : put (map f (d ++ x :: t)) (length d) y = map f d ++ y :: map f t.
Proof. rewrite map_app. simpl. rewrite <- (map_length f d). apply put_mid. Qed.
