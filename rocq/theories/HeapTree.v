(** Networks as trees of blocks: clearing and releasing them. *)
From Coq Require Import Permutation.
From Verif Require Export HeapFacts.
From Coq Require Import Lia List.
Import ListNotations.
Open Scope nat_scope.

Definition optr (p : ptr) : list (nat * block) := match p with Some a => [(a, B_any)] | None => [] end.
Definition own_val (v : hval) : list (nat * block) := match v with V_str p => optr p | V_other => [] end.
Record tcell : Type := mk_tcell { y_code : ins; y_dq : nat; y_data : option (nat * list hval) }.
Definition hc (t : tcell) : hcell := mk_hcell (y_code t) (y_dq t) (option_map fst (y_data t)).
Definition own_cell (t : tcell) : list (nat * block) :=
  match y_data t with None => [] | Some (a, l) => (a, B_data l) :: flat_map own_val l end.
Definition cell_ok (t : tcell) : Prop := match y_data t with None => True | Some (_, l) => length l = y_dq t /\ 0 < y_dq t end.
Definition trow := option (nat * list tcell).
Definition hr (r : trow) : ptr := option_map fst r.
Definition own_row (r : trow) : list (nat * block) :=
  match r with None => [] | Some (a, l) => (a, B_cells (map hc l)) :: flat_map own_cell l end.
Definition row_ok (cols : nat) (r : trow) : Prop := match r with None => False | Some (_, l) => length l = cols /\ Forall cell_ok l end.
Record tnet : Type := mk_tnet { z_rows : nat; z_cols : nat; z_cells : option (nat * list trow) }.
Definition hn (t : tnet) : hnet := mk_hnet (z_rows t) (z_cols t) (option_map fst (z_cells t)).
Definition own_net (t : tnet) : list (nat * block) :=
  match z_cells t with None => [] | Some (a, l) => (a, B_rows (map hr l)) :: flat_map own_row l end.
Definition net_ok (t : tnet) : Prop :=
  match z_cells t with None => True | Some (_, l) => length l = z_rows t /\ Forall (row_ok (z_cols t)) l end.
Definition nets (a : nat) (l : list tnet) : list (nat * block) := (a, B_nets (map hn l)) :: flat_map own_net l.
Definition hollow_t (t : tnet) : Prop := 0 < z_rows t /\ z_cells t = None.
Definition clr (t : tcell) : tcell := match y_data t with None => mk_tcell I_NOP (y_dq t) None | Some _ => mk_tcell I_NOP 0 None end.
Definition clr_row (r : trow) : trow := option_map (fun e => (fst e, map clr (snd e))) r.
Definition clr_net (t : tnet) : tnet := mk_tnet (z_rows t) (z_cols t) (option_map (fun e => (fst e, map clr_row (snd e))) (z_cells t)).

Lemma good_in s L L' x : good s L -> Permutation L L' -> In x L' -> In x L.
Proof. intros _ P I. eapply Permutation_in; [apply Permutation_sym|]; eauto. Qed.
Lemma good_inj s L L' : good s L -> good s L' -> Permutation L L'.
Proof. intros [_ A] [_ B]. now rewrite <- A. Qed.

Ltac permt := unfold nets; cbn [flat_map map hr own_val own_row clr_row option_map fst snd]; perm; cbn [own_val optr own_row clr_row option_map fst snd]; repeat (progress cntn); try lia.

(** Rules for the accesses. *)
Lemma wp_get_net a nl nt w L (Q : hnet -> hst -> Prop) B s : g_net (s_g s) = Some a -> good s L -> In (a, B_nets nl) L ->
  nth_error nl nt = Some w -> Q w s -> wp (get_net nt) Q B s.
Proof.
  intros E K I N Z. unfold get_net. apply wp_bind, wp_getg. rewrite E. apply wp_bind. eapply wp_load; eauto. apply wp_bind, wp_ret.
  eapply wp_nth; eauto.
Qed.
Lemma wp_set_net a nl nt o w L (Q : unit -> hst -> Prop) B s : g_net (s_g s) = Some a -> good s ((a, B_nets nl) :: L) ->
  nth_error nl nt = Some o -> (forall s', s_g s' = s_g s -> s_n s' = s_n s -> good s' ((a, B_nets (put nl nt w)) :: L) -> Q tt s') ->
  wp (set_net nt w) Q B s.
Proof.
  intros E K N Z. unfold set_net. apply wp_bind, wp_getg. rewrite E. apply wp_bind. eapply wp_load; [eauto|left; reflexivity|].
  apply wp_bind, wp_ret. apply wp_bind. eapply wp_nth; [eauto|]. eapply wp_store; eauto.
Qed.
Lemma wp_get_row a l r p L (Q : ptr -> hst -> Prop) B s : good s L -> In (a, B_rows l) L -> nth_error l r = Some p -> Q p s ->
  wp (get_row (Some a) r) Q B s.
Proof. intros K I N Z. unfold get_row. apply wp_bind. eapply wp_load; eauto. apply wp_bind, wp_ret. eapply wp_nth; eauto. Qed.
Lemma wp_set_row a l r o p L (Q : unit -> hst -> Prop) B s : good s ((a, B_rows l) :: L) -> nth_error l r = Some o ->
  (forall s', s_g s' = s_g s -> s_n s' = s_n s -> good s' ((a, B_rows (put l r p)) :: L) -> Q tt s') -> wp (set_row (Some a) r p) Q B s.
Proof.
  intros K N Z. unfold set_row. apply wp_bind. eapply wp_load; [eauto|left; reflexivity|]. apply wp_bind, wp_ret.
  apply wp_bind. eapply wp_nth; [eauto|]. eapply wp_store; eauto.
Qed.
Lemma wp_get_cell a l c x L (Q : hcell -> hst -> Prop) B s : good s L -> In (a, B_cells l) L -> nth_error l c = Some x -> Q x s ->
  wp (get_cell (Some a) c) Q B s.
Proof. intros K I N Z. unfold get_cell. apply wp_bind. eapply wp_load; eauto. apply wp_bind, wp_ret. eapply wp_nth; eauto. Qed.
Lemma wp_set_cell a l c o x L (Q : unit -> hst -> Prop) B s : good s ((a, B_cells l) :: L) -> nth_error l c = Some o ->
  (forall s', s_g s' = s_g s -> s_n s' = s_n s -> good s' ((a, B_cells (put l c x)) :: L) -> Q tt s') -> wp (set_cell (Some a) c x) Q B s.
Proof.
  intros K N Z. unfold set_cell. apply wp_bind. eapply wp_load; [eauto|left; reflexivity|]. apply wp_bind, wp_ret.
  apply wp_bind. eapply wp_nth; [eauto|]. eapply wp_store; eauto.
Qed.
Lemma wp_free_opt p L (Q : unit -> hst -> Prop) B s : good s (optr p ++ L) ->
  (forall s', s_g s' = s_g s -> s_n s' = s_n s -> good s' L -> Q tt s') -> wp (h_free p) Q B s.
Proof. destruct p as [a|]; simpl; intros K Z; [eapply wp_free; eauto|apply wp_free_null; auto]. Qed.

(** Operands *)
Lemma wp_free_data x a l R (Q : unit -> hst -> Prop) B s : k_data x = Some a -> k_dq x = length l ->
  good s ((a, B_data l) :: flat_map own_val l ++ R) ->
  (forall s', s_g s' = s_g s -> s_n s' = s_n s -> good s' R -> Q tt s') -> wp (free_data x) Q B s.
Proof.
  intros E D K Z. unfold free_data. rewrite E, D. apply wp_bind. eapply wp_load; [eauto|left; reflexivity|]. apply wp_bind, wp_ret.
  apply wp_bind. eapply wp_mono; [apply wp_for with (l := l) (i := 0)
    (Inv := fun d t s' => s_g s' = s_g s /\ s_n s' = s_n s /\ good s' ((a, B_data l) :: flat_map own_val t ++ R))| |intros u0 Z0; exact Z0].
  - intros d v t s1 EL (E1 & N1 & K1). unfold free_value. apply wp_bind. eapply wp_nth; [simpl; rewrite <- EL; apply nth_mid|].
    destruct v as [|p].
    + apply wp_ret. auto.
    + eapply wp_free_opt with (L := (a, B_data l) :: flat_map own_val t ++ R).
      * eapply good_perm; [exact K1|]. permt.
      * intros s2 E2 N2 K2. split; [congruence|]. split; [congruence|]. exact K2.
  - auto.
  - intros u s1 (E1 & N1 & K1). simpl in K1. eapply wp_free; [exact K1|]. intros s2 E2 N2 K2. apply Z; congruence || auto.
Qed.

(** ladder_clear_program *)
Lemma clear_one_ok nt r a nl w b rl p d x t R s B : g_net (s_g s) = Some a -> In (a, B_nets nl) R -> nth_error nl nt = Some w ->
  w_cells w = Some b -> In (b, B_rows rl) R -> nth_error rl r = Some (Some p) -> cell_ok x ->
  good s ((p, B_cells (map hc (d ++ x :: t))) :: own_cell x ++ R) ->
  wp (clear_one nt r (length d)) (fun _ s' => s_g s' = s_g s /\ good s' ((p, B_cells (map hc (d ++ clr x :: t))) :: R)) B s.
Proof.
  intros EG I1 N1 EW I2 N2 OK K. unfold clear_one.
  apply wp_bind. eapply wp_get_net; [eauto|exact K|right; apply in_or_app; right; exact I1|eauto|].
  apply wp_bind. rewrite EW. eapply wp_get_row; [exact K|right; apply in_or_app; right; exact I2|eauto|].
  assert (NM : nth_error (map hc (d ++ x :: t)) (length d) = Some (hc x)).
  { rewrite map_app. simpl. rewrite <- (map_length hc d). apply nth_mid. }
  assert (PM : forall y, put (map hc (d ++ x :: t)) (length d) y = map hc d ++ y :: map hc t).
  { intro y. rewrite map_app. simpl. rewrite <- (map_length hc d). apply put_mid. }
  apply wp_bind. eapply wp_get_cell; [exact K|left; reflexivity|exact NM|].
  unfold cell_ok in OK. unfold clr. simpl. destruct (y_data x) as [[q l]|] eqn:ED; simpl.
  - apply wp_bind. unfold own_cell in K. rewrite ED in K.
    eapply wp_free_data with (a := q) (l := l) (R := (p, B_cells (map hc (d ++ x :: t))) :: R).
    + simpl. rewrite ED. reflexivity.
    + simpl. symmetry. tauto.
    + eapply good_perm; [exact K|]. permt.
    + intros s1 E1 _ K1. eapply wp_set_cell; [exact K1|exact NM|]. intros s2 E2 _ K2. split; [congruence|].
      rewrite PM in K2. rewrite map_app. exact K2.
  - unfold own_cell in K. rewrite ED in K. simpl in K. eapply wp_set_cell; [exact K|exact NM|]. intros s2 E2 _ K2. split; [auto|].
    rewrite PM in K2. rewrite map_app. exact K2.
Qed.
Lemma clear_row_ok nt r a nl w b rl p cs R s B : g_net (s_g s) = Some a -> In (a, B_nets nl) R -> nth_error nl nt = Some w ->
  w_cells w = Some b -> In (b, B_rows rl) R -> nth_error rl r = Some (Some p) -> Forall cell_ok cs ->
  good s ((p, B_cells (map hc cs)) :: flat_map own_cell cs ++ R) ->
  wp (hfor (length cs) 0 (clear_one nt r)) (fun _ s' => s_g s' = s_g s /\ good s' ((p, B_cells (map hc (map clr cs))) :: R)) B s.
Proof.
  intros EG I1 N1 EW I2 N2 OK K.
  eapply wp_mono; [apply wp_for with (l := cs) (i := 0)
    (Inv := fun d t s' => s_g s' = s_g s /\ good s' ((p, B_cells (map hc (map clr d ++ t))) :: flat_map own_cell t ++ R))| |intros u0 Z0; exact Z0].
  - intros d x t s1 EL (E1 & K1). simpl.
    assert (OX : cell_ok x) by (rewrite Forall_forall in OK; apply OK; rewrite <- EL; apply in_or_app; right; left; auto).
    rewrite <- (map_length clr d).
    eapply wp_mono; [eapply clear_one_ok with (d := map clr d) (x := x) (t := t) (R := flat_map own_cell t ++ R)| |intros u0 Z0; exact Z0].
    + rewrite E1; eauto.
    + apply in_or_app; right; exact I1.
    + eauto.
    + eauto.
    + apply in_or_app; right; exact I2.
    + eauto.
    + exact OX.
    + eapply good_perm; [exact K1|]. permt.
    + intros u s2 (E2 & K2). split; [congruence|]. rewrite (map_app clr), <- app_assoc. exact K2.
  - auto.
  - intros u s1 (E1 & K1). split; auto. rewrite app_nil_r in K1. exact K1.
Qed.
Lemma hr_clr rs : map hr (map clr_row rs) = map hr rs.
Proof. rewrite map_map. apply map_ext. intros [[p l]|]; reflexivity. Qed.
Lemma own_clr_cells l : flat_map own_cell (map clr l) = [].
Proof. induction l as [|x l IH]; auto. simpl. rewrite IH. unfold own_cell, clr. destruct (y_data x); reflexivity. Qed.
Definition hollow_bad (l : list tnet) (u : hub) : Prop := u = H_null /\ Exists hollow_t l.

Lemma clear_net_ok nt a l1 n l2 R s : g_net (s_g s) = Some a -> In (a, B_nets (map hn (l1 ++ n :: l2))) R -> nt = length l1 -> net_ok n ->
  good s (own_net n ++ R) ->
  wp (hfor (z_rows n) 0 (fun r => hfor (z_cols n) 0 (clear_one nt r)))
     (fun _ s' => s_g s' = s_g s /\ good s' (own_net (clr_net n) ++ R)) (fun u => u = H_null /\ hollow_t n) s.
Proof.
  intros EG IN -> OK K.
  assert (NN : nth_error (map hn (l1 ++ n :: l2)) (length l1) = Some (hn n)).
  { rewrite map_app. simpl. rewrite <- (map_length hn l1). apply nth_mid. }
  unfold net_ok in OK. unfold own_net in *. unfold clr_net. simpl. destruct (z_cells n) as [[b rs]|] eqn:EC; simpl.
  - destruct OK as [LR OK]. rewrite <- LR.
    eapply wp_mono; [apply wp_for with (l := rs) (i := 0)
      (Inv := fun d t s' => s_g s' = s_g s /\ good s' ((b, B_rows (map hr rs)) :: flat_map own_row (map clr_row d) ++ flat_map own_row t ++ R))| |intros u0 Z0; exact Z0].
    + intros d x t s1 EL (E1 & K1). simpl.
      assert (OX : row_ok (z_cols n) x) by (rewrite Forall_forall in OK; apply OK; rewrite <- EL; apply in_or_app; right; left; auto).
      destruct x as [[p cs]|]; [|destruct OX]. destruct OX as [LC OX]. rewrite <- LC.
      eapply wp_mono; [eapply clear_row_ok with (R := (b, B_rows (map hr rs)) :: flat_map own_row (map clr_row d) ++ flat_map own_row t ++ R)| |intros u0 Z0; exact Z0].
      * rewrite E1; eauto.
      * right. apply in_or_app; right. apply in_or_app; right. exact IN.
      * exact NN.
      * simpl. rewrite EC. reflexivity.
      * left; reflexivity.
      * rewrite <- EL, map_app. simpl. rewrite <- (map_length hr d). apply nth_mid.
      * exact OX.
      * eapply good_perm; [exact K1|]. permt.
      * intros u s2 (E2 & K2). split; [congruence|]. eapply good_perm; [exact K2|]. rewrite map_app, flat_map_app. permt.
        rewrite own_clr_cells. repeat progress cntn. lia.
    + split; auto.
    + intros u s1 (E1 & K1). split; auto. rewrite hr_clr. exact K1.
  - simpl in K. destruct (z_rows n) as [|rr] eqn:ER; simpl; [apply wp_ret; auto|].
    destruct (z_cols n) as [|cc] eqn:EO; simpl.
    + (* rows without columns: nothing is looked at *)
      apply wp_bind, wp_ret. clear - K. assert (X : forall q i, wp (hfor q i (fun r : nat => hret tt)) (fun _ s' => s_g s' = s_g s /\ good s' R) (fun u => u = H_null /\ hollow_t n) s).
      { induction q as [|q IH]; intro i; simpl; [apply wp_ret; auto|]. apply wp_bind, wp_ret. apply IH. }
      apply X.
    + apply wp_bind. unfold clear_one at 1. apply wp_bind, wp_bind. eapply wp_get_net; [eauto|exact K|exact IN|exact NN|].
      apply wp_bind. simpl. rewrite EC. simpl. unfold get_row. apply wp_bind. red. simpl. split; auto. split; [lia|auto].
Qed.
Lemma hn_clr l : map hn (map clr_net l) = map hn l.
Proof. rewrite map_map. apply map_ext. intros [r c [[b rs]|]]; reflexivity. Qed.

Lemma clear_ok a l R s : g_net (s_g s) = Some a -> g_nets (s_g s) = length l -> Forall net_ok l -> good s (nets a l ++ R) ->
  wp h_clear_program (fun _ s' => s_g s' = s_g s /\ good s' (nets a (map clr_net l) ++ R)) (hollow_bad l) s.
Proof.
  intros EG EN OK K. unfold h_clear_program. apply wp_bind, wp_getg. rewrite EN.
  eapply wp_mono; [apply wp_for with (l := l) (i := 0)
    (Inv := fun d t s' => s_g s' = s_g s /\ good s' ((a, B_nets (map hn l)) :: flat_map own_net (map clr_net d) ++ flat_map own_net t ++ R))| |intros u Z; exact Z].
  - intros d n t s1 EL (E1 & K1). simpl.
    assert (NN : nth_error (map hn l) (length d) = Some (hn n)).
    { rewrite <- EL, map_app. simpl. rewrite <- (map_length hn d). apply nth_mid. }
    apply wp_bind. eapply wp_get_net; [rewrite E1; eauto|exact K1|left; reflexivity|exact NN|].
    eapply wp_mono; [eapply clear_net_ok with (n := n) (l1 := d) (l2 := t) (R := (a, B_nets (map hn l)) :: flat_map own_net (map clr_net d) ++ flat_map own_net t ++ R)| |].
    + rewrite E1; eauto.
    + left. rewrite EL. reflexivity.
    + reflexivity.
    + rewrite Forall_forall in OK; apply OK; rewrite <- EL; apply in_or_app; right; left; auto.
    + eapply good_perm; [exact K1|]. permt.
    + intros u s2 (E2 & K2). split; [congruence|]. eapply good_perm; [exact K2|]. rewrite map_app. permt.
    + intros u [Z1 Z2]. split; auto. apply Exists_exists. exists n. split; auto. rewrite <- EL. apply in_or_app; right; left; auto.
  - split; auto.
  - intros u s1 (E1 & K1). split; auto. unfold nets. rewrite hn_clr. exact K1.
Qed.
Lemma cell_ok_clr x : cell_ok (clr x).
Proof. unfold cell_ok, clr. destruct (y_data x); simpl; auto. Qed.
Lemma net_ok_clr n : net_ok n -> net_ok (clr_net n).
Proof.
  unfold net_ok, clr_net. simpl. destruct (z_cells n) as [[b rs]|]; simpl; auto. intros [A B]. rewrite map_length. split; auto.
  apply Forall_forall. intros x I. apply in_map_iff in I as (y & <- & I). rewrite Forall_forall in B. apply B in I.
  unfold row_ok in *. destruct y as [[p cs]|]; simpl; auto. destruct I as [I _]. rewrite map_length. split; auto.
  apply Forall_forall. intros z Iz. apply in_map_iff in Iz as (v & <- & _). apply cell_ok_clr.
Qed.
Lemma hollow_clr n : hollow_t (clr_net n) <-> hollow_t n.
Proof. unfold hollow_t, clr_net. simpl. destruct (z_cells n) as [[b rs]|]; simpl; intuition discriminate. Qed.

(** ladder_ctx_deinit: the networks *)
Definition husk (t : tcell) : tcell := mk_tcell (y_code t) (y_dq t) None.
Lemma free_one_ok nt r a nl w b rl p d x t R s B : g_net (s_g s) = Some a -> In (a, B_nets nl) R -> nth_error nl nt = Some w ->
  w_cells w = Some b -> In (b, B_rows rl) R -> nth_error rl r = Some (Some p) -> cell_ok x ->
  good s ((p, B_cells (map hc (d ++ x :: t))) :: own_cell x ++ R) ->
  wp (free_one nt r (length d)) (fun _ s' => s_g s' = s_g s /\ good s' ((p, B_cells (map hc (d ++ husk x :: t))) :: R)) B s.
Proof.
  intros EG I1 N1 EW I2 N2 OK K. unfold free_one.
  apply wp_bind. eapply wp_get_net; [eauto|exact K|right; apply in_or_app; right; exact I1|eauto|].
  apply wp_bind. rewrite EW. eapply wp_get_row; [exact K|right; apply in_or_app; right; exact I2|eauto|].
  assert (NM : nth_error (map hc (d ++ x :: t)) (length d) = Some (hc x)).
  { rewrite map_app. simpl. rewrite <- (map_length hc d). apply nth_mid. }
  assert (PM : forall y, put (map hc (d ++ x :: t)) (length d) y = map hc d ++ y :: map hc t).
  { intro y. rewrite map_app. simpl. rewrite <- (map_length hc d). apply put_mid. }
  apply wp_bind. eapply wp_get_cell; [exact K|left; reflexivity|exact NM|].
  unfold cell_ok in OK. simpl. destruct (y_data x) as [[q l]|] eqn:ED; simpl.
  - apply wp_bind. unfold own_cell in K. rewrite ED in K.
    eapply wp_free_data with (a := q) (l := l) (R := (p, B_cells (map hc (d ++ x :: t))) :: R).
    + simpl. rewrite ED. reflexivity.
    + simpl. symmetry. tauto.
    + eapply good_perm; [exact K|]. permt.
    + intros s1 E1 _ K1. eapply wp_set_cell; [exact K1|exact NM|]. intros s2 E2 _ K2. split; [congruence|].
      rewrite PM in K2. rewrite map_app. exact K2.
  - unfold own_cell in K. rewrite ED in K. simpl in K. apply wp_ret. split; auto.
    replace (husk x) with x; auto. unfold husk. destruct x as [i q y]. simpl in *. subst. reflexivity.
Qed.
Lemma free_row_ok nt r a nl w b rl p cs R s B : g_net (s_g s) = Some a -> In (a, B_nets nl) R -> nth_error nl nt = Some w ->
  w_cells w = Some b -> In (b, B_rows rl) R -> nth_error rl r = Some (Some p) -> Forall cell_ok cs ->
  good s ((p, B_cells (map hc cs)) :: flat_map own_cell cs ++ R) ->
  wp (hbind (hfor (length cs) 0 (free_one nt r)) (fun _ => free_row nt r)) (fun _ s' => s_g s' = s_g s /\ good s' R) B s.
Proof.
  intros EG I1 N1 EW I2 N2 OK K. apply wp_bind.
  eapply wp_mono; [apply wp_for with (l := cs) (i := 0)
    (Inv := fun d t s' => s_g s' = s_g s /\ good s' ((p, B_cells (map hc (map husk d ++ t))) :: flat_map own_cell t ++ R))| |intros u0 Z0; exact Z0].
  - intros d x t s1 EL (E1 & K1). simpl.
    assert (OX : cell_ok x) by (rewrite Forall_forall in OK; apply OK; rewrite <- EL; apply in_or_app; right; left; auto).
    rewrite <- (map_length husk d).
    eapply wp_mono; [eapply free_one_ok with (d := map husk d) (x := x) (t := t) (R := flat_map own_cell t ++ R)| |intros u0 Z0; exact Z0].
    + rewrite E1; eauto.
    + apply in_or_app; right; exact I1.
    + eauto.
    + eauto.
    + apply in_or_app; right; exact I2.
    + eauto.
    + exact OX.
    + eapply good_perm; [exact K1|]. permt.
    + intros u s2 (E2 & K2). split; [congruence|]. rewrite (map_app husk), <- app_assoc. exact K2.
  - auto.
  - intros u s1 (E1 & K1). simpl in K1. unfold free_row.
    apply wp_bind. eapply wp_get_net; [rewrite E1; eauto|exact K1|right; exact I1|eauto|].
    apply wp_bind. rewrite EW. eapply wp_get_row; [exact K1|right; exact I2|eauto|].
    eapply wp_free; [exact K1|]. intros s2 E2 _ K2. split; [congruence|auto].
Qed.
Lemma free_net_ok nt a l1 n l2 R s : g_net (s_g s) = Some a -> In (a, B_nets (map hn (l1 ++ n :: l2))) R -> nt = length l1 -> net_ok n ->
  good s (own_net n ++ R) ->
  wp (hbind (hfor (z_rows n) 0 (fun r => hbind (hfor (z_cols n) 0 (free_one nt r)) (fun _ => free_row nt r)))
       (fun _ => hbind (get_net nt) (fun w1 => h_free (w_cells w1))))
     (fun _ s' => s_g s' = s_g s /\ good s' R /\ ~ hollow_t n) (fun u => u = H_null /\ hollow_t n) s.
Proof.
  intros EG IN -> OK K.
  assert (NN : nth_error (map hn (l1 ++ n :: l2)) (length l1) = Some (hn n)).
  { rewrite map_app. simpl. rewrite <- (map_length hn l1). apply nth_mid. }
  apply wp_bind. unfold net_ok in OK. unfold own_net in *. destruct (z_cells n) as [[b rs]|] eqn:EC; simpl.
  - destruct OK as [LR OK]. rewrite <- LR.
    eapply wp_mono; [apply wp_for with (l := rs) (i := 0)
      (Inv := fun d t s' => s_g s' = s_g s /\ good s' ((b, B_rows (map hr rs)) :: flat_map own_row t ++ R))| |intros u0 Z0; exact Z0].
    + intros d x t s1 EL (E1 & K1). simpl.
      assert (OX : row_ok (z_cols n) x) by (rewrite Forall_forall in OK; apply OK; rewrite <- EL; apply in_or_app; right; left; auto).
      destruct x as [[p cs]|]; [|destruct OX]. destruct OX as [LC OX]. rewrite <- LC.
      eapply wp_mono; [eapply free_row_ok with (R := (b, B_rows (map hr rs)) :: flat_map own_row t ++ R)| |intros u0 Z0; exact Z0].
      * rewrite E1; eauto.
      * right. apply in_or_app; right. exact IN.
      * exact NN.
      * simpl. rewrite EC. reflexivity.
      * left; reflexivity.
      * rewrite <- EL, map_app. simpl. rewrite <- (map_length hr d). apply nth_mid.
      * exact OX.
      * eapply good_perm; [exact K1|]. permt.
      * intros u s2 (E2 & K2). split; [congruence|]. exact K2.
    + split; auto.
    + intros u s1 (E1 & K1). simpl in K1. apply wp_bind. eapply wp_get_net; [rewrite E1; eauto|exact K1|right; exact IN|exact NN|].
      simpl. rewrite EC. simpl. eapply wp_free; [exact K1|]. intros s2 E2 _ K2. split; [congruence|]. split; auto.
      intros [_ Z]. congruence.
  - simpl in K. destruct (z_rows n) as [|rr] eqn:ER; simpl.
    + apply wp_ret. apply wp_bind. eapply wp_get_net; [eauto|exact K|exact IN|exact NN|]. simpl. rewrite EC. simpl. apply wp_free_null.
      split; auto. split; auto. intros [Z _]. lia.
    + apply wp_bind, wp_bind. destruct (z_cols n) as [|cc] eqn:EO; simpl.
      * apply wp_ret. unfold free_row. apply wp_bind. eapply wp_get_net; [eauto|exact K|exact IN|exact NN|].
        apply wp_bind. simpl. rewrite EC. simpl. unfold get_row. apply wp_bind. red. simpl. split; auto. split; [lia|auto].
      * apply wp_bind. unfold free_one at 1. apply wp_bind. eapply wp_get_net; [eauto|exact K|exact IN|exact NN|].
        apply wp_bind. simpl. rewrite EC. simpl. unfold get_row. apply wp_bind. red. simpl. split; auto. split; [lia|auto].
Qed.
Lemma free_networks_ok a l R s : g_net (s_g s) = Some a -> g_nets (s_g s) = length l -> Forall net_ok l -> good s (nets a l ++ R) ->
  wp h_free_networks (fun _ s' => s_g s' = s_g s /\ good s' R /\ ~ Exists hollow_t l) (hollow_bad l) s.
Proof.
  intros EG EN OK K. unfold h_free_networks. apply wp_bind, wp_getg. rewrite EG, EN. simpl. apply wp_bind.
  eapply wp_mono; [apply wp_for with (l := l) (i := 0)
    (Inv := fun d t s' => s_g s' = s_g s /\ good s' ((a, B_nets (map hn l)) :: flat_map own_net t ++ R) /\ ~ Exists hollow_t d)| |intros u Z; exact Z].
  - intros d n t s1 EL (E1 & K1 & H1). simpl.
    assert (NN : nth_error (map hn l) (length d) = Some (hn n)).
    { rewrite <- EL, map_app. simpl. rewrite <- (map_length hn d). apply nth_mid. }
    apply wp_bind. eapply wp_get_net; [rewrite E1; eauto|exact K1|left; reflexivity|exact NN|].
    eapply wp_mono; [eapply free_net_ok with (n := n) (l1 := d) (l2 := t) (R := (a, B_nets (map hn l)) :: flat_map own_net t ++ R)| |].
    + rewrite E1; eauto.
    + left. rewrite EL. reflexivity.
    + reflexivity.
    + rewrite Forall_forall in OK; apply OK; rewrite <- EL; apply in_or_app; right; left; auto.
    + eapply good_perm; [exact K1|]. permt.
    + intros u s2 (E2 & K2 & H2). split; [congruence|]. split; [exact K2|]. rewrite Exists_app. intros [Z|Z]; auto.
      inversion Z; subst; auto. inversion H0.
    + intros u [Z1 Z2]. split; auto. apply Exists_exists. exists n. split; auto. rewrite <- EL. apply in_or_app; right; left; auto.
  - split; auto. split; auto. intro Z. inversion Z.
  - intros u s1 (E1 & K1 & H1). simpl in K1. eapply wp_free; [exact K1|]. intros s2 E2 _ K2. split; [congruence|]. auto.
Qed.
