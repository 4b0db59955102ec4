(** The rest of the machine: arrays, modules, foreign functions, cron; building and releasing them. *)
From Coq Require Import Permutation.
From Verif Require Export HeapCell.
From Coq Require Import Lia List.
Import ListNotations.
Open Scope nat_scope.

Definition ol {X} (o : option (nat * list X)) : list X := match o with Some (_, l) => l | None => [] end.
Definition op {X} (o : option (nat * X)) : ptr := option_map fst o.
Definition ob {X} (f : X -> block) (o : option (nat * X)) : list (nat * block) := match o with Some (a, l) => [(a, f l)] | None => [] end.
Definition nomod : hmod := mk_hmod None None None.
Definition own_mod (m : hmod) : list (nat * block) := optr (d_1 m) ++ optr (d_2 m) ++ optr (d_3 m).
Record io : Type := mk_io { e_fn : option (nat * list bool); e_ini : option (nat * list bool); e_mod : option (nat * list hmod) }.
Definition own_io (i : io) : list (nat * block) := ob B_fns (e_fn i) ++ ob B_fns (e_ini i) ++ ob B_mods (e_mod i) ++ flat_map own_mod (ol (e_mod i)).
Definition io_ok (q : nat) (i : io) : Prop :=
  length (ol (e_fn i)) = q /\ length (ol (e_ini i)) = q /\ length (ol (e_mod i)) = q
  /\ Forall2 (fun b m => b = false -> m = nomod) (ol (e_ini i)) (ol (e_mod i)).

Lemma wp_free_ob X (f : X -> block) o L (Q : unit -> hst -> Prop) B s : good s (ob f o ++ L) ->
  (forall s', s_g s' = s_g s -> s_n s' = s_n s -> good s' L -> Q tt s') -> wp (h_free (op o)) Q B s.
Proof. destruct o as [[a x]|]; simpl; intros K Z; [eapply wp_free; eauto|apply wp_free_null; auto]. Qed.
Lemma wp_grow G X (f : X -> block) o g L (Q : ptr -> hst -> Prop) B s : good s (ob f o ++ L) ->
  (forall s' q, s_g s' = s_g s -> good s' ((q, g (option_map (fun e => f (snd e)) o)) :: L) -> Q (Some q) s') ->
  (forall s', s_g s' = s_g s -> good s' (ob f o ++ L) -> Q None s') ->
  wp (h_grow G (op o) g) Q B s.
Proof.
  destruct o as [[a x]|]; simpl; intros K Z1 Z2; unfold h_grow.
  - apply wp_bind. eapply wp_load; [exact K|left; reflexivity|]. apply wp_bind. eapply wp_alloc; [exact K| |].
    + intros s1 E1 _ _ K1. simpl. apply wp_bind. eapply wp_free with (b := f x).
      * eapply good_perm; [exact K1|]. apply perm_swap.
      * intros s2 E2 _ K2. apply wp_ret. apply Z1; [congruence|auto].
    + intros s1 E1 _ _ K1. simpl. apply wp_ret. apply Z2; auto.
  - eapply wp_alloc; [exact K| |]; intros s1 E1 _ _ K1; [apply Z1|apply Z2]; auto.
Qed.
Lemma wp_shrink X (f : X -> block) a x n y L (Q : ptr -> hst -> Prop) B s : good s ((a, f x) :: L) ->
  (forall s' o, s_g s' = s_g s -> good s' (ob f o ++ L) -> (forall e, o = Some e -> snd e = y) -> (o = None -> n = 0) -> Q (op o) s') ->
  wp (h_shrink (Some a) n (f y)) Q B s.
Proof.
  intros K Z. unfold h_shrink. apply wp_bind. eapply wp_free; [exact K|]. intros s1 E1 _ K1. destruct n as [|n].
  - apply wp_ret. apply (Z s1 None); auto. discriminate.
  - red. apply (Z (mk_hst (S (s_n s1)) ((s_n s1, f y) :: s_heap s1) (s_g s1)) (Some (s_n s1, y))); simpl; auto.
    + now apply good_new.
    + intros e E. injection E as <-. reflexivity.
    + discriminate.
Qed.
Lemma wp_cut_fns n a l L (Q : ptr -> hst -> Prop) B s : good s ((a, B_fns l) :: L) ->
  (forall s' o, s_g s' = s_g s -> good s' (ob B_fns o ++ L) -> ol o = firstn n l -> Q (op o) s') -> wp (cut_fns n (Some a)) Q B s.
Proof.
  intros K Z. unfold cut_fns. apply wp_bind. eapply wp_load; [exact K|left; reflexivity|]. apply wp_bind, wp_ret.
  eapply wp_shrink; [exact K|]. intros s' o E K' E1 E2. apply Z; auto. destruct o as [[b y]|]; simpl; [apply (E1 _ eq_refl)|]. now rewrite (E2 eq_refl).
Qed.
Lemma wp_cut_mods n a l L (Q : ptr -> hst -> Prop) B s : good s ((a, B_mods l) :: L) ->
  (forall s' o, s_g s' = s_g s -> good s' (ob B_mods o ++ L) -> ol o = firstn n l -> Q (op o) s') -> wp (cut_mods n (Some a)) Q B s.
Proof.
  intros K Z. unfold cut_mods. apply wp_bind. eapply wp_load; [exact K|left; reflexivity|]. apply wp_bind, wp_ret.
  eapply wp_shrink; [exact K|]. intros s' o E K' E1 E2. apply Z; auto. destruct o as [[b y]|]; simpl; [apply (E1 _ eq_refl)|]. now rewrite (E2 eq_refl).
Qed.

(** One module *)
Lemma wp_mod_off c l1 m l2 L (Q : unit -> hst -> Prop) B s : good s ((c, B_mods (l1 ++ m :: l2)) :: own_mod m ++ L) ->
  (forall s', s_g s' = s_g s -> good s' ((c, B_mods (l1 ++ nomod :: l2)) :: L) -> Q tt s') -> wp (h_mod_off (Some c) (length l1)) Q B s.
Proof.
  intros K Z. unfold h_mod_off. apply wp_bind. eapply wp_load; [exact K|left; reflexivity|]. apply wp_bind, wp_ret.
  apply wp_bind. eapply wp_nth; [apply nth_mid|]. apply wp_bind. unfold mod_release, own_mod in *.
  apply wp_bind. eapply wp_free_opt with (L := optr (d_2 m) ++ optr (d_3 m) ++ (c, B_mods (l1 ++ m :: l2)) :: L).
  { eapply good_perm; [exact K|]. perm. }
  intros s1 E1 _ K1. apply wp_bind. eapply wp_free_opt; [exact K1|]. intros s2 E2 _ K2.
  apply wp_bind. eapply wp_free_opt; [exact K2|]. intros s3 E3 _ K3. apply wp_ret.
  eapply wp_store; [exact K3|]. intros s4 E4 _ K4. rewrite put_mid in K4. apply Z; [congruence|exact K4].
Qed.
Lemma wp_mod_on G c l1 m l2 L (Q : bool -> hst -> Prop) B s : good s ((c, B_mods (l1 ++ m :: l2)) :: own_mod m ++ L) ->
  (forall b s' m', s_g s' = s_g s -> good s' ((c, B_mods (l1 ++ m' :: l2)) :: own_mod m' ++ L) -> Q b s') -> wp (h_mod_on G (Some c) (length l1)) Q B s.
Proof.
  intros K Z. unfold h_mod_on. apply wp_bind. eapply wp_load; [exact K|left; reflexivity|]. apply wp_bind, wp_ret.
  apply wp_bind. eapply wp_nth; [apply nth_mid|]. apply wp_bind. unfold mod_release, own_mod in K.
  apply wp_bind. eapply wp_free_opt with (L := optr (d_2 m) ++ optr (d_3 m) ++ (c, B_mods (l1 ++ m :: l2)) :: L).
  { eapply good_perm; [exact K|]. perm. }
  intros s1 E1 _ K1. apply wp_bind. eapply wp_free_opt; [exact K1|]. intros s2 E2 _ K2.
  apply wp_bind. eapply wp_free_opt; [exact K2|]. intros s3 E3 _ K3. apply wp_ret.
  assert (FAIL : forall s4, s_g s4 = s_g s -> good s4 ((c, B_mods (l1 ++ m :: l2)) :: L) ->
    wp (run! h_store (Some c) (B_mods (put (l1 ++ m :: l2) (length l1) (mk_hmod None None None))); hret false) Q B s4).
  { intros s4 E4 K4. apply wp_bind. eapply wp_store; [exact K4|]. intros s5 E5 _ K5. rewrite put_mid in K5. apply wp_ret. apply (Z _ _ nomod); [congruence|]. exact K5. }
  apply wp_bind. eapply wp_alloc; [exact K3| |]; intros s4 E4 _ _ K4; cbn [is_nil]; cbv iota; [|apply FAIL; [congruence|auto]].
  apply wp_bind. eapply wp_alloc; [exact K4| |]; intros s5 E5 _ _ K5; cbn [is_nil]; cbv iota.
  2:{ apply wp_bind. eapply wp_free; [exact K5|]. intros s6 E6 _ K6. apply FAIL; [congruence|auto]. }
  apply wp_bind. eapply wp_alloc; [exact K5| |]; intros s6 E6 _ _ K6; cbn [is_nil]; cbv iota.
  2:{ apply wp_bind. eapply wp_free; [eapply good_perm; [exact K6|apply perm_swap]|]. intros s7 E7 _ K7.
      apply wp_bind. eapply wp_free; [exact K7|]. intros s8 E8 _ K8. apply FAIL; [congruence|auto]. }
  apply wp_bind. eapply wp_store with (b := B_mods (l1 ++ m :: l2)) (L := (s_n s3, B_any) :: (s_n s4, B_any) :: (s_n s5, B_any) :: L).
  { eapply good_perm; [exact K6|]. perm. }
  intros s7 E7 _ K7. rewrite put_mid in K7. apply wp_ret. eapply Z; [congruence|]. exact K7.
Qed.

(** ladder_add_read_fn and ladder_add_write_fn *)
Definition add_io (G : nat -> bool) (S' : nat -> ptr -> ptr -> ptr -> hctx -> hctx) (n : nat) (rd ird inn : ptr) (ini : bool) : H bool :=
  if (255 <=? n)%nat then hret false else
  do! a <- h_grow G rd (grow_fns true);
  if is_nil a then hret false else
  run! modg (S' n a ird inn);
  do! b <- h_grow G ird (grow_fns ini);
  if is_nil b then do! a' <- cut_fns n a; run! modg (S' n a' ird inn); hret false else
  run! modg (S' n a b inn);
  do! c <- h_grow G inn grow_mods;
  if is_nil c then
    do! a' <- cut_fns n a; run! modg (S' n a' b inn);
    do! b' <- cut_fns n b; run! modg (S' n a' b' inn); hret false else
  run! modg (S' n a b c);
  do! good <- (if ini then h_mod_on G c n else hret true);
  if good : bool then run! modg (S' (S n) a b c); hret true else
  run! h_mod_off c n;
  do! a' <- cut_fns n a; run! modg (S' n a' b c);
  do! b' <- cut_fns n b; run! modg (S' n a' b' c);
  do! c' <- cut_mods n c; run! modg (S' n a' b' c'); hret false.
Lemma add_read_io G ini : h_add_read G ini = (do! g <- getg; add_io G set_read (g_rq g) (g_rd g) (g_ird g) (g_in g) ini). Proof. reflexivity. Qed.
Lemma add_write_io G ini : h_add_write G ini = (do! g <- getg; add_io G set_write (g_wq g) (g_wr g) (g_iwr g) (g_out g) ini). Proof. reflexivity. Qed.

Lemma grow_fns_ol v o : grow_fns v (option_map (fun e => B_fns (snd e)) o) = B_fns (ol o ++ [v]).
Proof. destruct o as [[a l]|]; reflexivity. Qed.
Lemma grow_mods_ol o : grow_mods (option_map (fun e => B_mods (snd e)) o) = B_mods (ol o ++ [nomod]).
Proof. destruct o as [[a l]|]; reflexivity. Qed.
Lemma first_snoc A (l : list A) x : firstn (length l) (l ++ [x]) = l.
Proof. rewrite firstn_app, Nat.sub_diag, firstn_all. simpl. apply app_nil_r. Qed.

Lemma wp_add_io G S' i ini R g s B : (forall n a b c n' a' b' c' g, S' n a b c (S' n' a' b' c' g) = S' n a b c g) ->
  forall n, s_g s = g -> S' n (op (e_fn i)) (op (e_ini i)) (op (e_mod i)) g = g -> io_ok n i -> good s (own_io i ++ R) ->
  wp (add_io G S' n (op (e_fn i)) (op (e_ini i)) (op (e_mod i)) ini)
     (fun _ s' => exists i' q, s_g s' = S' q (op (e_fn i')) (op (e_ini i')) (op (e_mod i')) g /\ io_ok q i' /\ good s' (own_io i' ++ R)) B s.
Proof.
  intros SS n EG ES OK K. unfold add_io. destruct OK as (L1 & L2 & L3 & F).
  assert (SAME : forall s', s_g s' = g -> good s' (own_io i ++ R) ->
    exists i' q, s_g s' = S' q (op (e_fn i')) (op (e_ini i')) (op (e_mod i')) g /\ io_ok q i' /\ good s' (own_io i' ++ R)).
  { intros s' E' K'. exists i, n. split; [congruence|]. split; auto. repeat split; auto. }
  destruct (255 <=? n). { apply wp_ret. auto. }
  set (O := ob B_mods (e_mod i) ++ flat_map own_mod (ol (e_mod i)) ++ R).
  apply wp_bind. eapply wp_grow with (f := B_fns) (o := e_fn i) (L := ob B_fns (e_ini i) ++ O).
  { eapply good_perm; [exact K|]. unfold own_io, O. perm. }
  2:{ intros s1 E1 K1. apply wp_ret. apply SAME; [congruence|]. eapply good_perm; [exact K1|]. unfold own_io, O. perm. }
  intros s1 a E1 K1. rewrite grow_fns_ol in K1. cbn [is_nil]; cbv iota. apply wp_bind, wp_modg. rewrite E1.
  match goal with |- wp _ _ _ ?t => set (s1' := t) end. assert (K1' : good s1' ((a, B_fns (ol (e_fn i) ++ [true])) :: ob B_fns (e_ini i) ++ O)) by exact K1.
  assert (E1' : s_g s1' = S' n (Some a) (op (e_ini i)) (op (e_mod i)) g) by (simpl; congruence). clearbody s1'. clear s1 E1 K1.
  apply wp_bind. eapply wp_grow with (f := B_fns) (o := e_ini i) (L := (a, B_fns (ol (e_fn i) ++ [true])) :: O).
  { eapply good_perm; [exact K1'|]. perm. }
  2:{ intros s2 E2 K2. cbn [is_nil]; cbv iota. apply wp_bind. eapply wp_cut_fns with (l := ol (e_fn i) ++ [true]) (L := ob B_fns (e_ini i) ++ O).
      { eapply good_perm; [exact K2|]. perm. }
      intros s3 o E3 K3 EO. apply wp_bind, wp_modg. apply wp_ret. exists (mk_io o (e_ini i) (e_mod i)), n. simpl. split; [rewrite E3, E2, E1'; apply SS|].
      split. { rewrite <- L1, first_snoc in EO. split; simpl; [rewrite EO; auto|auto]. }
      apply good_g. eapply good_perm; [destruct s3; exact K3|]. unfold own_io, O. simpl. perm. }
  intros s2 b E2 K2. rewrite grow_fns_ol in K2. cbn [is_nil]; cbv iota. apply wp_bind, wp_modg. rewrite E2, E1', SS.
  match goal with |- wp _ _ _ ?t => set (s2' := t) end.
  assert (K2' : good s2' ((b, B_fns (ol (e_ini i) ++ [ini])) :: (a, B_fns (ol (e_fn i) ++ [true])) :: O)) by exact K2.
  assert (E2' : s_g s2' = S' n (Some a) (Some b) (op (e_mod i)) g) by reflexivity. clearbody s2'. clear s2 E2 K2.
  apply wp_bind. eapply wp_grow with (f := B_mods) (o := e_mod i) (L := (b, B_fns (ol (e_ini i) ++ [ini])) :: (a, B_fns (ol (e_fn i) ++ [true])) :: flat_map own_mod (ol (e_mod i)) ++ R).
  { eapply good_perm; [exact K2'|]. unfold O. perm. }
  2:{ intros s3 E3 K3. cbn [is_nil]; cbv iota. apply wp_bind. eapply wp_cut_fns with (l := ol (e_fn i) ++ [true]) (L := (b, B_fns (ol (e_ini i) ++ [ini])) :: O).
      { eapply good_perm; [exact K3|]. unfold O. perm. }
      intros s4 o E4 K4 EO. apply wp_bind, wp_modg. apply wp_bind. eapply wp_cut_fns with (l := ol (e_ini i) ++ [ini]) (L := ob B_fns o ++ O).
      { apply good_g. eapply good_perm; [destruct s4; exact K4|]. perm. }
      intros s5 o2 E5 K5 EO2. apply wp_bind, wp_modg. apply wp_ret. exists (mk_io o o2 (e_mod i)), n. simpl. simpl in E5.
      split; [rewrite E5, E4, E3, E2', !SS; reflexivity|].
      split. { rewrite <- L1, first_snoc in EO. rewrite <- L2, first_snoc in EO2. split; simpl; [rewrite EO; auto|]. rewrite EO2. auto. }
      apply good_g. eapply good_perm; [destruct s5; exact K5|]. unfold own_io, O. simpl. perm. }
  intros s3 c E3 K3. rewrite grow_mods_ol in K3. cbn [is_nil]; cbv iota. apply wp_bind, wp_modg. rewrite E3, E2', SS.
  match goal with |- wp _ _ _ ?t => set (s3' := t) end.
  set (FR := (b, B_fns (ol (e_ini i) ++ [ini])) :: (a, B_fns (ol (e_fn i) ++ [true])) :: flat_map own_mod (ol (e_mod i)) ++ R).
  assert (K3' : good s3' ((c, B_mods (ol (e_mod i) ++ nomod :: [])) :: own_mod nomod ++ FR)) by exact K3.
  assert (E3' : s_g s3' = S' n (Some a) (Some b) (Some c) g) by reflexivity. clearbody s3'. clear s3 E3 K3.
  apply wp_bind. eapply wp_mono with (Q := fun ok s' => exists m', s_g s' = S' n (Some a) (Some b) (Some c) g /\ (ini = false -> m' = nomod /\ ok = true)
      /\ good s' ((c, B_mods (ol (e_mod i) ++ m' :: [])) :: own_mod m' ++ FR)) (B := B); [| |auto].
  { destruct ini.
    - rewrite <- L3 at 1. eapply wp_mod_on; [exact K3'|]. intros b0 s4 m' E4 K4. exists m'. split; [congruence|]. split; [discriminate|auto].
    - apply wp_ret. exists nomod. auto. }
  intros ok s4 (m' & E4 & MF & K4). destruct ok.
  - apply wp_bind, wp_modg, wp_ret. rewrite E4, SS.
    exists (mk_io (Some (a, ol (e_fn i) ++ [true])) (Some (b, ol (e_ini i) ++ [ini])) (Some (c, ol (e_mod i) ++ [m']))), (S n). simpl.
    split; auto. split.
    + unfold io_ok. simpl. rewrite !app_length. simpl. split; [lia|]. split; [lia|]. split; [lia|]. apply Forall2_app; auto. constructor; auto. apply MF.
    + apply good_g. eapply good_perm; [destruct s4; exact K4|]. unfold FR, own_io. simpl. perm.
  - apply wp_bind. rewrite <- L3 at 1. eapply wp_mod_off; [exact K4|]. intros s5 E5 K5. apply wp_bind.
    eapply wp_cut_fns with (l := ol (e_fn i) ++ [true]) (L := (b, B_fns (ol (e_ini i) ++ [ini])) :: (c, B_mods (ol (e_mod i) ++ [nomod])) :: flat_map own_mod (ol (e_mod i)) ++ R).
    { eapply good_perm; [exact K5|]. unfold FR. perm. }
    intros s6 o E6 K6 EO. apply wp_bind, wp_modg. apply wp_bind.
    eapply wp_cut_fns with (l := ol (e_ini i) ++ [ini]) (L := ob B_fns o ++ (c, B_mods (ol (e_mod i) ++ [nomod])) :: flat_map own_mod (ol (e_mod i)) ++ R).
    { apply good_g. eapply good_perm; [destruct s6; exact K6|]. perm. }
    intros s7 o2 E7 K7 EO2. apply wp_bind, wp_modg. apply wp_bind.
    eapply wp_cut_mods with (l := ol (e_mod i) ++ [nomod]) (L := ob B_fns o2 ++ ob B_fns o ++ flat_map own_mod (ol (e_mod i)) ++ R).
    { apply good_g. eapply good_perm; [destruct s7; exact K7|]. perm. }
    intros s8 o3 E8 K8 EO3. apply wp_bind, wp_modg, wp_ret. simpl in *. exists (mk_io o o2 o3), n. simpl.
    rewrite <- L1, first_snoc in EO. rewrite <- L2, first_snoc in EO2. rewrite <- L3, first_snoc in EO3.
    split; [rewrite E8, E7, E6, E5, E4, !SS; reflexivity|]. split.
    + unfold io_ok. simpl. rewrite EO, EO2, EO3. auto.
    + apply good_g. eapply good_perm; [destruct s8; exact K8|]. unfold own_io. simpl. rewrite EO3. perm.
Qed.
