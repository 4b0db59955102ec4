(** Facts about the drawing of programs. *)
From Coq Require Import String.
From Verif Require Export SpecPrint SaveFacts P_Check.
Open Scope list_scope.
Open Scope Z_scope.

(** ** Loops *)

Lemma each_app {S A} (f : S -> A -> res S) l1 l2 : forall s, each f (l1 ++ l2) s = rbind (each f l1 s) (each f l2).
Proof. induction l1 as [|a l1 IH]; intros s; simpl; auto. destruct (f s a); simpl; auto. Qed.
Lemma each_flat {S A B} (f : S -> B -> res S) (g : A -> list B) l : forall s, each f (flat_map g l) s = each (fun s a => each f (g a) s) l s.
Proof. induction l as [|a l IH]; intros s; simpl; auto. rewrite each_app. destruct (each f (g a) s); simpl; auto. Qed.
Lemma each_map {S A B} (f : S -> B -> res S) (g : A -> B) l : forall s, each f (map g l) s = each (fun s a => f s (g a)) l s.
Proof. induction l as [|a l IH]; intros s; simpl; auto. destruct (f s (g a)); simpl; auto. Qed.
Lemma each_seq {S} (f : S -> nat -> res S) (I : nat -> S -> Prop) k : forall a s, I a s ->
  (forall i s, (a <= i < a + k)%nat -> I i s -> exists s', f s i = Ok s' /\ I (Datatypes.S i) s') -> exists s', each f (seq a k) s = Ok s' /\ I (a + k)%nat s'.
Proof.
  induction k as [|k IH]; intros a s H0 H; cbn [seq each].
  - exists s. rewrite Nat.add_0_r. auto.
  - destruct (H a s ltac:(lia) H0) as (s1 & E & H1). rewrite E. cbn [rbind]. destruct (IH (Datatypes.S a) s1 H1) as (s2 & E2 & H2).
    { intros i s' B. apply H. lia. } exists s2. rewrite E2. split; auto. now rewrite <- Nat.add_succ_comm.
Qed.

(** ** Columns *)

(** The texts of one column while it is drawn. *)
Definition column : Type := nat -> nat -> list Z.
Definition overlay (fig : list (list Z)) (k : nat) (s : column) : column :=
  fun r l => if (k <=? r)%nat && (r <=? k + 2)%nat && (l <? 2)%nat then nth (2 * (r - k) + l) fig [] else s r l.
Definition is_empty (t : list Z) : bool := match t with [] => true | _ => false end.
Fixpoint column_state (fig : nat -> list (list Z)) (k : nat) : column :=
  match k with
  | O => fun _ _ => []
  | S k => let s := column_state fig k in if is_empty (s k 0%nat) then overlay (fig k) k s else s
  end.
Lemma room_inj cols r c l r' c' l' : (c < cols + 3)%nat -> (c' < cols + 3)%nat -> (l < 2)%nat -> (l' < 2)%nat -> room cols r c l = room cols r' c' l' -> r = r' /\ c = c' /\ l = l'.
Proof.
  unfold room. intros A B C D E. apply Nat2Z.inj in E. assert (l = l') by lia. subst. assert (E2 : (r * (cols + 3) + c = r' * (cols + 3) + c')%nat) by lia.
  rewrite (Nat.mul_comm r), (Nat.mul_comm r') in E2. apply Nat.div_mod_unique in E2; auto. tauto.
Qed.
Lemma room_lt cols rows r c l : (r < rows + 3)%nat -> (c < cols + 3)%nat -> (l < 2)%nat -> 0 <= room cols r c l < Z.of_nat ((rows + 3) * (cols + 3) * 2).
Proof. unfold room. intros. split; [lia|]. apply Nat2Z.inj_lt. nia. Qed.
(** The buffer holds these columns. *)
Definition holds_columns (rows cols : nat) (b : list (list Z)) (s : nat -> column) : Prop :=
  length b = ((rows + 3) * (cols + 3) * 2)%nat
  /\ forall r c l, (r < rows + 3)%nat -> (c < cols)%nat -> (l < 2)%nat -> nth_error b (Z.to_nat (room cols r c l)) = Some (s c r l).
Definition set_column (s : nat -> column) (c : nat) (f : column) : nat -> column := fun c' => if (c' =? c)%nat then f else s c'.
Lemma lget_columns rows cols b s r c l : holds_columns rows cols b s -> (r < rows + 3)%nat -> (c < cols)%nat -> (l < 2)%nat -> lget b (room cols r c l) = Ok (s c r l).
Proof.
  intros [L H] R C K. unfold lget, idx_ok. destruct (room_lt cols rows r c l) as [B1 B2]; auto; [lia|]. rewrite <- L in B2.
  rewrite (proj2 (Z.leb_le _ _) B1), (proj2 (Z.ltb_lt _ _) B2). simpl. now rewrite (H r c l).
Qed.
Lemma put_columns rows cols b s r c l fig j : holds_columns rows cols b s -> (r < rows + 3)%nat -> (c < cols)%nat -> (l < 2)%nat ->
  exists b', put_line cols r c l fig j b = Ok b'
    /\ holds_columns rows cols b' (set_column s c (fun r' l' => if (r' =? r)%nat && (l' =? l)%nat then nth j fig [] else s c r' l')).
Proof.
  intros [L H] R C K. unfold put_line, pset, idx_ok. destruct (room_lt cols rows r c l) as [B1 B2]; auto; [lia|]. rewrite <- L in B2.
  rewrite (proj2 (Z.leb_le _ _) B1), (proj2 (Z.ltb_lt _ _) B2). cbn [andb rbind]. eexists. split; [reflexivity|]. split; [now rewrite lset_length|].
  intros r' c' l' R' C' K'. unfold set_column. destruct (Z.eq_dec (room cols r' c' l') (room cols r c l)) as [E|NE].
  - rewrite E. destruct (room_inj cols r' c' l' r c l ltac:(lia) ltac:(lia) K' K E) as (-> & -> & ->). rewrite !Nat.eqb_refl. simpl. apply nth_lset_same. lia.
  - rewrite nth_lset_other by (intros E; apply Z2Nat.inj in E; [congruence|apply B1|unfold room; apply Nat2Z.is_nonneg]). rewrite (H r' c' l') by auto. f_equal. destruct (Nat.eqb_spec c' c) as [->|]; auto.
    destruct (Nat.eqb_spec r' r) as [->|]; auto. destruct (Nat.eqb_spec l' l) as [->|]; auto. congruence.
Qed.

(** Drawing one cell. *)
Lemma draw_cell_columns fname fo nt b s r c out m fig : holds_columns (n_rows nt) (n_cols nt) b s -> (r < n_rows nt)%nat -> (c < n_cols nt)%nat ->
  fn_to_str fname fo nt r c = Ok (m, fig) ->
  exists b', draw_cell fname fo nt (b, out) (r, c) = Ok (b', out ++ if is_empty (s c r 0%nat) && m then txt "MULTI" ++ [10] else [])
    /\ holds_columns (n_rows nt) (n_cols nt) b' (if is_empty (s c r 0%nat) then set_column s c (overlay fig r (s c)) else s).
Proof.
  intros H R C F. unfold draw_cell. rewrite (lget_columns _ _ _ _ r c 0 H) by lia. cbn [rbind]. destruct (s c r 0%nat) as [|z t] eqn:E; cbn [is_empty andb].
  - rewrite F. cbn [rbind].
    destruct (put_columns _ _ b s r c 0 fig 0 H) as (b1 & E1 & H1); try lia. rewrite E1. cbn [rbind].
    destruct (put_columns _ _ b1 _ r c 1 fig 1 H1) as (b2 & E2 & H2); try lia. rewrite E2. cbn [rbind].
    destruct (put_columns _ _ b2 _ (r + 1) c 0 fig 2 H2) as (b3 & E3 & H3); try lia. rewrite E3. cbn [rbind].
    destruct (put_columns _ _ b3 _ (r + 1) c 1 fig 3 H3) as (b4 & E4 & H4); try lia. rewrite E4. cbn [rbind].
    destruct (put_columns _ _ b4 _ (r + 2) c 0 fig 4 H4) as (b5 & E5 & H5); try lia. rewrite E5. cbn [rbind].
    destruct (put_columns _ _ b5 _ (r + 2) c 1 fig 5 H5) as (b6 & E6 & H6); try lia. rewrite E6. cbn [rbind].
    eexists. split; [reflexivity|]. clear -H6. destruct H6 as [L H6]. split; auto. intros r' c' l' R' C' K'. rewrite (H6 r' c' l' R' C' K'). f_equal. unfold set_column.
    destruct (Nat.eqb_spec c' c) as [->|]; auto. rewrite Nat.eqb_refl. unfold overlay. rewrite (proj2 (Nat.ltb_lt _ _) K'), andb_true_r.
    destruct (Nat.leb_spec r r'), (Nat.leb_spec r' (r + 2)); cbn [andb].
    + assert (D : (r' = r \/ r' = r + 1 \/ r' = r + 2)%nat) by lia. assert (D2 : (l' = 0 \/ l' = 1)%nat) by lia.
      destruct D as [->|[->| ->]], D2 as [->| ->];
        repeat match goal with |- context [(?a =? ?b)%nat] => destruct (Nat.eqb_spec a b); try lia end; cbn [andb]; f_equal; lia.
    + repeat match goal with |- context [(?a =? ?b)%nat] => destruct (Nat.eqb_spec a b); try lia end; cbn [andb]; auto.
    + repeat match goal with |- context [(?a =? ?b)%nat] => destruct (Nat.eqb_spec a b); try lia end; cbn [andb]; auto.
    + repeat match goal with |- context [(?a =? ?b)%nat] => destruct (Nat.eqb_spec a b); try lia end; cbn [andb]; auto.
  - eexists. rewrite app_nil_r. split; [reflexivity|]. auto.
Qed.
(** Drawing all cells. *)
Definition fig_at (fname : nat -> list Z) (fo : foreign) (nt : network) (c r : nat) : list (list Z) :=
  match fn_to_str fname fo nt r c with Ok (_, fig) => fig | _ => [] end.
Definition message (fname : nat -> list Z) (fo : foreign) (nt : network) (c r : nat) : list Z :=
  match fn_to_str fname fo nt r c with Ok (m, _) => if is_empty (column_state (fig_at fname fo nt c) r r 0%nat) && m then txt "MULTI" ++ [10] else [] | _ => [] end.
Lemma holds_columns_ext rows cols b s s' : holds_columns rows cols b s -> (forall c r l, (c < cols)%nat -> s c r l = s' c r l) -> holds_columns rows cols b s'.
Proof. intros [L H] E. split; auto. intros r c l R C K. rewrite (H r c l R C K). f_equal. auto. Qed.
Lemma draw_all fname fo nt : (forall r c, (r < n_rows nt)%nat -> (c < n_cols nt)%nat -> exists m fig, fn_to_str fname fo nt r c = Ok (m, fig)) -> forall out,
  exists b, each (draw_cell fname fo nt) (places_of nt) (repeat [] ((n_rows nt + 3) * (n_cols nt + 3) * 2), out)
      = Ok (b, out ++ flat_map (fun r => flat_map (fun c => message fname fo nt c r) (seq 0 (n_cols nt))) (seq 0 (n_rows nt)))
    /\ holds_columns (n_rows nt) (n_cols nt) b (fun c => column_state (fig_at fname fo nt c) (n_rows nt)).
Proof.
  intros F out. unfold places_of. rewrite each_flat.
  set (I := fun R (st : list (list Z) * list Z) => snd st = out ++ flat_map (fun r => flat_map (fun c => message fname fo nt c r) (seq 0 (n_cols nt))) (seq 0 R)
    /\ holds_columns (n_rows nt) (n_cols nt) (fst st) (fun c => column_state (fig_at fname fo nt c) R)).
  destruct (each_seq (fun s a => each (draw_cell fname fo nt) (map (fun c => (a, c)) (seq 0 (n_cols nt))) s) I (n_rows nt) 0 (repeat [] ((n_rows nt + 3) * (n_cols nt + 3) * 2), out)) as ([b o] & E & H1 & H2).
  - unfold I. cbn [fst snd seq flat_map column_state]. rewrite app_nil_r. split; auto. split; [apply repeat_length|]. intros r c l R C K. apply Lib.nth_repeat.
    destruct (room_lt (n_cols nt) (n_rows nt) r c l) as [B1 B2]; [lia|lia|lia|]. lia.
  - intros R [b o] B (O1 & HC). cbn [fst snd] in O1, HC. rewrite each_map.
    set (J := fun C (st : list (list Z) * list Z) => snd st = o ++ flat_map (fun c => message fname fo nt c R) (seq 0 C)
      /\ holds_columns (n_rows nt) (n_cols nt) (fst st) (fun c => column_state (fig_at fname fo nt c) (if (c <? C)%nat then S R else R))).
    destruct (each_seq (fun s a => draw_cell fname fo nt s (R, a)) J (n_cols nt) 0 (b, o)) as ([b' o'] & E & H1 & H2).
    + unfold J. cbn [fst snd seq flat_map]. rewrite app_nil_r. split; auto.
    + intros C [b1 o1] BC (O2 & HC2). cbn [fst snd] in O2, HC2. destruct (F R C) as (m & fig & FE); [lia|lia|].
      destruct (draw_cell_columns fname fo nt b1 _ R C o1 m fig HC2 ltac:(lia) ltac:(lia) FE) as (b2 & E2 & H2). rewrite Nat.ltb_irrefl in E2, H2. eexists. split; [exact E2|].
      unfold J. cbn [fst snd]. split.
      * rewrite O2, <- app_assoc. f_equal. rewrite seq_S, flat_map_app. cbn [flat_map Nat.add]. rewrite app_nil_r. f_equal. unfold message. now rewrite FE.
      * eapply holds_columns_ext; [exact H2|]. intros c r l CC. cbv beta. set (e := is_empty (column_state (fig_at fname fo nt C) R R 0%nat)).
        assert (Q : column_state (fig_at fname fo nt C) (S R) = if e then overlay fig R (column_state (fig_at fname fo nt C) R) else column_state (fig_at fname fo nt C) R).
        { cbn [column_state]. fold e. destruct e; auto. f_equal. unfold fig_at. now rewrite FE. }
        destruct (Nat.ltb_spec c (S C)) as [L1|L1], (Nat.eqb_spec c C) as [->|NE]; try lia.
        -- rewrite Q. destruct e; [unfold set_column; now rewrite Nat.eqb_refl|now rewrite Nat.ltb_irrefl].
        -- destruct e; [unfold set_column; rewrite (proj2 (Nat.eqb_neq _ _) NE)|]; rewrite (proj2 (Nat.ltb_lt c C)) by lia; auto.
        -- destruct e; [unfold set_column; rewrite (proj2 (Nat.eqb_neq _ _) NE)|]; rewrite (proj2 (Nat.ltb_ge c C)) by lia; auto.
    + exists (b', o'). split; [exact E|]. cbn [fst snd] in H1, H2. unfold I. cbn [fst snd]. split.
      * rewrite H1, O1, <- app_assoc. f_equal. rewrite seq_S, flat_map_app. cbn [flat_map Nat.add]. now rewrite app_nil_r.
      * eapply holds_columns_ext; [exact H2|]. intros c r l CC. cbv beta. simpl. now rewrite (proj2 (Nat.ltb_lt _ _) CC).
  - cbn [fst snd] in H1, H2. exists b. rewrite E, H1. auto.
Qed.
(** Showing a network. *)
Lemma show_line rows cols b s r l : holds_columns rows cols b s -> (r < rows + 3)%nat -> (l < 2)%nat -> forall out,
  each (show_slot b cols r l) (seq 0 cols) out = Ok (out ++ concat (map (fun c => match s c r l with [] => gaps 19 | t => t end) (seq 0 cols))).
Proof.
  intros H R K out. set (I := fun C (o : list Z) => o = out ++ concat (map (fun c => match s c r l with [] => gaps 19 | t => t end) (seq 0 C))).
  destruct (each_seq (show_slot b cols r l) I cols 0 out) as (o & E & HI).
  - unfold I. cbn [seq map concat]. now rewrite app_nil_r.
  - intros C o B HI. unfold show_slot. rewrite (lget_columns _ _ _ _ r C l H) by lia. cbn [rbind]. eexists. split; [reflexivity|]. unfold I in *. rewrite HI, seq_S, map_app, concat_app, <- app_assoc. cbn [Nat.add].
    cbn [map concat Nat.add]. rewrite app_nil_r. now destruct (s C r l).
  - rewrite E. f_equal. exact HI.
Qed.
Lemma show_rows rows cols b s : holds_columns rows cols b s -> forall out,
  each (show_row b cols) (seq 0 rows) out
  = Ok (out ++ flat_map (fun r => line_text (map (fun c => match s c r 0%nat with [] => gaps 19 | t => t end) (seq 0 cols))
                               ++ line_text (map (fun c => match s c r 1%nat with [] => gaps 19 | t => t end) (seq 0 cols))) (seq 0 rows)).
Proof.
  intros H out. set (G := fun r => line_text (map (fun c => match s c r 0%nat with [] => gaps 19 | t => t end) (seq 0 cols))
                               ++ line_text (map (fun c => match s c r 1%nat with [] => gaps 19 | t => t end) (seq 0 cols))).
  set (I := fun R (o : list Z) => o = out ++ flat_map G (seq 0 R)).
  destruct (each_seq (show_row b cols) I rows 0 out) as (o & E & HI).
  - unfold I. cbn [seq flat_map]. now rewrite app_nil_r.
  - intros R o B HI. unfold show_row. rewrite (show_line rows cols b s R 0 H) by lia. cbn [rbind]. rewrite (show_line rows cols b s R 1 H) by lia. cbn [rbind]. eexists. split; [reflexivity|].
    unfold I in *. rewrite HI, seq_S, flat_map_app. cbn [flat_map Nat.add]. rewrite app_nil_r. unfold G at 3, line_text. rewrite <- !app_assoc. reflexivity.
  - rewrite E. f_equal. exact HI.
Qed.
