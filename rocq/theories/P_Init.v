(** initialisation, clearing, statistics (C33, C35, C36). *)
From Verif Require Export Demo SpecGen ScanFrame.

(** ** C35 *)

Lemma args_valid a : args_ok a = true <-> valid_args a.
Proof. unfold args_ok, valid_args. rewrite !andb_true_iff, !Nat.leb_le. tauto. Qed.
Lemma elem_repeat {A} (x : A) n i : (i < n)%nat -> elem (Some (repeat x n)) i = Some x.
Proof.
  intros H. unfold elem, obind. rewrite nth_error_nth' with (d := x) by (rewrite repeat_length; auto). now rewrite nth_repeat.
Qed.

(** C35: the initialisation succeeds exactly if the parameters are in range and the memory it asks for is available. *)
Lemma C35_accepts_l : forall alloc a c,
  fst (ctx_init alloc a c) = true <->
  valid_args a /\ forall k, (k < init_allocs (a_rows a) (a_nets a) (a_init a))%nat -> alloc k = true.
Proof.
  intros alloc a c. unfold ctx_init. rewrite <- args_valid. destruct (args_ok a); [|simpl; intuition discriminate].
  destruct (forallb alloc (seq 0 (init_allocs (a_rows a) (a_nets a) (a_init a)))) eqn:F; simpl.
  - rewrite forallb_forall in F. split; auto. intros _. split; auto. intros k K. apply F. apply in_seq. lia.
  - split; [discriminate|]. intros [_ H]. rewrite <- F. apply forallb_forall. intros k K. apply in_seq in K. apply H. lia.
Qed.

(** C35: out-of-range parameters are rejected and the context is not touched. *)
Lemma C35_rejected_l : forall alloc a c, ~ valid_args a -> ctx_init alloc a c = (false, c).
Proof. intros alloc a c H. unfold ctx_init. rewrite <- args_valid in H. destruct (args_ok a); [contradiction H; auto|auto]. Qed.

(** C35: a successful initialisation leaves a fresh context, whatever the memory contained before. *)
Lemma C35_fresh_l : forall alloc a c c', ctx_init alloc a c = (true, c') -> fresh a c'.
Proof.
  intros alloc a c c' H. unfold ctx_init in H. destruct (args_ok a); [|discriminate].
  destruct (forallb alloc (seq 0 (init_allocs (a_rows a) (a_nets a) (a_init a)))); [|discriminate]. injection H as <-. constructor; try reflexivity.
  - intros b. destruct b; simpl; now rewrite repeat_length.
  - intros b i I0. destruct b; simpl in I0; unfold peek; simpl bank_arr; unfold zeros; rewrite elem_repeat by auto; reflexivity.
  - simpl. now rewrite repeat_length.
  - intros i I0. unfold peek. simpl x_tm. rewrite elem_repeat by auto. auto.
  - intros ->. simpl. now rewrite repeat_length.
  - intros n -> N. unfold empty_cell, peek, cell_of, row_of, net_of. simpl x_net. rewrite elem_repeat by auto. split; [reflexivity|].
    intros r col R C. cbn [obind net0 n_cells]. rewrite elem_repeat by auto. cbn [obind].
    assert (EC : nth_error (repeat cell0 (a_cols a)) col = Some cell0) by (apply (elem_repeat cell0 _ _ C)). rewrite EC. auto.
  - now intros ->.
  - split; [reflexivity|]. split; [reflexivity|]. eexists. split; [reflexivity|]. auto.
  - eexists. split; reflexivity.
  - split; reflexivity.
  - eexists. split; [reflexivity|]. simpl. auto 10.
  - eexists. split; [reflexivity|]. simpl. repeat split; auto. intros T. unfold i32. rewrite Z.mod_small by lia. lia.
Qed.

(** C35: such a context meets what the statements about instructions assume: banks of the configured sizes, flags 0 or 1. *)
Lemma C35_usable_l : forall alloc a c c', ctx_init alloc a c = (true, c') -> stores_ok c' /\ flags_ok c'.
Proof.
  intros alloc a c c' H. pose proof (C35_fresh_l _ _ _ _ H) as F. unfold ctx_init in H. destruct (args_ok a); [|discriminate].
  destruct (forallb alloc (seq 0 (init_allocs (a_rows a) (a_nets a) (a_init a)))); [|discriminate]. injection H as <-. split; [split; constructor|].
  - intros b. destruct b; simpl; eexists; (split; [reflexivity|]); rewrite repeat_length; lia.
  - eexists. split; [reflexivity|]. rewrite repeat_length. simpl. lia.
  - left; reflexivity.
  - left; reflexivity.
  - intros m im L. simpl in L. lia.
  - intros m im L. simpl in L. lia.
  - intros b i z _ HZ. left. pose proof (fr_zero _ _ F b i) as Z0. unfold holds in HZ.
    destruct (Nat.lt_ge_cases i (bank_len a b)) as [L|L]; [rewrite Z0 in HZ by auto; congruence|].
    exfalso. destruct b; simpl in HZ, L; unfold zeros, elem, obind in HZ; rewrite (proj2 (nth_error_None _ _)) in HZ by (rewrite repeat_length; lia); discriminate.
Qed.

(** C35: when memory runs out the context ends in state ERROR without register banks and timers. *)
Lemma C35_no_memory_l : forall alloc a c c', valid_args a -> ctx_init alloc a c = (false, c') ->
  peek c' LState = Some (VState S_ERROR) /\ (forall b, peek c' (LRegLen b) = None) /\ peek c' LTmLen = None.
Proof.
  intros alloc a c c' V H. unfold ctx_init in H. apply args_valid in V. rewrite V in H.
  destruct (forallb alloc (seq 0 (init_allocs (a_rows a) (a_nets a) (a_init a)))); [discriminate|]. injection H as <-. split; [reflexivity|]. split; [|reflexivity].
  intros b. destruct b; reflexivity.
Qed.
(** C35, finding: in that case the pointer to the networks is kept although the memory has been released (if networks
    were to be created and their array had been allocated). *)
Lemma C35_dangling_actual_l : forall alloc a c c', valid_args a -> a_init a = true -> alloc 0%nat = true ->
  ctx_init alloc a c = (false, c') -> peek c' LNets <> None.
Proof.
  intros alloc a c c' V I0 A H. unfold ctx_init in H. apply args_valid in V. rewrite V in H.
  destruct (forallb alloc (seq 0 (init_allocs (a_rows a) (a_nets a) (a_init a)))); [discriminate|]. injection H as <-. simpl. rewrite I0, A. discriminate.
Qed.
(*EX
Definition C35_args : init_args := mk_init_args 6 4 2 8 4 3 5 2 1 500 true false 1000 20.
Example C35_case : valid_args C35_args /\ fst (ctx_init (fun _ => true) C35_args garbage) = true
  /\ fst (ctx_init (fun k => (k <? 5)%nat) C35_args garbage) = false
  /\ ctx_init (fun _ => true) (mk_init_args 6 33 2 8 4 3 5 2 1 500 true false 1000 20) garbage = (false, garbage).
Proof. split; [unfold valid_args; simpl; lia|]. repeat split; vm_compute; reflexivity. Qed.
EX*)

(** ** C36 *)

Lemma memset_ok p n : arr_ok p n -> exists p', pmemset0 p n = Ok p' /\ size p' = size p
  /\ forall i, elem p' i = if (i <? n)%nat then Some 0 else elem p i.
Proof.
  intros (l & -> & L). unfold pmemset0. destruct n as [|n]; [eexists; split; [reflexivity|]; auto|].
  rewrite (proj2 (Nat.leb_le _ _) L). eexists. split; [reflexivity|]. split.
  - unfold size. cbn [option_map]. rewrite app_length, repeat_length, skipn_length. do 2 f_equal. lia.
  - intros i. unfold elem, obind.     destruct (i <? S n)%nat eqn:I0.
    + apply Nat.ltb_lt in I0. rewrite nth_error_app1 by (rewrite repeat_length; auto).
      rewrite nth_error_nth' with (d := 0) by (rewrite repeat_length; auto). now rewrite nth_repeat.
    + apply Nat.ltb_ge in I0. rewrite nth_error_app2 by (rewrite repeat_length; auto). rewrite repeat_length.
      rewrite <- (firstn_skipn (S n) l) at 2. rewrite nth_error_app2; rewrite firstn_length; [|lia]. f_equal. lia.
Qed.

(** C36: clearing the memory zeroes M, the counter and timer flags and their histories, and changes nothing else. *)
Lemma C36_memory_l : forall c, banks_ok c ->
  exists c', clear_memory c = Ok c'
    /\ (forall b i, In b flag_banks -> (i < bank_qty b (x_q c))%nat -> peek c' (LReg b i) = Some (VZ 0))
    /\ changes_only c c' (fun l => exists b i, In b flag_banks /\ (i < bank_qty b (x_q c))%nat /\ l = LReg b i).
Proof.
  intros c B. pose proof (fun b => memset_ok _ _ (bo_bank c B b)) as H. unfold clear_memory.
  destruct (H B_Mh) as (a1 & E1 & Z1 & N1). destruct (H B_M) as (a2 & E2 & Z2 & N2). destruct (H B_Cdh) as (a3 & E3 & Z3 & N3).
  destruct (H B_Cd) as (a4 & E4 & Z4 & N4). destruct (H B_Crh) as (a5 & E5 & Z5 & N5). destruct (H B_Cr) as (a6 & E6 & Z6 & N6).
  destruct (H B_Tdh) as (a7 & E7 & Z7 & N7). destruct (H B_Td) as (a8 & E8 & Z8 & N8). destruct (H B_Trh) as (a9 & E9 & Z9 & N9).
  destruct (H B_Tr) as (a10 & E10 & Z10 & N10). simpl in *.
  rewrite E1, E2, E3, E4, E5, E6, E7, E8, E9, E10. simpl rbind. eexists. split; [reflexivity|]. split.
  - intros b i HB L. apply Nat.ltb_lt in L. unfold flag_banks in HB. simpl in HB.
    repeat (destruct HB as [<-|HB]; [simpl in *; first [rewrite N1|rewrite N2|rewrite N3|rewrite N4|rewrite N5|rewrite N6|rewrite N7|rewrite N8|rewrite N9|rewrite N10]; rewrite L; reflexivity|]).
    destruct HB.
  - intros l HL. destruct l; try reflexivity.
    + destruct (in_dec bank_eq_dec b flag_banks) as [HB|HB].
      * destruct (Nat.ltb i (bank_qty b (x_q c))) eqn:L; [exfalso; apply HL; exists b, i; apply Nat.ltb_lt in L; auto|].
        unfold flag_banks in HB. simpl in HB.
        repeat (destruct HB as [<-|HB]; [simpl in *; first [rewrite N1|rewrite N2|rewrite N3|rewrite N4|rewrite N5|rewrite N6|rewrite N7|rewrite N8|rewrite N9|rewrite N10]; rewrite L; reflexivity|]).
        destruct HB.
      * destruct b; try reflexivity; exfalso; apply HB; simpl; auto 12.
    + destruct b; simpl; auto.
Qed.

Lemma map_cells_spec f nt nt' : map_cells f nt = Ok nt' ->
  n_en nt' = n_en nt /\ n_rows nt' = n_rows nt /\ n_cols nt' = n_cols nt /\ size (n_cells nt') = size (n_cells nt)
  /\ (forall r, option_map (@length cell) (elem (n_cells nt') r) = option_map (@length cell) (elem (n_cells nt) r))
  /\ (forall r col x, ncell nt r col = Some x ->
        if in_rect nt r col then exists y, f x = Ok y /\ ncell nt' r col = Some y else ncell nt' r col = Some x).
Proof.
  unfold map_cells. destruct ((n_rows nt =? 0)%nat || (n_cols nt =? 0)%nat) eqn:Z0.
  - intros H. injection H as <-. repeat (split; auto). intros r col x H.
    replace (in_rect nt r col) with false; auto. unfold in_rect. symmetry. apply andb_false_iff. rewrite !Nat.ltb_ge.
    apply orb_true_iff in Z0. rewrite !Nat.eqb_eq in Z0. lia.
  - intros H. apply rbind_inv in H as (p & Hp & H). injection H as <-. destruct nt as [en nr nc cs]; simpl in *.
    unfold pmap_first in Hp. destruct nr as [|nr']; [discriminate|]. set (nr := S nr') in *.
    destruct cs as [rows|]; [|discriminate]. apply rbind_inv in Hp as (rows' & M & Hp). injection Hp as <-.
    apply map_first_spec in M as (L & N & MS). do 3 (split; [auto|]). split; [simpl; now rewrite L|]. split.
    + intros r. unfold elem, obind. destruct (nth_error rows r) as [rw|] eqn:R.
      * destruct (MS r rw R) as [S1 S2]. destruct (Nat.lt_ge_cases r nr) as [K|K].
        -- destruct (S1 K) as (y & Y & ->). simpl. apply map_first_spec in Y as (Y & _). now rewrite Y.
        -- now rewrite (S2 K).
      * apply nth_error_None in R. rewrite <- L in R. apply nth_error_None in R. now rewrite R.
    + intros r col x. unfold ncell, in_rect, elem, obind. simpl n_cells. simpl n_rows. simpl n_cols.
      destruct (nth_error rows r) as [rw|] eqn:R; [|discriminate]. intros X.
      destruct (MS r rw R) as [S1 S2]. destruct (Nat.lt_ge_cases r nr) as [K|K].
      * destruct (S1 K) as (y & Y & ->). apply map_first_spec in Y as (Y & _ & Y2).
        replace (r <? nr)%nat with true by (symmetry; now apply Nat.ltb_lt). simpl.
        destruct (Y2 col x X) as [Y3 Y4]. destruct (Nat.lt_ge_cases col nc) as [Q|Q].
        -- replace (col <? nc)%nat with true by (symmetry; now apply Nat.ltb_lt). auto.
        -- rewrite (Y4 Q). now replace (col <? nc)%nat with false by (symmetry; now apply Nat.ltb_ge).
      * rewrite (S2 K). replace (r <? nr)%nat with false by (symmetry; now apply Nat.ltb_ge). simpl. auto.
Qed.
Lemma map_first_ok' {A} n (f : A -> res A) l : (forall i, (i < n)%nat -> exists x y, nth_error l i = Some x /\ f x = Ok y) ->
  exists l', map_first n f l = Ok l'.
Proof.
  revert l. induction n as [|n IH]; intros l F; simpl; [eauto|]. destruct (F 0%nat) as (x & y & X & Y); [lia|].
  destruct l as [|x' t]; [discriminate|]. injection X as ->. rewrite Y. simpl. destruct (IH t) as [t' Ht]; [|rewrite Ht; simpl; eauto].
  intros i I0. apply (F (S i)). lia.
Qed.
Lemma pmap_first_spec {A} n (f : A -> res A) p p' : pmap_first n f p = Ok p' ->
  size p' = size p /\ forall i, match elem p i with
    | Some x => if (i <? n)%nat then exists y, f x = Ok y /\ elem p' i = Some y else elem p' i = Some x
    | None => elem p' i = None end.
Proof.
  unfold pmap_first. destruct n as [|n].
  - intros H. injection H as <-. split; auto. intros i. now destruct (elem p i).
  - destruct p as [l|]; [|discriminate]. intros H. apply rbind_inv in H as (l' & M & H). injection H as <-.
    apply map_first_spec in M as (L & N & MS). split; [simpl; now rewrite L|]. intros i. unfold elem, obind.
    destruct (nth_error l i) as [x|] eqn:X.
    + destruct (MS i x X) as [S1 S2]. destruct (i <? S n)%nat eqn:I0; [apply S1; now apply Nat.ltb_lt|apply S2; now apply Nat.ltb_ge].
    + apply nth_error_None in X. apply nth_error_None. now rewrite L.
Qed.
Lemma pmap_first_ok {A} n (f : A -> res A) p : (forall i, (i < n)%nat -> exists x y, elem p i = Some x /\ f x = Ok y) ->
  exists p', pmap_first n f p = Ok p'.
Proof.
  unfold pmap_first. destruct n as [|n]; [eauto|]. intros F. destruct p as [l|].
  - destruct (map_first_ok' (S n) f l) as [l' ->]; [exact F|]. simpl. eauto.
  - destruct (F 0%nat) as (x & y & X & _); [lia|discriminate].
Qed.
Lemma clear_cell_ok x y : clear_cell x = Ok y -> c_bar y = false /\ c_code y = I_NOP /\ c_state y = false /\ c_data y = None
  /\ c_dq y = match c_data x with None => c_dq x | Some _ => 0%nat end.
Proof. unfold clear_cell. destruct (c_data x); [destruct (_ <=? _)%nat|]; intros H; try discriminate; injection H as <-; simpl; auto. Qed.
Lemma clear_net_ok c n en rows cols nt : peek c (LNet n) = Some (VNet en rows cols) -> net_of c n = Some nt ->
  (forall r col, (r < rows)%nat -> (col < cols)%nat ->
         exists bar i dq, peek c (LCell n r col) = Some (VCell bar i dq)
           /\ (peek c (LDataLen n r col) = None \/ exists k, peek c (LDataLen n r col) = Some (VN k) /\ (dq <= k)%nat)) ->
  exists nt', map_cells clear_cell nt = Ok nt'.
Proof.
  intros HN ON HC. simpl in HN. rewrite ON in HN. simpl in HN. injection HN as E1 E2 E3. subst en rows cols. unfold map_cells.
  destruct ((n_rows nt =? 0)%nat || (n_cols nt =? 0)%nat) eqn:Z0; [eauto|].
  apply orb_false_iff in Z0 as [Z1 Z2]. apply Nat.eqb_neq in Z1, Z2.
  assert (CC : forall r col, (r < n_rows nt)%nat -> (col < n_cols nt)%nat -> exists rw x y, elem (n_cells nt) r = Some rw /\ nth_error rw col = Some x /\ clear_cell x = Ok y).
  { intros r col R C. destruct (HC r col R C) as (bar & i & dq & H1 & H2). simpl in H1, H2. rewrite (cell_of_net _ _ _ _ _ ON) in *.
    unfold ncell in *. destruct (elem (n_cells nt) r) as [rw|]; [|discriminate]. simpl in *. destruct (nth_error rw col) as [x|] eqn:X; [|discriminate].
    simpl in *. exists rw, x. injection H1 as <- <- <-. unfold clear_cell. destruct (c_data x) as [d|]; simpl in H2; [|eauto].
    destruct H2 as [H2|(k & H2 & K)]; [discriminate|]. injection H2 as <-. rewrite (proj2 (Nat.leb_le _ _) K). eauto. }
  destruct (pmap_first_ok (n_rows nt) (map_first (n_cols nt) clear_cell) (n_cells nt)) as [p Hp]; [|rewrite Hp; simpl; eauto].
  intros r R. destruct (CC r 0%nat R) as (rw & _ & _ & RW & _); [lia|].
  destruct (map_first_ok' (n_cols nt) clear_cell rw) as [rw' Hrw]; [|eauto].
  intros col C. destruct (CC r col R C) as (rw2 & x & y & RW2 & X & Y). rewrite RW in RW2. injection RW2 as <-. eauto.
Qed.
Lemma clear_program_nets c c' : clear_program c = Ok c' -> c' = set_x_net (x_net c') c /\ size (x_net c') = size (x_net c)
  /\ forall n, match net_of c n with
     | Some nt => if (n <? q_nets (x_q c))%nat then exists nt', map_cells clear_cell nt = Ok nt' /\ net_of c' n = Some nt' else net_of c' n = Some nt
     | None => net_of c' n = None end.
Proof.
  unfold clear_program. intros H. apply rbind_inv in H as (p & P & H). injection H as <-. apply pmap_first_spec in P as (P1 & P2).
  destruct c; simpl in *. auto.
Qed.
Lemma in_rect_lt nt r col : in_rect nt r col = true <-> (r < n_rows nt /\ col < n_cols nt)%nat.
Proof. unfold in_rect. rewrite andb_true_iff, !Nat.ltb_lt. tauto. Qed.

(** C36: clearing the program makes every cell of the program empty and changes nothing but the cells. (A stale operand count
    of a cell without operands is kept.) *)
Lemma C36_program_l : forall c, whole_program c ->
  exists c', clear_program c = Ok c'
    /\ (forall n r col, program_cell c n r col ->
          powered c' n r col false /\ peek c' (LDataLen n r col) = None
          /\ exists dq, peek c' (LCell n r col) = Some (VCell false I_NOP dq) /\ (peek c (LDataLen n r col) <> None -> dq = 0%nat)
                /\ (peek c (LDataLen n r col) = None -> exists bar i, peek c (LCell n r col) = Some (VCell bar i dq)))
    /\ changes_only c c' (fun l => exists n r col, program_cell c n r col /\ cell_place n r col l).
Proof.
  intros c W.
  destruct (pmap_first_ok (q_nets (x_q c)) (map_cells clear_cell) (x_net c)) as [p Hp].
  { intros n N. destruct (W n N) as (en & rows & cols & HN & HC). assert (exists nt, net_of c n = Some nt) as [nt ON].
    { simpl in HN. destruct (net_of c n); [eauto|discriminate]. }
    destruct (clear_net_ok c n en rows cols nt HN ON HC) as [nt' K]. exists nt, nt'. auto. }
  assert (HC : clear_program c = Ok (set_x_net p c)) by (unfold clear_program; now rewrite Hp).
  exists (set_x_net p c). split; [auto|]. set (c' := set_x_net p c) in *. destruct (clear_program_nets c c' HC) as (E0 & LN & NS).
  assert (CS : forall n r col x, cell_of c n r col = Some x -> program_cell c n r col -> exists y, clear_cell x = Ok y /\ cell_of c' n r col = Some y).
  { intros n r col x X (N & en & rows & cols & HN & R & C). apply cell_of_inv in X as (nt & ON & X). specialize (NS n). rewrite ON in NS.
    apply Nat.ltb_lt in N. rewrite N in NS. destruct NS as (nt' & M & ON'). apply map_cells_spec in M as (_ & _ & _ & _ & _ & M).
    simpl in HN. rewrite ON in HN. injection HN as <- <- <-. specialize (M r col x X). rewrite (proj2 (in_rect_lt nt r col)) in M by auto.
    destruct M as (y & Y & M). exists y. split; auto. now rewrite (cell_of_net _ _ _ _ _ ON'). }
  assert (CX : forall n r col, program_cell c n r col -> exists x, cell_of c n r col = Some x).
  { intros n r col (N & en & rows & cols & HN & R & C). destruct (W n N) as (en' & rows' & cols' & HN' & K). rewrite HN in HN'. injection HN' as <- <- <-.
    destruct (K r col R C) as (bar & i & dq & K1 & _). simpl in K1. destruct (cell_of c n r col); [eauto|discriminate]. }
  split.
  - intros n r col PC. destruct (CX n r col PC) as [x X]. destruct (CS n r col x X PC) as (y & Y & Y2). apply clear_cell_ok in Y as (B1 & B2 & B3 & B4 & B5).
    unfold powered. simpl peek. rewrite Y2, X. simpl. rewrite B1, B2, B3, B4. split; auto. split; auto. exists (c_dq y). split; auto.
    rewrite B5. destruct (c_data x); simpl; split; auto; try congruence. intros _. eauto.
  - assert (CO : forall n r col, program_cell c n r col \/ cell_of c' n r col = cell_of c n r col).
    { intros n r col. specialize (NS n). destruct (net_of c n) as [nt|] eqn:ON.
      - destruct (n <? q_nets (x_q c))%nat eqn:N.
        + destruct NS as (nt' & M & ON'). destruct (in_rect nt r col) eqn:IR.
          * left. split; [now apply Nat.ltb_lt|]. apply in_rect_lt in IR. exists (n_en nt), (n_rows nt), (n_cols nt). simpl. rewrite ON. auto.
          * right. rewrite (cell_of_net _ _ _ _ _ ON), (cell_of_net _ _ _ _ _ ON'). apply map_cells_spec in M as (_ & _ & _ & _ & M1 & M).
            specialize (M r col). rewrite IR in M. destruct (ncell nt r col) as [x|] eqn:X; [now apply M|].
            specialize (M1 r). unfold ncell in *. destruct (elem (n_cells nt) r) as [rw|]; destruct (elem (n_cells nt') r) as [rw'|]; simpl in *; try discriminate; auto.
            injection M1 as M1. apply nth_error_None in X. apply nth_error_None. now rewrite M1.
        + right. rewrite (cell_of_net _ _ _ _ _ ON), (cell_of_net _ _ _ _ _ NS). auto.
      - right. unfold cell_of, row_of. now rewrite NS, ON. }
    intros l HL. destruct l; try reflexivity.
    all: try (match goal with |- peek _ (?L ?n ?r ?col) = _ => destruct (CO n r col) as [K|K]; [exfalso; apply HL; exists n, r, col; unfold cell_place; auto 6|simpl peek; rewrite K; auto] end; fail).
    + match goal with |- peek _ (LData ?n ?r ?k ?j) = _ => destruct (CO n r k) as [K|K]; [exfalso; apply HL; exists n, r, k; unfold cell_place; eauto 8|simpl peek; now rewrite K] end.
    + simpl. unfold row_of. specialize (NS n). destruct (net_of c n) as [nt|]; [|now rewrite NS].
      destruct (_ <? _)%nat; [|now rewrite NS]. destruct NS as (nt' & M & ->). simpl. apply map_cells_spec in M as (_ & _ & _ & _ & M1 & _). specialize (M1 r).
      destruct (elem (n_cells nt) r), (elem (n_cells nt') r); simpl in *; try discriminate; auto. injection M1 as ->. auto.
    + simpl. specialize (NS n). destruct (net_of c n) as [nt|]; [|now rewrite NS].
      destruct (_ <? _)%nat; [|now rewrite NS]. destruct NS as (nt' & M & ->). simpl. apply map_cells_spec in M as (_ & _ & _ & M1 & _ & _). auto.
    + simpl. specialize (NS n). destruct (net_of c n) as [nt|]; [|now rewrite NS].
      destruct (_ <? _)%nat; [|now rewrite NS]. destruct NS as (nt' & M & ->). simpl. apply map_cells_spec in M as (-> & -> & -> & _ & _ & _). auto.
    + simpl. auto.
Qed.
(*EX
(* The demonstration context: M0 and M2 are set; cell (0,0) holds a contact. *)
Example C36_case :
  let c := demo [[on (cellv I_NO [V R_M 0]); cellv I_COIL [V R_M 1]]] in
  banks_ok c /\ whole_program c /\ program_cell c 0 0 0 /\ powered c 0 0 0 true /\ peek c (LReg B_M 2) = Some (VZ 1)
  /\ (exists c', clear_memory c = Ok c' /\ peek c' (LReg B_M 2) = Some (VZ 0) /\ peek c' (LReg B_D 0) = Some (VZ 10))
  /\ (exists c', clear_program c = Ok c' /\ powered c' 0 0 0 false /\ peek c' (LCell 0 0 0) = Some (VCell false I_NOP 0) /\ peek c' (LReg B_M 2) = Some (VZ 1)).
Proof.
  cbv zeta. split; [apply stores_okb_ok; vm_compute; reflexivity|]. split.
  { intros n N. simpl in N. assert (n = 0)%nat as -> by lia. exists true, 1%nat, 2%nat. split; [reflexivity|]. intros r col R C.
    assert (r = 0)%nat as -> by lia. destruct col as [|[|col]]; [| |lia]; do 3 eexists; (split; [reflexivity|]); right; eexists; (split; [reflexivity|]); simpl; lia. }
  split; [split; [simpl; lia|exists true, 1%nat, 2%nat; split; [reflexivity|lia]]|].
  split; [reflexivity|]. split; [reflexivity|]. split; (eexists; split; [vm_compute; reflexivity|]); repeat split; reflexivity.
Qed.
EX*)

(** ** C33 *)

Lemma lapse_model s t : 0 <= si_start s < 2 ^ 64 -> 0 <= t < 2 ^ 64 ->
  (if si_start s <=? t then t - si_start s else u64 ((2 ^ 64 - 1 - si_start s) + t + 1)) = lapse (si_start s) t.
Proof.
  intros A B. unfold lapse. destruct (Z.leb_spec (si_start s) t) as [L|L]; [reflexivity|]. unfold u64. rewrite Z.mod_small; lia.
Qed.
Lemma lapse_range t0 t : 0 <= t0 < 2 ^ 64 -> 0 <= t < 2 ^ 64 -> 0 <= lapse t0 t < 2 ^ 64.
Proof. intros A B. unfold lapse. destruct (t0 <=? t) eqn:L; [apply Z.leb_le in L|apply Z.leb_gt in L]; lia. Qed.
Lemma sum_app l l' : sum (l ++ l') = sum l + sum l'.
Proof. induction l; simpl; [auto|]. unfold sum in *. simpl. lia. Qed.
Lemma last_snoc {A} (l : list A) x d : last (l ++ [x]) d = x.
Proof. apply last_last. Qed.

Definition counting (s : scanint) (l : list Z) : Prop :=
  (l = [] /\ si_count s = 0 /\ si_total s = 0 /\ si_max s = 0) \/ (l <> [] /\ describes s l).
Lemma stats_step s l t : counting s l -> (forall d, In d l -> 0 <= d) -> 0 <= si_start s < 2 ^ 64 -> 0 <= t < 2 ^ 64 ->
  0 <= sum l -> sum l + lapse (si_start s) t < 2 ^ 64 -> Z.of_nat (length l) + 1 < 2 ^ 32 ->
  exists s', scan_stats t s = Ok s' /\ describes s' (l ++ [lapse (si_start s) t]) /\ si_start s' = t /\ si_target s' = si_target s /\ si_maxcyc s' = si_maxcyc s.
Proof.
  intros CT POS S0 T0 P0 SB LB. unfold scan_stats. rewrite lapse_model by auto. set (d := lapse (si_start s) t) in *.
  pose proof (lapse_range _ _ S0 T0) as DR. fold d in DR.
  assert (TC : si_total s = sum l /\ si_count s = Z.of_nat (length l)).
  { destruct CT as [(-> & -> & -> & _)|(_ & CT)]; [auto|]. unfold describes in CT. tauto. }
  destruct TC as [TC1 TC2]. rewrite TC1, TC2. unfold u64, u32. rewrite (Z.mod_small (sum l + d)) by lia. rewrite (Z.mod_small (Z.of_nat (length l) + 1)) by lia.
  destruct (Z.of_nat (length l) + 1 =? 0) eqn:Q; [apply Z.eqb_eq in Q; lia|]. eexists. split; [reflexivity|]. split; [|simpl; auto].
  unfold describes. cbn [si_min si_max si_total si_count si_avg si_actual si_over si_target]. rewrite last_last, app_length, sum_app. simpl length.
  replace (sum [d]) with d by (unfold sum; simpl; lia). replace (Z.of_nat (length l + 1)) with (Z.of_nat (length l) + 1) by lia.
  assert (OV : (0 <? si_target s) && (si_target s <? d) = true <-> 0 < si_target s < d) by (rewrite andb_true_iff, !Z.ltb_lt; tauto).
  destruct CT as [(-> & C1 & C2 & C3)|(NE & CT)].
  - simpl length. simpl Z.of_nat. rewrite C3. cbn [Z.eqb app].
    repeat split; auto; try (apply OV; auto).
    + simpl; auto.
    + intros x [<-|[]]. lia.
    + simpl. destruct (0 <? d) eqn:K; [auto|]. apply Z.ltb_ge in K. left. lia.
    + intros x [<-|[]]. destruct (0 <? d) eqn:K; [lia|]. apply Z.ltb_ge in K. lia.
  - destruct CT as (M1 & M2 & M3 & M4 & _). destruct (Z.of_nat (length l) =? 0) eqn:K; [apply Z.eqb_eq in K; destruct l; [congruence|simpl in K; lia]|].
    repeat split; auto; try (apply OV; auto).
    + destruct (d <? si_min s); apply in_or_app; simpl; auto.
    + intros x X. apply in_app_or in X. destruct (d <? si_min s) eqn:K2; [apply Z.ltb_lt in K2|apply Z.ltb_ge in K2];
        (destruct X as [X|[<-|[]]]; [apply M2 in X; lia|lia]).
    + destruct (si_max s <? d); apply in_or_app; simpl; auto.
    + intros x X. apply in_app_or in X. destruct (si_max s <? d) eqn:K2; [apply Z.ltb_lt in K2|apply Z.ltb_ge in K2];
        (destruct X as [X|[<-|[]]]; [apply M4 in X; lia|lia]).
Qed.
Lemma times_pos t0 ts : 0 <= t0 < 2 ^ 64 -> (forall t, In t ts -> 0 <= t < 2 ^ 64) -> forall d, In d (times t0 ts) -> 0 <= d.
Proof.
  revert t0. induction ts as [|t ts IH]; intros t0 T0 TS d; simpl; [tauto|]. intros [<-|D].
  - apply lapse_range; auto. apply TS. simpl; auto.
  - apply (IH t) in D; auto; intros; apply TS; simpl; auto.
Qed.
Lemma sum_pos l : (forall d, In d l -> 0 <= d) -> 0 <= sum l.
Proof. induction l as [|a l IH]; intros H; [unfold sum; simpl; lia|]. change (sum (a :: l)) with (a + sum l). specialize (H a (or_introl eq_refl)) as H1. assert (0 <= sum l) by (apply IH; intros; apply H; simpl; auto). lia. Qed.
Lemma times_len t0 ts : length (times t0 ts) = length ts.
Proof. revert t0. induction ts; intros; simpl; auto. Qed.
Lemma stats_run ts : forall s l, counting s l -> (forall d, In d l -> 0 <= d) -> 0 <= si_start s < 2 ^ 64 -> (forall t, In t ts -> 0 <= t < 2 ^ 64) ->
  sum (l ++ times (si_start s) ts) < 2 ^ 64 -> Z.of_nat (length l + length ts) < 2 ^ 32 ->
  exists s', stats_after ts s = Ok s' /\ counting s' (l ++ times (si_start s) ts) /\ si_target s' = si_target s /\ si_maxcyc s' = si_maxcyc s.
Proof.
  induction ts as [|t ts IH]; intros s l CT POS S0 TS SB LB; simpl.
  - exists s. rewrite app_nil_r. auto.
  - pose proof (times_pos (si_start s) (t :: ts) S0 TS) as TP. simpl in SB, LB, TP. rewrite sum_app in SB. change (sum (?a :: ?b)) with (a + sum b) in SB.
    assert (P1 : 0 <= sum (times t ts)) by (apply sum_pos; intros; apply TP; auto).
    assert (P0 : 0 <= sum l) by (apply sum_pos; auto).
    destruct (stats_step s l t) as (s1 & E1 & D1 & ST & TG & MC); auto; [apply TS; simpl; auto|unfold sum in *; simpl in *; lia|lia|]. rewrite E1. simpl.
    destruct (IH s1 (l ++ [lapse (si_start s) t])) as (s2 & E2 & D2 & TG2 & MC2).
    + right. split; [intros K; apply app_eq_nil in K as [_ K]; discriminate|exact D1].
    + intros d D. apply in_app_or in D as [D|[<-|[]]]; [auto|]. apply TP; auto.
    + rewrite ST. apply TS. simpl; auto.
    + intros; apply TS; simpl; auto.
    + rewrite ST, <- app_assoc, sum_app. simpl. unfold sum in *; simpl in *; lia.
    + rewrite app_length. simpl. lia.
    + rewrite ST, <- app_assoc in D2. simpl in D2. exists s2. split; auto. split; auto. split; congruence.
Qed.

(** C33: after any number of measurements (fewer than 2^32, adding up to less than 2^64 ms) the statistics are the minimum,
    maximum, total, number, average and latest of the measured times, and the overrun flag tells whether the latest exceeds the target. *)
Lemma C33_statistics_l : forall ts s, ts <> [] -> si_count s = 0 -> si_total s = 0 -> si_max s = 0 ->
  0 <= si_start s < 2 ^ 64 -> (forall t, In t ts -> 0 <= t < 2 ^ 64) ->
  Z.of_nat (length ts) < 2 ^ 32 -> sum (times (si_start s) ts) < 2 ^ 64 ->
  exists s', stats_after ts s = Ok s' /\ describes s' (times (si_start s) ts) /\ si_target s' = si_target s /\ si_maxcyc s' = si_maxcyc s.
Proof.
  intros ts s NE C0 T0 M0 S0 TS LB SB. destruct (stats_run ts s []) as (s' & E1 & CT & TG & MC); auto.
  - left. auto.
  - intros d [].
  - exists s'. split; auto. split; auto. simpl in CT. destruct CT as [(K & _)|(_ & CT)]; auto.
    exfalso. apply NE. apply length_zero_iff_nil. rewrite <- (times_len (si_start s)). now rewrite K.
Qed.
Lemma sum_between l a b : (forall d, In d l -> a <= d) -> (forall d, In d l -> d <= b) -> a * Z.of_nat (length l) <= sum l <= b * Z.of_nat (length l).
Proof.
  induction l as [|x l IH]; intros A B; [unfold sum; simpl; lia|]. change (sum (x :: l)) with (x + sum l). simpl length.
  specialize (A x (or_introl eq_refl)) as A1. specialize (B x (or_introl eq_refl)) as B1.
  destruct IH as [I1 I2]; [intros; apply A; simpl; auto|intros; apply B; simpl; auto|]. nia.
Qed.
(** C33: hence minimum <= average <= maximum. *)
Lemma C33_ordered_l : forall s l, describes s l -> si_min s <= si_avg s <= si_max s.
Proof.
  intros s l (M1 & M2 & M3 & M4 & _ & _ & -> & _). destruct (sum_between l _ _ M2 M4) as [B1 B2].
  assert (0 < Z.of_nat (length l)) by (destruct l; [destruct M1|simpl; lia]).
  split; [apply Z.div_le_lower_bound; lia|]. apply Z.div_le_upper_bound; lia.
Qed.
(** C33, finding: the counter of measurements has 32 bits; the measurement that makes it wrap divides by zero. *)
Lemma C33_wrap_undefined_l : forall t s, si_count s = 2 ^ 32 - 1 -> scan_stats t s = Bad UB_div.
Proof. intros t s H. unfold scan_stats. rewrite H. reflexivity. Qed.
(** C33: the library's measurement reads the clock once, updates the statistics with it, and switches to ERROR exactly if the
    measured time exceeds a non-zero watchdog; it changes nothing else (the hooks may change places in [W]). *)
Lemma C33_measure_l : forall E W s s' st0 w h, env_writes E W -> (forall l, W l -> ~ is_layout l) -> ~ W LState -> ~ W LStats ->
  peek (s_ctx s) LHooks = Some (VHooks h) -> h_millis h = true -> peek (s_ctx s) LStats = Some (VStats st0) ->
  (exists q, peek (s_ctx s) LQty = Some (VQty q) /\ q_wdg q = w) ->
  scan_time E s = Ok (tt, s') ->
  exists t st1, In (EvMillis t) (s_tr s') /\ 0 <= t < 2 ^ 64 /\ stats_after [t] st0 = Ok st1
    /\ peek (s_ctx s') LStats = Some (VStats st1)
    /\ peek (s_ctx s') LState = (if (0 <? w) && (w <? si_actual st1) then Some (VState S_ERROR) else peek (s_ctx s) LState)
    /\ changes_only (s_ctx s) (s_ctx s') (fun l => l = LStats \/ l = LState \/ W l).
Proof.
  intros E W [c tr] s' st0 w h (EW & _) LW WS WT HH HM HS (q & HQ & HWD) H. simpl in HH, HS, HQ. injection HH as <-. injection HS as <-. injection HQ as <-.
  unfold scan_time, getc, bind in H. simpl in H. rewrite HM in H. unfold millis, emit, bind, ret, lift, modc in H. simpl in H.
  set (t := u64 (clk E (length tr))) in *. set (c2 := act E (length tr) (EvMillis t) c) in *.
  assert (CH : changes_only c c2 W) by (apply EW; simpl; auto).
  assert (Q2 : x_q c2 = x_q c) by (assert (K : peek c2 LQty = peek c LQty) by (apply CH; intros K; apply LW in K; apply K; simpl; auto); simpl in K; congruence).
  assert (S2 : x_si c2 = x_si c) by (assert (K : peek c2 LStats = peek c LStats) by (apply CH; auto); simpl in K; congruence).
  assert (T2 : x_state c2 = x_state c) by (assert (K : peek c2 LState = peek c LState) by (apply CH; auto); simpl in K; congruence).
  rewrite Q2, S2 in H. exists t. destruct (scan_stats t (x_si c)) as [st1|u|] eqn:SS; [|discriminate|discriminate]. simpl in H. exists st1.
  rewrite HWD in H.
  assert (TR : 0 <= t < 2 ^ 64) by (apply Z.mod_pos_bound; lia).
  assert (CS : changes_only c (set_x_si st1 c2) (fun l => l = LStats \/ l = LState \/ W l)).
  { intros l L. transitivity (peek c2 l); [destruct l; auto; tauto|]. apply CH. tauto. }
  destruct ((0 <? w) && (w <? si_actual st1)) eqn:WD.
  - unfold set_state, modc, panic, bind, getc in H. simpl in H.
    set (c3 := set_x_state S_ERROR (set_x_si st1 c2)) in *.
    assert (C3 : changes_only c c3 (fun l => l = LStats \/ l = LState \/ W l)).
    { intros l L. rewrite <- CS by auto. destruct l; auto. tauto. }
    destruct (h_panic (x_h c2)).
    + unfold emit in H. simpl in H. injection H as <-. simpl s_ctx. simpl s_tr.
      assert (C4 : changes_only c3 (act E (S (length tr)) EvPanic c3) W) by (apply EW; simpl; auto).
      split; [simpl; auto|]. split; [auto|]. split; [simpl; now rewrite SS|]. split; [rewrite C4 by auto; reflexivity|]. split; [rewrite C4 by auto; reflexivity|].
      intros l L. rewrite C4 by tauto. auto.
    + injection H as <-. simpl s_ctx. simpl s_tr. split; [simpl; auto|]. split; [auto|]. split; [simpl; now rewrite SS|]. split; [reflexivity|]. split; [reflexivity|]. auto.
  - injection H as <-. simpl s_ctx. simpl s_tr. split; [simpl; auto|]. split; [auto|]. split; [simpl; now rewrite SS|]. split; [reflexivity|]. split; [simpl; congruence|]. auto.
Qed.
(** C33: without a clock the measurement switches to ERROR. *)
Lemma C33_no_clock_l : forall E W s s' h, env_writes E W -> ~ W LState ->
  peek (s_ctx s) LHooks = Some (VHooks h) -> h_millis h = false -> scan_time E s = Ok (tt, s') ->
  peek (s_ctx s') LState = Some (VState S_ERROR).
Proof.
  intros E W [c tr] s' h (EW & _) WS HH HM H. simpl in HH. injection HH as <-. unfold scan_time, getc, bind in H. simpl in H. rewrite HM in H.
  unfold set_state, modc, panic, bind, getc in H. simpl in H. set (c3 := set_x_state S_ERROR c) in *. destruct (h_panic (x_h c)).
  - unfold emit in H. simpl in H. injection H as <-. simpl s_ctx. rewrite (EW _ _ _ (I : scan_event EvPanic)) by auto. reflexivity.
  - injection H as <-. reflexivity.
Qed.
(*EX
(* Readings 100, 130, 135, 175 ms, the first measurement starting at 90 ms, target 35 ms. *)
Example C33_case :
  let s := mk_scanint 0 90 1000 35 (2 ^ 64 - 1) 0 0 0 0 false in
  times 90 [100; 130; 135; 175] = [10; 30; 5; 40]
  /\ stats_after [100; 130; 135; 175] s = Ok (mk_scanint 40 175 1000 35 5 40 85 21 4 true)
  /\ describes (mk_scanint 40 175 1000 35 5 40 85 21 4 true) [10; 30; 5; 40].
Proof.
  split; [reflexivity|]. split; [reflexivity|]. unfold describes; simpl. repeat split; auto; try lia; intros d D; intuition lia.
Qed.
(* The watchdog is 5 ms and the clock advances 10 ms per reading. *)
Example C33_measure_case :
  let c := set_x_q (set_q_wdg 5 (x_q demo_init)) (set_x_h (mk_hooks true true false false false false false false) demo_init) in
  let s := mk_st c [EvMillis 0] in
  exists s', scan_time quiet_env s = Ok (tt, s') /\ peek (s_ctx s') LState = Some (VState S_ERROR)
   /\ exists s2, scan_time quiet_env (mk_st (set_x_q (set_q_wdg 50 (x_q c)) c) [EvMillis 0]) = Ok (tt, s2)
      /\ peek (s_ctx s2) LState = Some (VState S_STOPPED).
Proof. cbv zeta. eexists. split; [vm_compute; reflexivity|]. split; [reflexivity|]. eexists. split; [vm_compute; reflexivity|]. reflexivity. Qed.
EX*)
