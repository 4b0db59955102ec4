(** Facts about whole drawings. *)
From Coq Require Import String.
From Verif Require Export PrintFigures.
Open Scope list_scope.
Open Scope Z_scope.

(** ** One column *)

Section Column.
Variables (fig : nat -> list (list Z)) (begins : nat -> bool) (high : nat -> nat) (rows : nat).
Hypothesis Hhigh : forall r, (r < rows)%nat -> begins r = true -> (1 <= high r <= 3)%nat /\ length (fig r) = (2 * high r)%nat /\ (forall k, (k < 2 * high r)%nat -> nth k (fig r) [] <> []).
Hypothesis Hinner : forall r k, (r < rows)%nat -> begins r = true -> (r < k < r + high r)%nat -> begins k = false.
Hypothesis Hcont : forall r, (r < rows)%nat -> begins r = false -> exists r0, (r0 < r)%nat /\ begins r0 = true /\ (r < r0 + high r0)%nat.
Lemma column_inv k : (k <= rows)%nat ->
  (forall r0 j l, (r0 < k)%nat -> begins r0 = true -> (j < high r0)%nat -> (l < 2)%nat -> column_state fig k (r0 + j)%nat l = nth (2 * j + l) (fig r0) [])
  /\ (forall r l, (k <= r)%nat -> (l < 2)%nat -> (forall r0, (r0 < k)%nat -> begins r0 = true -> (r0 + high r0 <= r)%nat) -> column_state fig k r l = []).
Proof.
  induction k as [|k IH]; intros K; [split; [lia|reflexivity]|]. destruct IH as [I1 I2]; [lia|]. cbn [column_state]. destruct (begins k) eqn:B.
  - assert (F : forall r0, (r0 < k)%nat -> begins r0 = true -> (r0 + high r0 <= k)%nat).
    { intros r0 R0 B0. destruct (Nat.le_gt_cases (r0 + high r0) k); auto. rewrite (Hinner r0 k) in B by (auto; lia). discriminate. }
    rewrite (I2 k 0%nat) by (auto; lia). cbn [is_empty]. destruct (Hhigh k ltac:(lia) B) as (H1 & H2 & H3). split.
    + intros r0 j l R0 B0 J L. unfold overlay. destruct (Nat.eq_dec r0 k) as [->|N].
      * rewrite (proj2 (Nat.leb_le _ _)) by lia. rewrite (proj2 (Nat.leb_le _ _)) by lia. rewrite (proj2 (Nat.ltb_lt _ _)) by lia. cbn [andb]. f_equal. lia.
      * specialize (F r0 ltac:(lia) B0). rewrite (proj2 (Nat.leb_gt _ _)) by lia. cbn [andb]. apply I1; auto. lia.
    + intros r l R L G. unfold overlay. specialize (G k ltac:(lia) B) as Gk. destruct (_ && _) eqn:Q; [apply nth_overflow; lia|]. apply I2; auto. lia.
  - destruct (Hcont k ltac:(lia) B) as (r0 & R0 & B0 & R1). destruct (Hhigh r0 ltac:(lia) B0) as (H1 & H2 & H3).
    replace (is_empty (column_state fig k k 0%nat)) with false.
    2:{ replace k with (r0 + (k - r0))%nat at 2 by lia. rewrite I1 by (auto; lia). specialize (H3 (2 * (k - r0) + 0)%nat ltac:(lia)). destruct (nth _ (fig r0) []); [congruence|reflexivity]. }
    split.
    + intros r1 j l R2 B1 J L. apply I1; auto. destruct (Nat.eq_dec r1 k); [congruence|lia].
    + intros r l R L G. apply I2; auto. lia.
Qed.
Lemma column_final r0 j l : (r0 < rows)%nat -> begins r0 = true -> (j < high r0)%nat -> (l < 2)%nat -> column_state fig rows (r0 + j)%nat l = nth (2 * j + l) (fig r0) [].
Proof. intros. apply (proj1 (column_inv rows (le_n _))); auto. Qed.
Lemma column_inner r : (r < rows)%nat -> begins r = false -> is_empty (column_state fig r r 0%nat) = false.
Proof.
  intros R B. destruct (Hcont r R B) as (r0 & R0 & B0 & R1). destruct (Hhigh r0 ltac:(lia) B0) as (H1 & H2 & H3). replace r with (r0 + (r - r0))%nat at 2 by lia.
  rewrite (proj1 (column_inv r ltac:(lia))) by (auto; lia). specialize (H3 (2 * (r - r0) + 0)%nat ltac:(lia)). destruct (nth _ (fig r0) []); [congruence|reflexivity].
Qed.
End Column.

(** ** One network *)

Lemma printable_net c n nt : printable c -> (n < q_nets (x_q c))%nat -> net_at n c = Ok nt -> (n_rows nt <= 32)%nat -> (n_cols nt <= 255)%nat ->
  celled nt /\ forall r col, (r < n_rows nt)%nat -> (col < n_cols nt)%nat -> drawable c n r col.
Proof.
  intros HP N HN R C. destruct (HP n N) as (en & rows & cols & P & D). rewrite (peek_net _ _ _ HN) in P. injection P as <- <- <-. specialize (D (conj R C)). split; auto.
  intros r col R1 C1. destruct (D r col R1 C1) as (bar & i & dq & h & P & _). cbn [peek] in P. destruct (cell_of c n r col) as [x|] eqn:X; [|discriminate]. exists x.
  apply (cell_in_at c n nt r col x HN) in X. now apply cell_in_inv.
Qed.
Lemma net_there c n : printable c -> (n < q_nets (x_q c))%nat -> exists nt, net_at n c = Ok nt.
Proof. intros HP N. destruct (HP n N) as (en & rows & cols & P & _). destruct (net_of_at _ _ _ _ _ P) as (nt & E & _). eauto. Qed.
Definition piece (fname : nat -> list Z) (c : ctx) : picture := fun n r l col =>
  match net_at n c with
  | Ok nt => match column_state (fig_at fname (x_for c) nt col) (n_rows nt) r l with [] => gaps 19 | t => t end
  | _ => []
  end.
Lemma print_network_ok fname al c out n nt : printable c -> (n < q_nets (x_q c))%nat -> net_at n c = Ok nt -> (n_rows nt <= 32)%nat -> (n_cols nt <= 255)%nat -> al n = true ->
  print_network fname al c out n = Ok (out ++ (txt "[Network " ++ sdec (i32 (Z.of_nat n)) ++ txt " (" ++ txt (if n_en nt then "enabled" else "disabled") ++ txt ")]" ++ [10; 10])
    ++ flat_map (fun r => flat_map (fun col => message fname (x_for c) nt col r) (seq 0 (n_cols nt))) (seq 0 (n_rows nt))
    ++ flat_map (fun r => line_text (map (piece fname c n r 0%nat) (seq 0 (n_cols nt))) ++ line_text (map (piece fname c n r 1%nat) (seq 0 (n_cols nt)))) (seq 0 (n_rows nt)) ++ [10; 10]).
Proof.
  intros HP N HN R C A. destruct (printable_net _ _ _ HP N HN R C) as (HC & D). unfold print_network. rewrite HN. cbn [rbind].
  rewrite (proj2 (Nat.ltb_ge _ _) R), (proj2 (Nat.ltb_ge _ _) C), A. cbn [orb negb].
  match goal with |- context [each (draw_cell _ _ _) _ (_, ?o)] => destruct (draw_all fname (x_for c) nt) with (out := o) as (b & E & H) end.
  { intros r col R1 C1. destruct (HC r col R1 C1) as (x & X). destruct (figure_ok fname c n nt r col x HN HC R R1 X (D r col R1 C1)) as (m & fig & E & _). eauto. }
  rewrite E. cbn [rbind]. rewrite (show_rows _ _ _ _ H). cbn [rbind]. f_equal. rewrite <- !app_assoc. do 8 f_equal. unfold piece. rewrite HN. reflexivity.
Qed.
Lemma print_network_total fname al c out n : printable c -> (n < q_nets (x_q c))%nat -> exists t, print_network fname al c out n = Ok (out ++ t).
Proof.
  intros HP N. destruct (net_there _ _ HP N) as (nt & HN). destruct (Nat.le_gt_cases (n_rows nt) 32) as [R|R].
  - destruct (Nat.le_gt_cases (n_cols nt) 255) as [C|C].
    + destruct (al n) eqn:A; [eexists; now apply (print_network_ok fname al c out n nt)|]. unfold print_network. rewrite HN. cbn [rbind].
      rewrite (proj2 (Nat.ltb_ge _ _) R), (proj2 (Nat.ltb_ge _ _) C), A. cbn [orb negb]. eexists. reflexivity.
    + unfold print_network. rewrite HN. cbn [rbind]. rewrite (proj2 (Nat.ltb_lt _ _) C), orb_true_r. eexists. reflexivity.
  - unfold print_network. rewrite HN. cbn [rbind]. rewrite (proj2 (Nat.ltb_lt _ _) R). eexists. reflexivity.
Qed.
Lemma print_total fname al c : printable c -> exists t, ladder_print fname al c = Ok t.
Proof.
  intros HP. unfold ladder_print. destruct (each_seq (print_network fname al c) (fun _ _ => True) (q_nets (x_q c)) 0 []) as (t & E & _); auto; [|eauto].
  intros n out B _. destruct (print_network_total fname al c out n HP ltac:(lia)) as (t & E). eauto.
Qed.

(** ** The whole drawing *)

Section Show.
Variables (fname : nat -> list Z) (c : ctx).
Hypothesis HP : printable c.
Hypothesis HS : presentable c.
Hypothesis HF : columns_follow c.
Section Net.
Variables (n : nat) (nt : network).
Hypothesis N : (n < q_nets (x_q c))%nat.
Hypothesis HN : net_at n c = Ok nt.
Lemma net_small : (n_rows nt <= 32)%nat /\ (n_cols nt <= 255)%nat.
Proof. destruct HS as [_ H]. destruct (H _ _ _ _ N (peek_net _ _ _ HN)) as [A _]. exact A. Qed.
Definition begins_at (col r : nat) : bool := match code_at c n r col with I_MULTI => false | _ => true end.
Definition high_at (col r : nat) : nat := length (fig_at fname (x_for c) nt col r) / 2.
Lemma fig_there r col : (r < n_rows nt)%nat -> (col < n_cols nt)%nat -> begins_at col r = true -> exists h x, ncell nt r col = Some x /\ takes c n r col h /\ (1 <= h <= 3)%nat /\ (r + h <= n_rows nt)%nat /\ h = high_at col r
  /\ (forall k, (r < k < r + h)%nat -> begins_at col k = false)
  /\ good_figure nt r col (c_code x) h x (fig_at fname (x_for c) nt col r) /\ fn_to_str fname (x_for c) nt r col = Ok (false, fig_at fname (x_for c) nt col r).
Proof.
  intros R C B. destruct net_small as [S1 S2]. destruct (printable_net _ _ _ HP N HN S1 S2) as (HC & D). destruct (HC r col R C) as (x & X).
  destruct (HF n _ _ _ r col N (peek_net _ _ _ HN) R C) as [A _]. destruct A as (h & T & B1 & B2). { unfold begins_at in B. intros E. rewrite E in B. discriminate. }
  destruct HS as [_ H]. destruct (H _ _ _ _ N (peek_net _ _ _ HN)) as [_ HH]. specialize (HH r col h R C T).
  destruct (figure_ok fname c n nt r col x HN HC S1 R X (D r col R C)) as (m & fig & E & G). destruct (G h T HH B1) as [-> GF].
  assert (EF : fig_at fname (x_for c) nt col r = fig) by (unfold fig_at; now rewrite E). exists h, x. rewrite EF.
  split; [exact X|]. split; [exact T|]. split; [exact HH|]. split; [exact B1|]. split; [|split; [|split; [exact GF|exact E]]].
  - unfold high_at. rewrite EF, (gf_len _ _ _ _ _ _ _ GF), Nat.mul_comm, Nat.div_mul; lia.
  - intros k K. destruct (B2 k K) as (bar & P & _). unfold begins_at, code_at. rewrite P. reflexivity.
Qed.
Lemma column_ok col : (col < n_cols nt)%nat -> 
  (forall r, (r < n_rows nt)%nat -> begins_at col r = true -> (1 <= high_at col r <= 3)%nat /\ length (fig_at fname (x_for c) nt col r) = (2 * high_at col r)%nat
     /\ (forall k, (k < 2 * high_at col r)%nat -> nth k (fig_at fname (x_for c) nt col r) [] <> []))
  /\ (forall r k, (r < n_rows nt)%nat -> begins_at col r = true -> (r < k < r + high_at col r)%nat -> begins_at col k = false)
  /\ (forall r, (r < n_rows nt)%nat -> begins_at col r = false -> exists r0, (r0 < r)%nat /\ begins_at col r0 = true /\ (r < r0 + high_at col r0)%nat).
Proof.
  intros C. split; [|split].
  - intros r R B. destruct (fig_there r col R C B) as (h & x & _ & _ & H1 & _ & <- & _ & G & _). split; auto. split; apply G.
  - intros r k R B K. destruct (fig_there r col R C B) as (h & x & _ & _ & _ & _ & E & H & _). rewrite <- E in K. auto.
  - intros r R B. destruct (HF n _ _ _ r col N (peek_net _ _ _ HN) R C) as [_ A]. destruct A as (r0 & h & R0 & T & R1). { unfold begins_at in B. destruct (code_at c n r col); auto; discriminate. }
    assert (B0 : begins_at col r0 = true) by (unfold begins_at, takes in *; destruct (code_at c n r0 col); auto). exists r0. split; auto. split; auto.
    destruct (fig_there r0 col ltac:(lia) C B0) as (h' & x & X & T' & _ & _ & E & _). rewrite <- E. replace h' with h; auto.
    assert (CX : cell_of c n r0 col = Some x) by (apply (cell_in_at c n nt); auto; now apply cell_in_of). apply (takes_hgt c n r0 col x h CX) in T. apply (takes_hgt c n r0 col x h' CX) in T'. eapply hgt_fun; eauto.
Qed.
Lemma no_message r col : (r < n_rows nt)%nat -> (col < n_cols nt)%nat -> message fname (x_for c) nt col r = [].
Proof.
  intros R C. destruct (column_ok col C) as (H1 & H2 & H3). unfold message. destruct (begins_at col r) eqn:B.
  - destruct (fig_there r col R C B) as (h & x & _ & _ & _ & _ & _ & _ & _ & E). rewrite E, andb_false_r. reflexivity.
  - rewrite (column_inner _ (begins_at col) (high_at col) (n_rows nt) H1 H2 H3 r R B). cbn [andb]. destruct (fn_to_str _ _ _ _ _) as [[m f]| |]; reflexivity.
Qed.
Lemma piece_line r col h k : (r < n_rows nt)%nat -> (col < n_cols nt)%nat -> takes c n r col h -> (k < 2 * h)%nat -> figure_line (piece fname c) n r col k = nth k (fig_at fname (x_for c) nt col r) [].
Proof.
  intros R C T K. assert (B : begins_at col r = true) by (unfold begins_at, takes in *; destruct (code_at c n r col); auto).
  destruct (fig_there r col R C B) as (h' & x & X & T' & _ & _ & E & _ & G & _). assert (h' = h).
  { assert (CX : cell_of c n r col = Some x) by (apply (cell_in_at c n nt); auto; now apply cell_in_of). apply (takes_hgt c n r col x h CX) in T. apply (takes_hgt c n r col x h' CX) in T'. eapply hgt_fun; eauto. }
  subst h. destruct (column_ok col C) as (H1 & H2 & H3). unfold figure_line, piece. rewrite HN.
  assert (K2 : (k / 2 < h')%nat) by (apply Nat.div_lt_upper_bound; lia). assert (K3 : (k mod 2 < 2)%nat) by (apply Nat.mod_upper_bound; lia).
  rewrite (column_final _ (begins_at col) (high_at col) (n_rows nt) H1 H2 H3 r (k / 2) (k mod 2)) by (auto; lia). rewrite <- (Nat.div_mod k 2) by lia.
  pose proof (gf_full _ _ _ _ _ _ _ G k K) as NE. destruct (nth k _ []); congruence.
Qed.
End Net.
Lemma flat_map_nil {A B} (f : A -> list B) l : (forall a, In a l -> f a = []) -> flat_map f l = [].
Proof. induction l as [|a l IH]; intros H; simpl; auto. rewrite (H a), IH; simpl; auto. intros b Q. apply H. now right. Qed.
Lemma network_shown out n al : (forall n, al n = true) -> (n < q_nets (x_q c))%nat -> exists t, print_network fname al c out n = Ok (out ++ t) /\ network_drawing c (piece fname c) n t.
Proof.
  intros A N. destruct (net_there _ _ HP N) as (nt & HN). destruct (net_small n nt N HN) as [S1 S2]. eexists. split; [apply (print_network_ok fname al c out n nt HP N HN S1 S2 (A n))|].
  exists (n_en nt), (n_rows nt), (n_cols nt), (sdec (i32 (Z.of_nat n))). split; [now apply peek_net|]. split.
  - replace (i32 (Z.of_nat n)) with (Z.of_nat n); [apply sdec_decimal; destruct HS; lia|]. unfold i32. rewrite Z.mod_small by (destruct HS; lia). lia.
  - rewrite flat_map_nil.
    + cbn [app]. rewrite <- !app_assoc. do 2 f_equal. destruct (n_en nt); reflexivity.
    + intros r R. apply in_seq in R. apply flat_map_nil. intros col C. apply in_seq in C. apply (no_message n nt N HN); lia.
Qed.
Lemma all_shown al : (forall n, al n = true) -> exists t, ladder_print fname al c = Ok t /\ drawing c (piece fname c) t.
Proof.
  intros A. unfold ladder_print. destruct (each_seq (print_network fname al c) (fun k t => exists ts, Forall2 (network_drawing c (piece fname c)) (seq 0 k) ts /\ t = concat ts) (q_nets (x_q c)) 0 []) as (t & E & ts & F & ->).
  - exists []. split; constructor.
  - intros n out B (ts & F & ->). destruct (network_shown (concat ts) n al A ltac:(lia)) as (t & E & D). exists (concat ts ++ t). split; auto. exists (ts ++ [t]). split.
    + rewrite seq_S. apply Forall2_app; auto.
    + rewrite concat_app. cbn [concat]. now rewrite app_nil_r.
  - eexists. split; [exact E|]. exists ts. auto.
Qed.
Lemma bar_on_barb n nt r col : net_at n c = Ok nt -> bar_on c n r col <-> barb nt r col = true.
Proof.
  intros HN. unfold bar_on, barb. rewrite (peek_net _ _ _ HN). assert (E : cell_of c n r col = ncell nt r col).
  { destruct (ncell nt r col) as [x|] eqn:X; [apply (cell_in_at c n nt); auto; now apply cell_in_of|]. destruct (cell_of c n r col) as [x|] eqn:Y; auto.
    apply (cell_in_at c n nt r col x HN) in Y. apply cell_in_inv in Y. congruence. }
  cbn [peek]. rewrite E. split.
  - intros (i & dq & P & en & rows & cols & Q & R & C). injection Q as <- <- <-. rewrite (proj2 (Nat.ltb_lt _ _) R), (proj2 (Nat.ltb_lt _ _) C). cbn [andb]. destruct (ncell nt r col); [|discriminate]. simpl in P. congruence.
  - destruct (Nat.ltb_spec r (n_rows nt)), (Nat.ltb_spec col (n_cols nt)); cbn [andb]; try discriminate. destruct (ncell nt r col) as [x|]; [|discriminate]. intros B. exists (c_code x), (c_dq x). simpl. rewrite B. split; auto. eauto 8.
Qed.
Lemma instructions_shown : shows c (piece fname c).
Proof.
  intros n en rows cols r col h N P R C T. destruct (net_of_at _ _ _ _ _ P) as (nt & HN & <- & <-).
  assert (B : begins_at n col r = true) by (unfold begins_at, takes in *; destruct (code_at c n r col); auto).
  destruct (fig_there n nt N HN r col R C B) as (h' & x & X & T' & H1 & H2 & E & _ & G & _). assert (CX : cell_of c n r col = Some x) by (apply (cell_in_at c n nt); auto; now apply cell_in_of).
  assert (h' = h) by (apply (takes_hgt c n r col x h CX) in T; apply (takes_hgt c n r col x h' CX) in T'; eapply hgt_fun; eauto). subst h. rewrite (code_of _ _ _ _ _ CX).
  assert (L : forall k, (k < 2 * h')%nat -> figure_line (piece fname c) n r col k = nth k (fig_at fname (x_for c) nt col r) []) by (intros k K; now apply (piece_line n nt N HN r col h')).
  destruct G as [_ _ G1 G2 G3 G5 G4]. split.
  - rewrite L by lia. exact G1.
  - intros NC NN d v D [O1 (bar & i & dq & O2 & O3)]. cbn [peek] in O1, O2. rewrite CX in O1, O2. cbn [obind] in O1. injection O2 as <- <- <-. rewrite L by lia.
    assert (EV : elem (c_data x) d = Some v) by (destruct (elem (c_data x) d); [simpl in O1; congruence|discriminate]).
    destruct (G3 NC NN d v D O3 EV) as (s & SH & ST). exists s. split; [|exact ST]. unfold op_shown in SH. destruct (timer_code (c_code x) && (d =? 1)%nat); exact SH.
  - intros NN NF. rewrite L by lia. rewrite <- (G2 NN NF), (bar_on_barb n nt r col HN), (bar_on_barb n nt (S r) col HN), orb_true_iff. tauto.
  - intros NN NF -> W. rewrite L by lia. rewrite (bar_on_barb n nt (S r) col HN). apply (G5 NN NF eq_refl). intros v EV. apply W. cbn [peek]. rewrite CX. cbn [obind]. rewrite EV. reflexivity.
  - intros NF W k K. rewrite L by auto. apply (G4 NF); auto. intros j v J EV. apply W; auto. cbn [peek]. rewrite CX. cbn [obind]. rewrite EV. reflexivity.
Qed.
End Show.
