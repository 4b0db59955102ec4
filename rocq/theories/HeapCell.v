(** Placing an instruction, seen from the allocator. *)
From Coq Require Import Permutation.
From Verif Require Export HeapJson.
From Coq Require Import Lia List.
Import ListNotations.
Open Scope nat_scope.

Lemma wp_forn (f : nat -> H unit) (Inv : nat -> hst -> Prop) B n i s :
  (forall k s, k < n -> Inv k s -> wp (f (i + k)) (fun _ => Inv (S k)) B s) -> Inv 0 s -> wp (hfor n i f) (fun _ => Inv n) B s.
Proof.
  intros STEP K. set (l := repeat tt n). assert (LN : length l = n) by apply repeat_length. rewrite <- LN.
  apply wp_for with (Inv := fun d t => Inv (length d)); auto. intros d x t s1 EL K1.
  assert (length d < n) by (rewrite <- LN, <- EL, app_length; simpl; lia).
  eapply wp_mono; [apply STEP; auto| |intros u Z; exact Z]. intros u s2 K2. rewrite app_length. simpl. rewrite Nat.add_1_r. exact K2.
Qed.
Lemma wp_whilen (f : nat -> H bool) (Inv : hst -> Prop) B n i s :
  (forall k s, k < n -> Inv s -> wp (f (i + k)) (fun _ => Inv) B s) -> Inv s -> wp (hwhile n i f) (fun _ => Inv) B s.
Proof.
  intros STEP K. set (l := repeat tt n). assert (LN : length l = n) by apply repeat_length. rewrite <- LN.
  eapply wp_mono; [apply wp_while with (l := l) (Inv := fun d t => Inv) (St := Inv); auto| |intros u Z; exact Z].
  - intros d x t s1 EL K1. assert (length d < n) by (rewrite <- LN, <- EL, app_length; simpl; lia).
    eapply wp_mono; [apply STEP; auto| |intros u Z; exact Z]. intros [|] s2 K2; exact K2.
  - intros [|] s2 K2; exact K2.
Qed.

Definition tn (b rows cols : nat) (r1 : list trow) (p : nat) (c1 : list tcell) (x : tcell) (c2 : list tcell) (r2 : list trow) : tnet :=
  mk_tnet rows cols (Some (b, r1 ++ Some (p, c1 ++ x :: c2) :: r2)).
Definition rest (a : nat) (l1 l2 : list tnet) (R : list (nat * block)) (b rows cols : nat) (r1 : list trow) (p : nat) (c1 c2 : list tcell) (r2 : list trow) :=
  (a, B_nets (map hn l1 ++ mk_hnet rows cols (Some b) :: map hn l2)) :: (b, B_rows (map hr r1 ++ @cons ptr (Some p) (map hr r2)))
  :: flat_map own_row r1 ++ flat_map own_row r2 ++ flat_map own_cell c1 ++ flat_map own_cell c2 ++ flat_map own_net l1 ++ flat_map own_net l2 ++ R.
Lemma focus a l1 l2 R b rows cols r1 p c1 x c2 r2 :
  Permutation (nets a (l1 ++ tn b rows cols r1 p c1 x c2 r2 :: l2) ++ R)
    ((p, B_cells (map hc c1 ++ hc x :: map hc c2)) :: own_cell x ++ rest a l1 l2 R b rows cols r1 p c1 c2 r2).
Proof.
  unfold rest, nets. rewrite map_app. cbn [map]. change (hn (tn b rows cols r1 p c1 x c2 r2)) with (mk_hnet rows cols (Some b)).
  apply perm_cnt. intro e. cntn.
  change (own_net (tn b rows cols r1 p c1 x c2 r2)) with ((b, B_rows (map hr (r1 ++ Some (p, c1 ++ x :: c2) :: r2))) :: flat_map own_row (r1 ++ Some (p, c1 ++ x :: c2) :: r2)).
  rewrite (map_app hr). cbn [map]. change (hr (Some (p, c1 ++ x :: c2))) with (Some p). cntn.
  change (own_row (Some (p, c1 ++ x :: c2))) with ((p, B_cells (map hc (c1 ++ x :: c2))) :: flat_map own_cell (c1 ++ x :: c2)).
  rewrite (map_app hc). cbn [map]. rewrite (flat_map_app own_cell). cbn [flat_map].
  rewrite cnt_cons, !cnt_app. lia.
Qed.
Lemma locate n b rs r c : z_cells n = Some (b, rs) -> net_ok n -> r < z_rows n -> c < z_cols n ->
  exists r1 p c1 x c2 r2, n = tn b (z_rows n) (z_cols n) r1 p c1 x c2 r2 /\ length r1 = r /\ length c1 = c /\ cell_ok x
    /\ (forall x', cell_ok x' -> net_ok (tn b (z_rows n) (z_cols n) r1 p c1 x' c2 r2)).
Proof.
  intros E OK HR HC. unfold net_ok in OK. rewrite E in OK. destruct OK as [LR OK].
  destruct (nth_error rs r) as [y|] eqn:NR; [|apply nth_error_None in NR; lia].
  apply nth_error_split in NR as (r1 & r2 & -> & L1). apply Forall_app in OK as [O1 O2]. inversion O2 as [|? ? OY O3]; subst x l.
  destruct y as [[p cs]|]; [|destruct OY]. destruct OY as [LC OC].
  destruct (nth_error cs c) as [x|] eqn:NC; [|apply nth_error_None in NC; lia].
  apply nth_error_split in NC as (c1 & c2 & -> & L2). apply Forall_app in OC as [P1 P2]. inversion P2 as [|x0 l0 OX0 P3]; subst x0 l0.
  exists r1, p, c1, x, c2, r2. unfold tn. split; [destruct n; simpl in *; rewrite E; reflexivity|]. split; auto. split; auto. split; auto.
  intros x' OX. unfold net_ok. simpl. split; [rewrite app_length in *; simpl in *; lia|]. apply Forall_app. split; auto. constructor; auto.
  simpl. split; [rewrite !app_length in *; simpl in *; lia|]. apply Forall_app. auto.
Qed.
Definition cell_at (n : tnet) (r c : nat) : option tcell :=
  match z_cells n with
  | Some (_, rs) => match nth_error rs r with Some (Some (_, cs)) => nth_error cs c | _ => None end
  | None => None
  end.
Definition bare (n : tnet) (r c : nat) : Prop := exists x, cell_at n r c = Some x /\ y_data x = None.
Lemma at_same b rows cols r1 p c1 x c2 r2 : cell_at (tn b rows cols r1 p c1 x c2 r2) (length r1) (length c1) = Some x.
Proof. unfold cell_at, tn. simpl. rewrite nth_mid. apply nth_mid. Qed.
Lemma at_other b rows cols r1 p c1 x c2 r2 x' r c : r <> length r1 ->
  cell_at (tn b rows cols r1 p c1 x' c2 r2) r c = cell_at (tn b rows cols r1 p c1 x c2 r2) r c.
Proof.
  intro N. unfold cell_at, tn. simpl. destruct (Nat.lt_ge_cases r (length r1)).
  - rewrite !nth_error_app1 by auto. reflexivity.
  - rewrite !nth_error_app2 by auto. destruct (r - length r1) eqn:E; [lia|]. reflexivity.
Qed.

Section Place.
Variable G : nat -> bool.
Variables (a b rows cols : nat) (l1 l2 : list tnet) (R : list (nat * block)) (g : hctx).
Hypothesis EG : g_net g = Some a.
Let st (n : tnet) (s : hst) : Prop := s_g s = g /\ z_rows n = rows /\ z_cols n = cols /\ (exists rs, z_cells n = Some (b, rs)) /\ net_ok n
  /\ good s (nets a (l1 ++ n :: l2) ++ R).

Lemma st_locate n s r c : st n s -> r < rows -> c < cols ->
  exists r1 p c1 x c2 r2, n = tn b rows cols r1 p c1 x c2 r2 /\ length r1 = r /\ length c1 = c /\ cell_ok x /\ cell_at n r c = Some x
    /\ good s ((p, B_cells (map hc c1 ++ hc x :: map hc c2)) :: own_cell x ++ rest a l1 l2 R b rows cols r1 p c1 c2 r2)
    /\ (forall x' s', s_g s' = g -> cell_ok x' ->
         good s' ((p, B_cells (map hc c1 ++ hc x' :: map hc c2)) :: own_cell x' ++ rest a l1 l2 R b rows cols r1 p c1 c2 r2) ->
         st (tn b rows cols r1 p c1 x' c2 r2) s').
Proof.
  intros (E & ER & EC & (rs & EZ) & OK & K) HR HC.
  destruct (locate n b rs r c) as (r1 & p & c1 & x & c2 & r2 & EN & L1 & L2 & OX & OO); auto; try lia.
  rewrite ER, EC in EN, OO. exists r1, p, c1, x, c2, r2. split; auto. split; auto. split; auto. split; auto.
  split; [rewrite EN, <- L1, <- L2; apply at_same|]. split.
  - eapply good_perm; [exact K|]. rewrite EN. apply focus.
  - intros x' s' E' OX' K'. split; auto. split; auto. split; auto. split; [eexists; reflexivity|]. split; [apply OO; auto|].
    eapply good_perm; [exact K'|]. apply Permutation_sym, focus.
Qed.
Lemma wp_at r1 p c1 (y : hcell) c2 r2 W (Q : hcell -> hst -> Prop) B s : s_g s = g ->
  good s ((p, B_cells (map hc c1 ++ y :: map hc c2)) :: W ++ rest a l1 l2 R b rows cols r1 p c1 c2 r2) -> Q y s ->
  wp (at_cell (length l1) (length r1) (length c1)) Q B s.
Proof.
  intros E K Z. unfold at_cell. apply wp_bind. eapply wp_get_net; [rewrite E; eauto|exact K|right; apply in_or_app; right; left; reflexivity| |].
  { rewrite <- (map_length hn l1). apply nth_mid. }
  apply wp_bind. simpl. eapply wp_get_row; [exact K|right; apply in_or_app; right; right; left; reflexivity| |].
  { rewrite <- (map_length hr r1). apply nth_mid. }
  eapply wp_get_cell; [exact K|left; reflexivity| |exact Z]. rewrite <- (map_length hc c1). apply nth_mid.
Qed.
Lemma wp_put r1 p c1 (y y' : hcell) c2 r2 W (Q : unit -> hst -> Prop) B s : s_g s = g ->
  good s ((p, B_cells (map hc c1 ++ y :: map hc c2)) :: W ++ rest a l1 l2 R b rows cols r1 p c1 c2 r2) ->
  (forall s', s_g s' = g -> good s' ((p, B_cells (map hc c1 ++ y' :: map hc c2)) :: W ++ rest a l1 l2 R b rows cols r1 p c1 c2 r2) -> Q tt s') ->
  wp (put_cell (length l1) (length r1) (length c1) y') Q B s.
Proof.
  intros E K Z. unfold put_cell. apply wp_bind. eapply wp_get_net; [rewrite E; eauto|exact K|right; apply in_or_app; right; left; reflexivity| |].
  { rewrite <- (map_length hn l1). apply nth_mid. }
  apply wp_bind. simpl. eapply wp_get_row; [exact K|right; apply in_or_app; right; right; left; reflexivity| |].
  { rewrite <- (map_length hr r1). apply nth_mid. }
  eapply wp_set_cell; [exact K| |]. { rewrite <- (map_length hc c1). apply nth_mid. }
  intros s' E' _ K'. apply Z; [congruence|]. rewrite <- (map_length hc c1), put_mid in K'. exact K'.
Qed.

Lemma span_free_ok n row c r s B : st n s -> row + r < rows -> c < cols -> wp (span_free (length l1) row c r) (fun _ => st n) B s.
Proof.
  intros ST HR HC. destruct (st_locate _ _ (row + r) c ST HR HC) as (r1 & p & c1 & x & c2 & r2 & EN & L1 & L2 & OX & AT & K & OUT).
  unfold span_free. apply wp_bind. rewrite <- L1, <- L2. eapply wp_at; [apply ST|exact K|]. apply wp_ret. exact ST.
Qed.
Lemma span_wipe_ok n row c r s B : st n s -> row + r < rows -> c < cols ->
  (forall k, k < r -> bare n (row + k) c) ->
  wp (span_wipe (length l1) row c r) (fun _ s' => exists n', st n' s' /\ forall k, k < S r -> bare n' (row + k) c) B s.
Proof.
  intros ST HR HC BR. destruct (st_locate _ _ (row + r) c ST HR HC) as (r1 & p & c1 & x & c2 & r2 & EN & L1 & L2 & OX & AT & K & OUT).
  unfold span_wipe. apply wp_bind. pose proof ST as (EGS & _). subst c. rewrite <- L1. eapply wp_at; [exact EGS|exact K|].
  simpl. unfold cell_ok in OX. destruct (y_data x) as [[q l]|] eqn:ED; simpl.
  - destruct OX as [LL LP]. apply wp_bind.
    eapply wp_free_data with (a := q) (l := l) (R := (p, B_cells (map hc c1 ++ hc x :: map hc c2)) :: rest a l1 l2 R b rows cols r1 p c1 c2 r2).
    + simpl. rewrite ED. reflexivity.
    + simpl. auto.
    + eapply good_perm; [exact K|]. unfold own_cell. rewrite ED. perm.
    + intros s1 E1 _ K1. eapply wp_put with (W := []); [congruence|exact K1|]. intros s2 E2 K2.
      exists (tn b rows cols r1 p c1 (mk_tcell (y_code x) 0 None) c2 r2). split; [apply OUT; auto; exact Logic.I|].
      intros k HK. destruct (Nat.eq_dec k r) as [->|NK].
      * exists (mk_tcell (y_code x) 0 None). rewrite <- L1, at_same. auto.
      * destruct (BR k) as (z & Z1 & Z2); [lia|]. exists z. split; auto. rewrite EN in Z1. rewrite <- Z1. apply at_other. lia.
  - apply wp_ret. exists n. split; auto. intros k HK. destruct (Nat.eq_dec k r) as [->|NK]; [|apply BR; lia]. exists x. auto.
Qed.
Lemma span_code_ok n row c r i s B : st n s -> row + r < rows -> c < cols ->
  wp (span_code i (length l1) row c r) (fun _ s' => exists n', st n' s') B s.
Proof.
  intros ST HR HC. destruct (st_locate _ _ (row + r) c ST HR HC) as (r1 & p & c1 & x & c2 & r2 & EN & L1 & L2 & OX & AT & K & OUT).
  unfold span_code. pose proof ST as (EGS & _). apply wp_bind. rewrite <- L1, <- L2. eapply wp_at; [exact EGS|exact K|].
  eapply wp_put; [exact EGS|exact K|]. intros s2 E2 K2. exists (tn b rows cols r1 p c1 (mk_tcell i (y_dq x) (y_data x)) c2 r2).
  apply OUT; auto.
Qed.
Lemma blank_ok n r c y s B : st n s -> r < rows -> c < cols -> bare n r c ->
  wp (put_cell (length l1) r c (hc (mk_tcell (y_code y) (y_dq y) None)))
     (fun _ s' => exists n', st n' s' /\ forall r', bare n r' c -> bare n' r' c) B s.
Proof.
  intros ST HR HC (x0 & A0 & D0). destruct (st_locate _ _ r c ST HR HC) as (r1 & p & c1 & x & c2 & r2 & EN & L1 & L2 & OX & AT & K & OUT).
  pose proof ST as (EGS & _). rewrite AT in A0. injection A0 as <-. rewrite <- L1, <- L2. eapply wp_put; [exact EGS|exact K|]. intros s2 E2 K2.
  exists (tn b rows cols r1 p c1 (mk_tcell (y_code y) (y_dq y) None) c2 r2). split.
  - apply OUT; auto; [exact Logic.I|]. unfold own_cell in K2. rewrite D0 in K2. exact K2.
  - intros r' (z & Z1 & Z2). destruct (Nat.eq_dec r' (length r1)) as [->|NR].
    + eexists. rewrite at_same. split; reflexivity.
    + exists z. split; auto. rewrite EN in Z1. rewrite <- Z1. apply at_other. auto.
Qed.
Lemma fill_ok n r c i dq q s B : s_g s = g -> z_rows n = rows -> z_cols n = cols -> (exists rs, z_cells n = Some (b, rs)) -> net_ok n ->
  good s ((q, B_data (repeat V_other dq)) :: nets a (l1 ++ n :: l2) ++ R) -> r < rows -> c < cols -> bare n r c -> 0 < dq ->
  wp (put_cell (length l1) r c (mk_hcell i dq (Some q))) (fun _ s' => exists n', st n' s') B s.
Proof.
  intros EGS ER EC EZ OK K HR HC (x0 & A0 & D0) HD. destruct EZ as (rs & EZ).
  destruct (locate n b rs r c) as (r1 & p & c1 & x & c2 & r2 & EN & L1 & L2 & OX & OO); auto; try lia. rewrite ER, EC in EN, OO.
  assert (AT : cell_at n r c = Some x) by (rewrite EN, <- L1, <- L2; apply at_same). rewrite AT in A0. injection A0 as <-.
  rewrite <- L1, <- L2. eapply wp_put with (W := [(q, B_data (repeat V_other dq))]) (y := hc x) (p := p) (c2 := c2) (r2 := r2); [exact EGS| |].
  { eapply good_perm; [exact K|]. rewrite EN. pose proof (focus a l1 l2 R b rows cols r1 p c1 x c2 r2) as F. unfold own_cell in F. rewrite D0 in F.
    rewrite F. simpl. apply perm_swap. }
  intros s2 E2 K2. set (x' := mk_tcell i dq (Some (q, repeat V_other dq))). exists (tn b rows cols r1 p c1 x' c2 r2).
  assert (OX' : cell_ok x') by (split; simpl; [apply repeat_length|auto]).
  split; auto. split; auto. split; auto. split; [eexists; reflexivity|]. split; [apply OO; auto|].
  eapply good_perm; [exact K2|]. rewrite (focus a l1 l2 R b rows cols r1 p c1 x' c2 r2). unfold x' at 2, own_cell at 1. cbn [y_data].
  replace (flat_map own_val (repeat V_other dq)) with (@nil (nat * block)) by (clear; induction dq; simpl; auto). apply Permutation_refl.
Qed.

Lemma fn_cell_ok n row c i cells dq s B : st n s -> row < rows -> c < cols -> 1 <= cells -> row + cells <= rows -> (length l1 < g_nets g) ->
  wp (h_fn_cell G (length l1) row c i cells dq) (fun _ s' => exists n', st n' s') B s.
Proof.
  intros ST HR HC H1 H2 HN. unfold h_fn_cell. pose proof ST as (EGS & ER & EC & (rs & EZ) & OK & K).
  apply wp_bind, wp_getg. rewrite EGS. apply Nat.leb_gt in HN. rewrite HN. apply wp_bind.
  eapply wp_get_net; [rewrite EGS; eauto|exact K|left; reflexivity|apply nth_map_mid|]. simpl. rewrite ER, EC.
  assert (Z1 : (rows <=? row) = false) by (apply Nat.leb_gt; auto). rewrite Z1. assert (Z2 : (cols <=? c) = false) by (apply Nat.leb_gt; auto). rewrite Z2.
  assert (Z3 : (rows - row <? cells) = false) by (apply Nat.ltb_ge; lia). rewrite Z3. clear Z1 Z2 Z3.
  apply wp_bind. eapply wp_mono; [apply wp_whilen with (Inv := st n); [|exact ST]| |intros u Z; exact Z].
  { intros k s1 HK ST1. simpl. apply span_free_ok; auto. lia. }
  intros ok s1 ST1. destruct ok; simpl; [|apply wp_ret; eauto]. clear s ST EGS K. 
  apply wp_bind. eapply wp_mono; [apply wp_forn with (Inv := fun j s => exists n', st n' s /\ forall k, k < j -> bare n' (row + k) c)| |intros u Z; exact Z].
  { intros k s2 HK (n' & ST2 & BR). simpl. apply span_wipe_ok with (n := n'); auto. lia. }
  { exists n. split; auto. intros k HK. lia. }
  intros u s2 (n2 & ST2 & BR). assert (B0 : bare n2 row c) by (replace row with (row + 0) by lia; apply BR; lia).
  pose proof B0 as (x0 & A0 & D0).
  destruct (st_locate _ _ row c ST2 HR HC) as (r1 & p & c1 & x & c2 & r2 & EN & L1 & L2 & OX & AT & K2 & OUT).
  rewrite AT in A0. injection A0 as <-. pose proof ST2 as (EG2 & _).
  apply wp_bind. rewrite <- L1 at 1. rewrite <- L2 at 1. eapply wp_at; [exact EG2|exact K2|]. simpl. rewrite D0. simpl.
  apply wp_bind. change (mk_hcell i dq None) with (hc (mk_tcell (y_code (mk_tcell i dq None)) (y_dq (mk_tcell i dq None)) None)).
  eapply wp_mono; [apply blank_ok with (n := n2); auto| |intros u0 Z; exact Z]. intros u1 s3 (n3 & ST3 & BR3).
  destruct (dq =? 0) eqn:EQ.
  { apply wp_bind. eapply wp_mono; [apply blank_ok with (n := n3) (y := mk_tcell i dq None); auto| |intros u0 Z; exact Z].
    intros u2 s4 (n4 & ST4 & _). apply wp_ret. eauto. }
  apply Nat.eqb_neq in EQ. pose proof ST3 as (EG3 & ER3 & EC3 & EZ3 & OK3 & K3). apply wp_bind. eapply wp_alloc; [exact K3| |].
  - intros s4 E4 _ _ K4. apply wp_bind. eapply wp_mono; [eapply fill_ok with (n := n3); auto; [congruence|lia]| |intros u0 Z; exact Z].
    intros u2 s5 (n5 & ST5). simpl is_nil. cbv iota. apply wp_bind.
    eapply wp_mono; [apply wp_forn with (Inv := fun j s => exists n', st n' s)| |intros u0 Z; exact Z].
    { intros k s6 HK (n' & ST6). apply span_code_ok with (n := n'); auto. lia. }
    { eauto. }
    intros u3 s6 (n6 & ST6). apply wp_bind. assert (Z : (row + cells =? 0) = false) by (apply Nat.eqb_neq; lia). rewrite Z. clear Z.
    destruct (st_locate _ _ (row + cells - 1) c ST6) as (r1' & p' & c1' & x' & c2' & r2' & EN' & L1' & L2' & _ & _ & K6 & _); auto; [lia|].
    rewrite <- L1', <- L2'. eapply wp_at; [apply ST6|exact K6|]. apply wp_ret. eauto.
  - intros s4 E4 _ _ K4. apply wp_bind.
    assert (ST4 : st n3 s4) by (split; [congruence|split; [auto|split; [auto|split; [auto|split; [auto|exact K4]]]]]).
    change (mk_hcell i dq None) with (hc (mk_tcell (y_code (mk_tcell i dq None)) (y_dq (mk_tcell i dq None)) None)).
    eapply wp_mono; [apply blank_ok with (n := n3); auto| |intros u0 Z; exact Z].
    intros u2 s5 (n5 & ST5 & BR5). simpl is_nil. cbv iota. apply wp_bind.
    eapply wp_mono; [apply wp_forn with (Inv := fun j s => exists n', st n' s /\ forall k, k < cells -> bare n' (row + k) c)| |intros u0 Z; exact Z].
    { intros k s6 HK (n' & ST6 & BR6). simpl. change (mk_hcell I_INV 0 None) with (hc (mk_tcell (y_code (mk_tcell I_INV 0 None)) (y_dq (mk_tcell I_INV 0 None)) None)).
      eapply wp_mono; [apply blank_ok with (n := n'); auto; lia| |intros u0 Z; exact Z]. intros u3 s7 (n7 & ST7 & BR7). exists n7. split; auto. }
    { exists n5. split; auto. }
    intros u3 s6 (n6 & ST6 & _). apply wp_ret. eauto.
Qed.
End Place.

(** In a program. *)
Lemma wp_fn_cell G a nt row c i cells dq l R s : g_net (s_g s) = Some a -> g_nets (s_g s) = length l -> Forall net_ok l -> good s (nets a l ++ R) ->
  1 <= cells ->
  wp (h_fn_cell G nt row c i cells dq) (fun _ s' => s_g s' = s_g s /\ exists l', length l' = length l /\ Forall net_ok l' /\ good s' (nets a l' ++ R)
        /\ (Exists hollow_t l' -> Exists hollow_t l)) (hollow_bad l) s.
Proof.
  intros EG EN OK K HC.
  assert (SAME : s_g s = s_g s /\ exists l', length l' = length l /\ Forall net_ok l' /\ good s (nets a l' ++ R) /\ (Exists hollow_t l' -> Exists hollow_t l)).
  { split; auto. exists l. auto. }
  destruct (Nat.le_gt_cases (length l) nt) as [LN|LN].
  { unfold h_fn_cell. apply wp_bind, wp_getg. rewrite EN. apply Nat.leb_le in LN. rewrite LN. apply wp_ret. exact SAME. }
  destruct (nth_error l nt) as [n|] eqn:NI; [|apply nth_error_None in NI; lia].
  apply nth_error_split in NI as (l1 & l2 & -> & L1). subst nt.
  assert (ON : net_ok n) by (rewrite Forall_app in OK; destruct OK as [_ O2]; inversion O2; auto).
  destruct (z_cells n) as [[b rs]|] eqn:EC.
  - destruct (Nat.le_gt_cases (z_rows n) row) as [L2|L2]; [|destruct (Nat.le_gt_cases (z_cols n) c) as [L3|L3]; [|destruct (Nat.le_gt_cases (row + cells) (z_rows n)) as [L4|L4]]].
    3:{ eapply wp_mono; [eapply fn_cell_ok with (n := n) (b := b) (rows := z_rows n) (cols := z_cols n) (l1 := l1) (l2 := l2) (R := R) (g := s_g s) (a := a) (B := hollow_bad (l1 ++ n :: l2)); auto|  |].
        - split; auto. split; auto. split; auto. split; [eauto|]. auto.
        - rewrite EN. exact LN.
        - intros b0 s' (n' & E' & _ & _ & (rs' & EZ') & OK' & K'). split; auto. exists (l1 ++ n' :: l2). rewrite !app_length. simpl. split; auto.
          split. { rewrite Forall_app in *. destruct OK as [O1 O2]. inversion O2; subst. auto. }
          split; auto. rewrite !Exists_app. intros [Z|Z]; auto. inversion Z as [? ? Z1|? ? Z1]; subst; [destruct Z1; congruence|]. right. right. auto.
        - intros u Z. exact Z. }
    all: unfold h_fn_cell; apply wp_bind, wp_getg; rewrite EN; apply Nat.leb_gt in LN; rewrite LN; apply wp_bind;
      (eapply wp_get_net; [eauto|exact K|left; reflexivity|apply nth_map_mid|]); simpl.
    + apply Nat.leb_le in L2. rewrite L2. apply wp_ret. exact SAME.
    + apply Nat.leb_gt in L2. rewrite L2. apply Nat.leb_le in L3. rewrite L3. apply wp_ret. exact SAME.
    + assert (Z : (z_rows n - row <? cells) = true) by (apply Nat.ltb_lt; lia). rewrite Z.
      apply Nat.leb_gt in L2. rewrite L2. apply Nat.leb_gt in L3. rewrite L3. apply wp_ret. exact SAME.
  - unfold h_fn_cell. apply wp_bind, wp_getg. rewrite EN. apply Nat.leb_gt in LN. rewrite LN. apply wp_bind.
    eapply wp_get_net; [eauto|exact K|left; reflexivity|apply nth_map_mid|]. simpl.
    destruct (z_rows n <=? row) eqn:L2; [apply wp_ret; exact SAME|]. destruct (z_cols n <=? c) eqn:L3; [apply wp_ret; exact SAME|].
    destruct (z_rows n - row <? cells) eqn:L4; [apply wp_ret; exact SAME|]. apply Nat.leb_gt in L2.
    destruct cells as [|k]; [lia|]. simpl. apply wp_bind, wp_bind. unfold span_free. apply wp_bind. unfold at_cell. apply wp_bind.
    eapply wp_get_net; [eauto|exact K|left; reflexivity|apply nth_map_mid|]. apply wp_bind. simpl. rewrite EC. simpl. unfold get_row. apply wp_bind. red. simpl.
    split; auto. apply Exists_app. right. left. split; auto. lia.
Qed.
