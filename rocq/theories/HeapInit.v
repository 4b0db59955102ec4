(** Building the machine. *)
From Coq Require Import Permutation.
From Verif Require Export HeapEnd.
From Coq Require Import Lia List.
Import ListNotations.
Open Scope nat_scope.

Section Grant.
Variable G : nat -> bool.

(** [k] requests, all granted; [k] requests granted, then one refused *)
Definition taken (s s' : hst) (k : nat) : Prop := s_n s' = s_n s + k /\ forall j, j < k -> G (s_n s + j) = true.
Definition refused (s s' : hst) (k : nat) : Prop := s_n s' = s_n s + S k /\ G (s_n s + k) = false /\ forall j, j < k -> G (s_n s + j) = true.
Lemma taken_0 s s' : s_n s' = s_n s -> taken s s' 0.
Proof. intro E. split; [lia|]. intros; lia. Qed.
Lemma taken_app s s1 s' k k' n : taken s s1 k -> taken s1 s' k' -> n = k + k' -> taken s s' n.
Proof.
  intros [A B] [C D] ->. split; [lia|]. intros j J. destruct (Nat.lt_ge_cases j k); auto. replace (s_n s + j) with (s_n s1 + (j - k)) by lia. apply D. lia.
Qed.
Lemma taken_refused s s1 s' k k' n : taken s s1 k -> refused s1 s' k' -> n = k + k' -> refused s s' n.
Proof.
  intros [A B] (C & D & F) ->. split; [lia|]. split; [rewrite <- D; f_equal; lia|]. intros j J. destruct (Nat.lt_ge_cases j k); auto.
  replace (s_n s + j) with (s_n s1 + (j - k)) by lia. apply F. lia.
Qed.
Lemma taken_1 s s' : s_n s' = S (s_n s) -> G (s_n s) = true -> taken s s' 1.
Proof. intros E T. split; [lia|]. intros j J. replace (s_n s + j) with (s_n s) by lia. auto. Qed.
Lemma refused_0 s s' : s_n s' = S (s_n s) -> G (s_n s) = false -> refused s s' 0.
Proof. intros E T. split; [lia|]. split; [rewrite Nat.add_0_r; auto|]. intros; lia. Qed.
Lemma taken_n s s1 s' k : taken s s1 k -> s_n s' = s_n s1 -> taken s s' k.
Proof. intros [A B] E. split; [congruence|auto]. Qed.
Lemma refused_n s s1 s' k : refused s s1 k -> s_n s' = s_n s1 -> refused s s' k.
Proof. intros (A & B & C) E. split; [congruence|auto]. Qed.

Definition fresh_net (rows cols : nat) (n : tnet) : Prop :=
  exists b rs, n = mk_tnet rows cols (Some (b, rs)) /\ length rs = rows /\ Forall (fresh_row cols) rs.
Lemma fresh_rows_len cols rs : Forall (fresh_row cols) rs -> length (flat_map own_row rs) = length rs.
Proof.
  induction 1 as [|x rs [a ->] F IH]; simpl; auto. rewrite own_new. simpl. rewrite IH. reflexivity.
Qed.
Lemma fresh_ok rows cols n : fresh_net rows cols n -> net_ok n.
Proof.
  intros (b & rs & -> & L & F). split; simpl; auto. eapply Forall_impl; [|exact F]. intros r [a ->]. simpl. rewrite repeat_length. split; auto. apply ok_new.
Qed.
Lemma fresh_nets_len rows cols l : Forall (fresh_net rows cols) l -> length (flat_map own_net l) = length l * S rows.
Proof.
  induction 1 as [|n l (b & rs & -> & L & F) _ IH]; simpl; auto. rewrite app_length, IH, (fresh_rows_len cols) by auto. lia.
Qed.
Lemma fresh_not_hollow rows cols l : Forall (fresh_net rows cols) l -> ~ Exists hollow_t l.
Proof.
  intros F Z. apply Exists_exists in Z as (n & I & _ & E). rewrite Forall_forall in F. destruct (F n I) as (b & rs & -> & _). discriminate.
Qed.

Lemma new_rows_ok nt a b rows cols W1 W2 X s B : length W1 = nt -> g_net (s_g s) = Some a ->
  good s ((a, B_nets (W1 ++ mk_hnet rows cols (Some b) :: W2)) :: (b, B_rows (repeat None rows)) :: X) ->
  wp (hwhile rows 0 (new_row G nt cols))
     (fun ok s' => s_g s' = s_g s /\
        if ok then exists rs, length rs = rows /\ Forall (fresh_row cols) rs /\ taken s s' rows
          /\ good s' ((a, B_nets (W1 ++ mk_hnet rows cols (Some b) :: W2)) :: (b, B_rows (map hr rs)) :: flat_map own_row rs ++ X)
        else exists Y, length Y < rows /\ refused s s' (length Y) /\ exists y,
          good s' ((a, B_nets (W1 ++ mk_hnet rows cols (Some b) :: W2)) :: y :: Y ++ X)) B s.
Proof.
  intros EW EG K. subst nt. set (N := (a, B_nets (W1 ++ mk_hnet rows cols (Some b) :: W2))) in *.
  set (l := repeat tt rows). assert (LK : length l = rows) by apply repeat_length. rewrite <- LK at 1.
  eapply wp_mono; [apply wp_while with (l := l) (i := 0)
    (Inv := fun d t s' => s_g s' = s_g s /\ taken s s' (length d) /\ exists rs, length rs = length d /\ Forall (fresh_row cols) rs
       /\ good s' (N :: (b, B_rows (map hr rs ++ repeat None (length t))) :: flat_map own_row rs ++ X))
    (St := fun s' => s_g s' = s_g s /\ exists Y, length Y < rows /\ refused s s' (length Y) /\ exists y, good s' (N :: y :: Y ++ X))| |intros u0 Z0; exact Z0].
  - intros d v t s1 EL (E1 & T1 & rs & L1 & F1 & K1). simpl. cbn [length] in K1. unfold new_row.
    assert (NM : nth_error (map hr rs ++ repeat None (S (length t))) (length d) = Some None).
    { rewrite <- L1, <- (map_length hr rs). apply nth_mid. }
    assert (PM : forall y, put (map hr rs ++ repeat None (S (length t))) (length d) y = map hr rs ++ y :: repeat None (length t)).
    { intro y. rewrite <- L1, <- (map_length hr rs). apply put_mid. }
    apply wp_bind. eapply wp_alloc; [exact K1| |].
    + intros s2 E2 N2 GT K2. apply wp_bind. eapply wp_get_net; [rewrite E2, E1; exact EG|exact K2|right; left; reflexivity|apply nth_mid|].
      apply wp_bind. simpl w_cells.
      eapply wp_set_row with (L := (s_n s1, B_cells (repeat cell_new cols)) :: N :: flat_map own_row rs ++ X); [|exact NM|].
      { eapply good_perm; [exact K2|]. permt. }
      intros s3 E3 N3 K3. apply wp_ret. simpl. split; [congruence|].
      split. { eapply taken_app; [exact T1|apply taken_1; [rewrite N3; exact N2|exact GT]|]. rewrite app_length. simpl. lia. }
      exists (rs ++ [Some (s_n s1, repeat tnew cols)]).
      rewrite !app_length. simpl. split; [lia|]. split; [apply Forall_app; split; auto; constructor; auto; eexists; reflexivity|].
      rewrite PM in K3. rewrite map_app, <- app_assoc. simpl. eapply good_perm; [exact K3|]. permt. rewrite hc_new, own_new. cntn. lia.
    + intros s2 E2 N2 GF K2. apply wp_bind. eapply wp_get_net; [rewrite E2, E1; exact EG|exact K2|left; reflexivity|apply nth_mid|].
      apply wp_bind. simpl w_cells.
      eapply wp_set_row with (L := N :: flat_map own_row rs ++ X); [eapply good_perm; [exact K2|apply perm_swap]|exact NM|]. intros s3 E3 N3 K3. apply wp_ret. simpl.
      split; [congruence|]. exists (flat_map own_row rs). rewrite (fresh_rows_len cols) by auto. rewrite L1. split; [rewrite <- LK, <- EL, app_length; simpl; lia|]. split.
      * eapply taken_refused; [exact T1|apply refused_0; [rewrite N3; exact N2|exact GF]|lia].
      * eexists. eapply good_perm; [exact K3|]. apply perm_swap.
  - split; auto. split; [apply taken_0; auto|]. exists []. split; auto. split; auto. simpl. rewrite LK. exact K.
  - intros ok s' Q. destruct ok.
    + destruct Q as (E & T & rs & L & F & KK). simpl in KK. rewrite app_nil_r in KK. split; auto. exists rs. rewrite LK in *. auto.
    + exact Q.
Qed.

Lemma new_net_ok nt a rows cols W1 w W2 X s B : length W1 = nt -> g_net (s_g s) = Some a -> good s ((a, B_nets (W1 ++ w :: W2)) :: X) ->
  wp (new_net G rows cols nt)
     (fun ok s' => s_g s' = s_g s /\
        if ok then exists n, fresh_net rows cols n /\ taken s s' (S rows) /\ good s' ((a, B_nets (W1 ++ hn n :: W2)) :: own_net n ++ X)
        else exists Y W, length Y < S rows /\ refused s s' (length Y) /\ good s' ((a, B_nets W) :: Y ++ X)) B s.
Proof.
  intros EW EG K. subst nt. unfold new_net. apply wp_bind. eapply wp_set_net; [exact EG|exact K|apply nth_mid|].
  intros s1 E1 N1 K1. rewrite put_mid in K1. apply wp_bind. eapply wp_alloc; [exact K1| |].
  - intros s2 E2 N2 GT K2. apply wp_bind.
    eapply wp_set_net with (L := (s_n s1, B_rows (repeat None rows)) :: X); [rewrite E2, E1; exact EG|eapply good_perm; [exact K2|apply perm_swap]|apply nth_mid|].
    intros s3 E3 N3 K3. rewrite put_mid in K3. simpl is_nil. cbv iota.
    assert (T3 : taken s s3 1) by (apply taken_1; [lia|rewrite <- N1; auto]).
    eapply wp_mono; [eapply new_rows_ok; [reflexivity|rewrite E3, E2, E1; exact EG|exact K3]| |intros u Z; exact Z].
    intros ok s4 (E4 & Q). split; [congruence|]. destruct ok.
    + destruct Q as (rs & L & F & T & K4). exists (mk_tnet rows cols (Some (s_n s1, rs))). split; [eexists; eexists; split; [reflexivity|]; auto|].
      split; [eapply taken_app; [exact T3|exact T|]; lia|]. exact K4.
    + destruct Q as (Y & LY & T & y & K4). exists (y :: Y). eexists. split; [simpl; lia|]. split; [eapply taken_refused; [exact T3|exact T|simpl; lia]|]. exact K4.
  - intros s2 E2 N2 GF K2. apply wp_bind. eapply wp_set_net; [rewrite E2, E1; exact EG|exact K2|apply nth_mid|].
    intros s3 E3 N3 K3. simpl is_nil. cbv iota. apply wp_ret. split; [congruence|]. exists []. eexists. split; [simpl; lia|]. split; [apply refused_0; [lia|rewrite <- N1; auto]|exact K3].
Qed.

Lemma new_nets_ok a nn rows cols X s B : g_net (s_g s) = Some a -> good s ((a, B_nets (repeat (mk_hnet 0 0 None) nn)) :: X) ->
  wp (hwhile nn 0 (new_net G rows cols))
     (fun ok s' => s_g s' = s_g s /\
        if ok then exists l, length l = nn /\ Forall (fresh_net rows cols) l /\ taken s s' (nn * S rows) /\ good s' (nets a l ++ X)
        else exists Y W, length Y < nn * S rows /\ refused s s' (length Y) /\ good s' ((a, B_nets W) :: Y ++ X)) B s.
Proof.
  intros EG K. set (l := repeat tt nn). assert (LK : length l = nn) by apply repeat_length. rewrite <- LK at 1.
  eapply wp_mono; [apply wp_while with (l := l) (i := 0)
    (Inv := fun d t s' => s_g s' = s_g s /\ taken s s' (length d * S rows) /\ exists ns, length ns = length d /\ Forall (fresh_net rows cols) ns
       /\ good s' ((a, B_nets (map hn ns ++ repeat (mk_hnet 0 0 None) (length t))) :: flat_map own_net ns ++ X))
    (St := fun s' => s_g s' = s_g s /\ exists Y W, length Y < nn * S rows /\ refused s s' (length Y) /\ good s' ((a, B_nets W) :: Y ++ X))| |intros u0 Z0; exact Z0].
  - intros d v t s1 EL (E1 & T1 & ns & L1 & F1 & K1). simpl. cbn [length] in K1.
    eapply wp_mono; [eapply new_net_ok with (W1 := map hn ns) (w := mk_hnet 0 0 None) (W2 := repeat (mk_hnet 0 0 None) (length t)); [rewrite map_length; exact L1|rewrite E1; exact EG|exact K1]| |intros u Z; exact Z].
    intros ok s2 (E2 & Q). destruct ok.
    + destruct Q as (n & FN & T2 & K2). split; [congruence|]. split. { eapply taken_app; [exact T1|exact T2|]. rewrite app_length. simpl. lia. }
      exists (ns ++ [n]). rewrite !app_length. simpl. split; [lia|]. split; [apply Forall_app; auto|]. rewrite map_app, <- app_assoc. simpl.
      eapply good_perm; [exact K2|]. rewrite flat_map_app. simpl. rewrite app_nil_r, <- !app_assoc. constructor. apply Permutation_app_swap_app.
    + destruct Q as (Y & W & LY & T2 & K2). split; [congruence|]. exists (Y ++ flat_map own_net ns), W.
      rewrite app_length, (fresh_nets_len rows cols) by auto. rewrite L1.
      split. { assert (S (length d) <= nn) by (rewrite <- LK, <- EL, app_length; simpl; lia). pose proof (Nat.mul_le_mono_r _ _ (S rows) H). simpl in *. lia. }
      split; [eapply taken_refused; [exact T1|exact T2|lia]|]. rewrite <- app_assoc. exact K2.
  - split; auto. split; [apply taken_0; auto|]. exists []. split; auto. split; auto. simpl. rewrite LK. exact K.
  - intros ok s' Q. destruct ok.
    + destruct Q as (E & T & ns & L & F & KK). simpl in KK. rewrite app_nil_r in KK. split; auto. exists ns. rewrite LK in *. auto.
    + exact Q.
Qed.

Definition regs_of (done : list (nat * nat)) (left : nat) : list treg := map Some done ++ repeat None left.
Lemma own_regs_of done left : own_regs (regs_of done left) = own_regs (map Some done).
Proof.
  unfold own_regs, regs_of. rewrite flat_map_app. replace (flat_map (ob B_raw) (repeat None left)) with (@nil (nat * block)); [apply app_nil_r|].
  induction left; simpl; auto.
Qed.
Lemma own_regs_len done : length (own_regs (map Some done)) = length done.
Proof. induction done as [|[x y] d IH]; simpl; auto. Qed.
Lemma put_op done left q n : put (map op (regs_of done (S left))) (length done) (Some q) = map op (regs_of (done ++ [(q, n)]) left).
Proof.
  unfold regs_of. rewrite !map_app. simpl. rewrite <- app_assoc. simpl. rewrite map_map. simpl. rewrite <- (map_length (fun x => Some (fst x)) done) at 1.
  apply put_mid.
Qed.
Lemma new_regs_ok a g X s B : s_g s = with_reg (map op (regs_of [] 14)) g -> good s X ->
  wp (hwhile 14 0 (new_reg G (reg_sizes a)))
     (fun ok s' => exists done, s_g s' = with_reg (map op (regs_of done (14 - length done))) g /\ good s' (own_regs (map Some done) ++ X) /\ length done <= 14 /\
        if ok then map snd done = reg_sizes a /\ taken s s' 14 else refused s s' (length done)) B s.
Proof.
  intros EG K. change 14 with (length (reg_sizes a)) at 1.
  eapply wp_mono; [apply wp_while with (l := reg_sizes a) (i := 0)
    (Inv := fun d t s' => exists done, s_g s' = with_reg (map op (regs_of done (length t))) g /\ good s' (own_regs (map Some done) ++ X)
        /\ map snd done = d /\ taken s s' (length d))
    (St := fun s' => exists done, s_g s' = with_reg (map op (regs_of done (14 - length done))) g /\ good s' (own_regs (map Some done) ++ X) /\ length done <= 14
        /\ refused s s' (length done))| |intros u0 Z0; exact Z0].
  - intros d x t s1 EL (done & E1 & K1 & M1 & T1). change (0 + length d) with (length d). unfold new_reg.
    assert (LD : length done = length d) by (rewrite <- M1; symmetry; apply map_length).
    assert (L14 : length d + S (length t) = 14) by (change 14 with (length (reg_sizes a)); rewrite <- EL, app_length; reflexivity).
    apply wp_bind. eapply wp_nth; [rewrite <- EL; apply nth_mid|]. apply wp_bind. eapply wp_alloc; [exact K1| |].
    + intros s2 E2 N2 GT K2. apply wp_bind, wp_modg, wp_ret. simpl.
      exists (done ++ [(s_n s1, x)]). split.
      { rewrite E2, E1. unfold with_reg, set_greg. simpl. rewrite <- LD. f_equal. apply put_op. }
      split. { apply good_g. eapply good_perm; [destruct s2; exact K2|]. unfold own_regs. rewrite map_app, flat_map_app. simpl. perm. }
      split; [rewrite map_app, M1; reflexivity|]. eapply taken_app; [exact T1|apply taken_1; [exact N2|exact GT]|rewrite app_length; simpl; lia].
    + intros s2 E2 N2 GF K2. apply wp_bind, wp_modg, wp_ret. cbn [is_nil negb s_g]. exists done. rewrite E2, E1.
      split. { replace (14 - length done) with (S (length t)) by lia. unfold with_reg, set_greg. simpl. rewrite <- LD. f_equal.
               unfold regs_of. rewrite !map_app. simpl. rewrite map_map. simpl. rewrite <- (map_length (fun x => Some (fst x)) done). apply put_mid. }
      split; [apply good_g; destruct s2; exact K2|]. split; [lia|]. rewrite LD. eapply taken_refused; [exact T1|apply refused_0; [exact N2|exact GF]|lia].
  - exists []. split; auto. split; auto. split; auto. apply taken_0. reflexivity.
  - intros ok s' Q. destruct ok; [|exact Q]. destruct Q as (done & E & KK & M & T). exists done.
    assert (LD : length done = 14) by (rewrite <- (map_length snd done), M; reflexivity). rewrite LD. auto.
Qed.

(** ladder_ctx_deinit on a machine that was not finished *)
Lemma deinit_part o m R (Q : unit -> hst -> Prop) B s : g_m (s_g s) = 0 -> g_c (s_g s) = 0 -> g_t (s_g s) = 0 -> g_nets (s_g s) = 0 ->
  g_net (s_g s) = op o -> rep m (s_g s) -> good s (ob B_nets o ++ own m ++ R) ->
  (forall s', good s' R -> Q tt s') -> wp h_deinit Q B s.
Proof.
  intros EM EC ET EN EO RP K Z. rewrite deinit_parts. apply wp_bind.
  eapply clear_memory_ok with (regs := v_reg m) (R := ob B_nets o ++ own_for (v_for m) ++ own_io (v_rd m) ++ own_io (v_wr m) ++ own_cr (v_cr m) ++ R); [apply RP| | |].
  { rewrite EM, EC, ET. split; [|split]; intro; lia. }
  { eapply good_perm; [exact K|]. unfold own. perm. }
  apply wp_bind. unfold h_clear_program. apply wp_bind, wp_getg. rewrite EN. apply wp_ret. apply wp_bind.
  eapply wp_mono with (Q := fun _ s' => s_g s' = s_g s /\ good s' (own m ++ R)) (B := B); [| |auto].
  - unfold h_free_networks. apply wp_bind, wp_getg. rewrite EO, EN. destruct o as [[a l]|]; simpl.
    + apply wp_bind, wp_ret. eapply wp_free; [exact K|]. intros s' E' _ K'. auto.
    + apply wp_ret. auto.
  - intros u s1 (E1 & K1). eapply tail_ok; [rewrite E1; exact RP|exact K1|]. intros s2 _ K2. auto.
Qed.

Definition io0 : io := mk_io None None None.
Definition part (regs : list treg) (cr : option (nat * ptr)) : mach := mk_mach regs None io0 io0 cr.
Definition whole_m (m : mach) : Prop := v_cr m <> None /\ (ol (v_for m) = [] -> v_for m = None).
Definition full (a : nat) (l : list tnet) (m : mach) (R : list (nat * block)) (s : hst) : Prop :=
  g_net (s_g s) = Some a /\ g_nets (s_g s) = length l /\ Forall net_ok l /\ rep m (s_g s)
  /\ all_sized (v_reg m) (g_m (s_g s)) (g_c (s_g s)) (g_t (s_g s)) /\ 0 < g_m (s_g s) /\ whole_m m /\ good s (nets a l ++ own m ++ R).
(** the same with any pointer to the networks *)
Lemma rep_part done n g p q : length done + n = 14 -> g = with_reg (map op (regs_of done n)) (set_gcron p (set_gnet q hctx0)) ->
  forall cr, p = op cr -> rep (part (regs_of done n) cr) g.
Proof.
  intros L -> cr ->. unfold rep. simpl.
  split; [unfold regs_of; rewrite app_length, map_length, repeat_length; exact L|]. split; auto. split; auto. split; auto. split; auto. split; auto. split; auto.
  split; [split; [reflexivity|]; split; [reflexivity|]; split; [reflexivity|constructor]|]. split; auto. split; auto. split; auto.
  split; auto. split; [reflexivity|]; split; [reflexivity|]; split; [reflexivity|constructor].
Qed.
Lemma sized_all ds m c t d r cc tt' : map snd ds = [m; m; c; c; c; c; t; t; t; t; cc; tt'; d; r] -> all_sized (regs_of ds 0) m c t.
Proof.
  intro E. do 14 (destruct ds as [|[? ?] ds]; [discriminate|]). destruct ds; [|discriminate]. simpl in E. injection E as -> -> -> -> -> -> -> -> -> -> -> -> -> ->.
  unfold all_sized, sized. split; [|split]; intros _; repeat split; simpl; eexists; eexists; (split; [reflexivity|apply Nat.le_refl]).
Qed.

(** ladder_ctx_init with networks *)
Definition init_post (a : hargs) (R : list (nat * block)) (s : hst) (ok : bool) (s' : hst) : Prop :=
  if ok then exists p l m, full p l m R s' /\ ~ Exists hollow_t l /\ exists c, v_cr m = Some (c, None)
  else exists k Y, G (s_n s + k) = false /\ (forall j, j < k -> G (s_n s + j) = true)
    /\ length Y = pred (min k (1 + j_nets a * S (j_rows a))) /\ good s' (Y ++ R).
Lemma init_ok a R s B : hargs_ok a = true -> j_init a = true -> good s R -> wp (h_init G a) (init_post a R s) B s.
Proof.
  intros OK JI K. unfold h_init. rewrite OK. simpl negb. cbv iota. apply wp_bind, wp_modg. apply wp_bind.
  match goal with |- wp _ _ _ ?x => set (s0 := x) end. assert (K0 : good s0 R) by exact K. assert (E0 : s_g s0 = hctx0) by reflexivity.
  assert (N0 : s_n s0 = s_n s) by reflexivity. clearbody s0.
  assert (FAIL : forall k Y o done cr s1, refused s0 s1 k -> length Y = pred (min k (1 + j_nets a * S (j_rows a))) -> length done <= 14 ->
    s_g s1 = with_reg (map op (regs_of done (14 - length done))) (set_gcron (op cr) (set_gnet (op o) hctx0)) ->
    good s1 (ob B_nets o ++ own (part (regs_of done (14 - length done)) cr) ++ Y ++ R) ->
    wp (run! h_deinit; hret false) (init_post a R s) B s1).
  { intros k Y o done cr s1 (_ & RF & RT) LY LD E1 K1. apply wp_bind.
    eapply deinit_part with (o := o); try (rewrite E1; reflexivity); [eapply rep_part; [|exact E1|reflexivity]; lia|exact K1|].
    intros s' K'. apply wp_ret. exists k, Y. rewrite <- N0. auto. }
  unfold init_body. rewrite JI. apply wp_bind, wp_bind. eapply wp_alloc; [exact K0| |].
  2:{ intros s1 E1 N1 GF K1. apply wp_bind, wp_modg. simpl is_nil. cbv iota. apply wp_ret. simpl negb. cbv iota. apply wp_ret.
      eapply FAIL with (k := 0) (Y := []) (o := None) (done := []) (cr := None); [apply refused_0; [exact N1|exact GF]|reflexivity|simpl; lia| |].
      - simpl. rewrite E1, E0. reflexivity.
      - apply good_g. destruct s1; exact K1. }
  intros s1 E1 N1 GT K1. apply wp_bind, wp_modg. simpl is_nil. cbv iota. rewrite E1, E0.
  match goal with |- wp _ _ _ ?x => set (s2 := x) end. set (p := s_n s0) in *.
  assert (K2 : good s2 ((p, B_nets (repeat (mk_hnet 0 0 None) (j_nets a))) :: R)) by exact K1.
  assert (E2 : s_g s2 = set_gnet (Some p) hctx0) by reflexivity. assert (T2 : taken s0 s2 1) by (apply taken_1; [exact N1|exact GT]).
  clearbody s2. clear s1 E1 N1 K1.
  eapply wp_mono; [eapply new_nets_ok with (a := p); [rewrite E2; reflexivity|exact K2]| |intros u Z; exact Z].
  intros b1 s3 (E3 & Q). rewrite E2 in E3. destruct b1.
  2:{ destruct Q as (Y & W & LY & T3 & K3). simpl negb. cbv iota. apply wp_ret.
      eapply FAIL with (k := 1 + length Y) (Y := Y) (o := Some (p, W)) (done := []) (cr := None); [eapply taken_refused; [exact T2|exact T3|reflexivity]|lia|simpl; lia| |].
      - rewrite E3. reflexivity.
      - exact K3. }
  destruct Q as (l & LL & FL & T3 & K3). simpl negb. cbv iota. apply wp_bind.
  assert (T3' : taken s0 s3 (1 + j_nets a * S (j_rows a))) by (eapply taken_app; [exact T2|exact T3|reflexivity]).
  eapply wp_mono; [eapply new_regs_ok with (g := set_gnet (Some p) hctx0); [rewrite E3; reflexivity|exact K3]| |intros u Z; exact Z].
  intros b2 s4 (done & E4 & K4 & LD & Q). destruct b2.
  2:{ simpl negb. cbv iota. apply wp_ret.
      eapply FAIL with (Y := flat_map own_net l) (o := Some (p, map hn l)) (done := done) (cr := None); [eapply taken_refused; [exact T3'|exact Q|reflexivity]| |exact LD| |].
      - rewrite (fresh_nets_len (j_rows a) (j_cols a)) by auto. rewrite LL. lia.
      - rewrite E4. reflexivity.
      - eapply good_perm; [exact K4|]. unfold own, part, nets. simpl v_reg. rewrite own_regs_of. cbn [v_for v_rd v_wr v_cr own_for own_io own_cr ob ol e_fn e_ini e_mod io0 flat_map app]. perm. }
  destruct Q as (MD & T4). simpl negb. cbv iota. apply wp_bind.
  assert (L14 : length done = 14) by (rewrite <- (map_length snd done), MD; reflexivity).
  eapply wp_alloc; [exact K4| |].
  2:{ intros s5 E5 N5 GF K5. apply wp_bind, wp_modg. simpl is_nil. cbv iota. apply wp_ret.
      eapply FAIL with (Y := flat_map own_net l) (o := Some (p, map hn l)) (done := done) (cr := None) (k := 1 + j_nets a * S (j_rows a) + 14); [| |lia| |].
      - eapply taken_refused; [eapply taken_app; [exact T3'|exact T4|reflexivity]|apply refused_0; [exact N5|exact GF]|lia].
      - rewrite (fresh_nets_len (j_rows a) (j_cols a)) by auto. rewrite LL. lia.
      - simpl. rewrite E5, E4. reflexivity.
      - apply good_g. eapply good_perm; [destruct s5; exact K5|]. unfold own, part, nets. simpl v_reg. rewrite own_regs_of. cbn [v_for v_rd v_wr v_cr own_for own_io own_cr ob ol e_fn e_ini e_mod io0 flat_map app]. perm. }
  intros s5 E5 N5 GT5 K5. apply wp_bind, wp_modg. simpl is_nil. cbv iota. apply wp_bind, wp_modg, wp_ret. apply wp_ret.
  exists p, l, (part (regs_of done 0) (Some (s_n s4, None))). split; [|split; [eapply fresh_not_hollow; eauto|eexists; reflexivity]].
  rewrite L14 in E4. simpl Nat.sub in E4. unfold full. simpl s_g. rewrite E5, E4.
  split; [reflexivity|]. split; [symmetry; exact LL|]. split; [eapply Forall_impl; [|exact FL]; intros; eapply fresh_ok; eauto|].
  split. { pose proof (rep_part done 0 _ (Some (s_n s4)) (Some p) ltac:(lia) eq_refl (Some (s_n s4, None)) eq_refl) as RP. exact RP. }
  split; [eapply sized_all; exact MD|]. split. { unfold hargs_ok in OK. repeat rewrite Bool.andb_true_iff in OK. destruct OK as [[[[[[[[A1 A2] A3] A4] A5] A6] A7] A8] A9]. apply Nat.leb_le in A5. exact A5. }
  split; [split; [discriminate|reflexivity]|]. apply good_g. eapply good_perm; [destruct s5; exact K5|]. unfold own, part, nets. simpl v_reg. rewrite own_regs_of. cbn [v_for v_rd v_wr v_cr own_for own_io own_cr ob ol e_fn e_ini e_mod io0 flat_map app optr]. perm.
Qed.

(** ladder_ctx_init without networks *)
Lemma init_bare a R s B : hargs_ok a = true -> j_init a = false -> (forall k, G k = true) -> good s R ->
  wp (h_init G a) (fun ok s' => ok = true /\ g_net (s_g s') = None /\ 0 < g_nets (s_g s') /\ exists m R', rep m (s_g s')
     /\ all_sized (v_reg m) (g_m (s_g s')) (g_c (s_g s')) (g_t (s_g s')) /\ good s' (own m ++ R')) B s.
Proof.
  intros OK JI ALL K. unfold h_init. rewrite OK. simpl negb. cbv iota. apply wp_bind, wp_modg. apply wp_bind. unfold init_body. rewrite JI.
  apply wp_bind, wp_ret. simpl negb. cbv iota. apply wp_bind.
  eapply wp_mono; [eapply new_regs_ok with (g := hctx0) (X := R); [reflexivity|exact K]| |intros u Z; exact Z].
  intros b2 s4 (done & E4 & K4 & LD & Q). destruct b2; [|destruct Q as (_ & Q & _); rewrite ALL in Q; discriminate].
  destruct Q as (MD & T4). simpl negb. cbv iota. apply wp_bind.
  assert (L14 : length done = 14) by (rewrite <- (map_length snd done), MD; reflexivity).
  eapply wp_alloc; [exact K4| |intros s5 E5 N5 GF; rewrite ALL in GF; discriminate].
  intros s5 E5 N5 GT5 K5. apply wp_bind, wp_modg. simpl is_nil. cbv iota. apply wp_bind, wp_modg, wp_ret. apply wp_ret. split; auto.
  rewrite L14 in E4. simpl Nat.sub in E4. simpl s_g. rewrite E5, E4. split; [reflexivity|].
  split. { unfold hargs_ok in OK. repeat rewrite Bool.andb_true_iff in OK. destruct OK as [[[[[[[[A1 A2] A3] A4] A5] A6] A7] A8] A9]. apply Nat.leb_le in A4. exact A4. }
  exists (part (regs_of done 0) (Some (s_n s4, None))), R. 
  split. { pose proof (rep_part done 0 _ (Some (s_n s4)) None ltac:(lia) eq_refl (Some (s_n s4, None)) eq_refl) as RP. exact RP. }
  split; [eapply sized_all; exact MD|].
  apply good_g. eapply good_perm; [destruct s5; exact K5|]. unfold own, part. simpl v_reg. rewrite own_regs_of. cbn [v_for v_rd v_wr v_cr own_for own_io own_cr ob ol e_fn e_ini e_mod io0 flat_map app optr]. perm.
Qed.
End Grant.
