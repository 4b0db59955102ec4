(** whole programs of ladder logic (C02, C03, C04, C15, C48, C49). *)
From Verif Require Export DemoScan Groups General.

Lemma unchanged_eq c c' : unchanged c c' -> c' = c.
Proof. intros H. apply peek_ext. exact H. Qed.
Lemma reads_fun c v a b : reads c v a -> reads c v b -> a = b.
Proof. intros H1 H2. apply readv_reads in H1, H2. congruence. Qed.
Lemma prev_fun c v a b : prev_reads c v a -> prev_reads c v b -> a = b.
Proof. intros H1 H2. apply prev_ok in H1, H2. congruence. Qed.
Lemma coil_fun c v q c1 c2 : coil_writes c v q c1 -> coil_writes c v q c2 -> c2 = c1.
Proof.
  unfold coil_writes. destruct (target c v) as [l|].
  - intros [H1 H2] [H3 H4]. apply peek_ext. intros k. destruct (loc_eq_dec k l) as [->|D]; [unfold holds in *; congruence|].
    rewrite H2, H4 by congruence. reflexivity.
  - intros H1 H2. apply unchanged_eq in H1, H2. congruence.
Qed.
Lemma bool_iff (a b : bool) : (a = true <-> b = true) -> a = b.
Proof. destruct a, b; intuition congruence. Qed.
Lemma cell_fun c n r col p own q1 q2 c1 c2 : cell_does c n r col p own q1 c1 -> cell_does c n r col p own q2 c2 -> q2 = q1 /\ c2 = c1.
Proof.
  unfold cell_does. destruct (code_at c n r col) eqn:C; intros H1 H2;
    repeat match goal with
    | H : exists _, _ |- _ => destruct H
    | H : _ /\ _ |- _ => destruct H
    | H : unchanged _ _ |- _ => apply unchanged_eq in H
    | H : reads c ?v ?a, K : reads c ?v ?b |- _ => assert (a = b) by (eapply reads_fun; eauto); clear H
    | H : prev_reads c ?v ?a, K : prev_reads c ?v ?b |- _ => assert (a = b) by (eapply prev_fun; eauto); clear H
    end; subst; auto; try (split; [reflexivity|eapply coil_fun; eauto; fail]);
    repeat match goal with H : compares _ = _ |- _ => simpl in H; injection H as <- end;
    split; auto; apply bool_iff; intuition.
Qed.

Lemma cell_code c n r col p own q c' : cell_does c n r col p own q c' -> forall l, ~ is_word l -> peek c' l = peek c l.
Proof.
  unfold cell_does. destruct (code_at c n r col); intros H l IW;
    repeat match goal with H : exists _, _ |- _ => destruct H | H : _ /\ _ |- _ => destruct H end; auto;
    match goal with H : coil_writes _ ?v _ _ |- _ => unfold coil_writes in H; destruct (target c v) as [t|] eqn:T; [|apply H] end;
    match goal with H : stored _ _ _ _ |- _ => apply H end; intros <-; apply target_shape in T; apply IW; destruct t; simpl; auto; contradiction.
Qed.
Lemma cell_code_at c n r col p own q c' n' r' col' : cell_does c n r col p own q c' -> code_at c' n' r' col' = code_at c n' r' col'.
Proof. intros H. unfold code_at. now rewrite (cell_code _ _ _ _ _ _ _ _ H) by auto. Qed.
Lemma cells_code n col pw rs c qs c' n' r' col' : cells_do n col pw rs c qs c' -> code_at c' n' r' col' = code_at c n' r' col'.
Proof. induction 1 as [c|r rs c c1 c2 q qs CD D IH]; auto. rewrite IH. eapply cell_code_at; eauto. Qed.
Lemma steps_code n l c pw c' pw' n' r' col' : steps_do n l c pw c' pw' -> code_at c' n' r' col' = code_at c n' r' col'.
Proof. induction 1 as [c pw|l c pw c' pw' H IH|l c pw c' pw' H IH|col rs l c c1 c2 pw pw2 qs CD SD IH]; auto. rewrite IH. eapply cells_code; eauto. Qed.

(** ** C03 *)

(** C03: in a program without vertical bars the scan evaluates every cell once, row by row from left to right, each
    from the power of the cell on its left and the registers as the cells before left them; the registers after the
    scan are those after the last cell, and the power of every cell is what that cell made. *)
Lemma C03_program_l : forall E s m, logic_ready E (s_ctx s) m -> no_bars (s_ctx s) ->
  exists s' c' P, scans E s s' /\ evaluates P P (reading_order (s_ctx s)) (s_ctx s) c'
    /\ same_registers c' (s_ctx s') /\ has_power (s_ctx s) (s_ctx s') P.
Proof.
  intros E s m RD NB. destruct (logic_scan E s m RD) as (s' & c' & P & SC & ND & SR & EV & HP). exists s', c', P.
  split; [auto|]. split; [|auto]. set (c := s_ctx s) in *.
  destruct (nets_evaluate c P (fun n => map (single c n) (seq 0 (fst (size_of c n)))) _ _ _ ND (seq_NoDup _ _)) as (Q & EQ & OR).
  { intros n rows cols Hn N. apply in_seq in Hn. assert (SCN : scanned c n rows cols) by (split; [lia|auto]). split.
    - destruct (sr_prog _ _ _ _ (lr_scan _ _ _ RD)) as [_ W]. destruct (W n ltac:(lia)) as (_ & en & rows' & cols' & N' & W').
      rewrite N in N'. injection N' as <- <- <-. apply W'; auto.
    - unfold size_of. rewrite N. simpl fst. apply single_segs; [lia|]. intros r col R C. eapply NB; eauto. }
  assert (RO : reading_order c = flat_map (fun n => seg_cells n (snd (size_of c n)) 0 (map (single c n) (seq 0 (fst (size_of c n))))) (seq 0 (q_nets (x_q c)))).
  { unfold reading_order. apply flat_map_ext. intros n. now rewrite single_cells. }
  rewrite RO. eapply evaluates_ext; [|exact EQ]. intros n r col Hin. split; [reflexivity|]. symmetry.
  apply in_flat_map in Hin as (n0 & Hn & Hin). pose proof (seg_cells_net _ _ _ _ _ _ _ Hin). subst n0. rewrite single_cells in Hin.
  apply in_flat_map in Hin as (r0 & R & Hin). unfold row_cells in Hin. destruct (multi (code_at c n r0 0)) eqn:M; [contradiction|].
  apply in_map_iff in Hin as (k & K & C). injection K as -> ->. apply in_seq in R, C. unfold size_of in R, C.
  destruct (peek c (LNet n)) as [[| | | | | |[|] rows cols| | | | | | | | | | ]|] eqn:N; simpl in R, C; try lia.
  specialize (OR n rows cols Hn N). unfold size_of in OR. rewrite N in OR. simpl fst in OR.
  apply (single_ors c n cols _ _ rows 0 OR); auto; lia.
Qed.

(** C03: this evaluation determines the power of all cells and all registers. *)
Lemma C03_determined_l : forall P P' l c c1 c2,
  (forall before n r k after, l = before ++ (n, r, S k) :: after -> In (n, r, k) before) ->
  evaluates P P l c c1 -> evaluates P' P' l c c2 ->
  unchanged c1 c2 /\ forall n r col, In (n, r, col) l -> P' n r col = P n r col.
Proof.
  intros P P' l c c1 c2 ORD H1 H2.
  assert (G : forall post pre d, pre ++ post = l -> (forall n r col, In (n, r, col) pre -> P' n r col = P n r col) ->
     evaluates P P post d c1 -> evaluates P' P' post d c2 -> c2 = c1 /\ forall n r col, In (n, r, col) post -> P' n r col = P n r col).
  { clear H1 H2. induction post as [|[[n r] col] post IH]; intros pre d EQ AG H1 H2.
    - inversion H1; inversion H2; subst. split; [auto|]. intros ? ? ? [].
    - inversion H1 as [|? ? ? ? ? d1 ? A1 B1]; inversion H2 as [|? ? ? ? ? d2 ? A2 B2]; subst.
      assert (LE : left_of (P' n) r col = left_of (P n) r col).
      { destruct col as [|k]; [reflexivity|]. simpl. apply AG. eapply ORD. reflexivity. }
      rewrite LE in A2. destruct (cell_fun _ _ _ _ _ _ _ _ _ _ A1 A2) as [Q ->].
      destruct (IH (pre ++ [(n, r, col)]) d1) as [H3 H4]; auto.
      + now rewrite <- app_assoc.
      + intros n' r' col' Hin. apply in_app_iff in Hin as [Hin|[E|[]]]; auto. injection E as <- <- <-. exact Q.
      + split; auto. intros n' r' col' [E|Hin]; auto. injection E as <- <- <-. exact Q. }
  destruct (G l [] c) as [-> H4]; auto. { intros ? ? ? []. } split; auto. intros l'; reflexivity.
Qed.

(** C03: the order of evaluation meets the condition of that statement. *)
Lemma C03_order_l : forall c before n r k after,
  reading_order c = before ++ (n, r, S k) :: after -> In (n, r, k) before.
Proof.
  assert (ROW : forall (f : nat -> nat * nat * nat) m b x a, (forall i, snd (f i) = i) -> map f (seq 0 m) = b ++ x :: a -> x = f (length b) /\ forall j, (j < length b)%nat -> In (f j) b).
  { intros f m b x a _ H. assert (L : length (map f (seq 0 m)) = length (b ++ x :: a)) by congruence. rewrite map_length, seq_length, app_length in L. simpl in L.
    split.
    - assert (E : nth_error (map f (seq 0 m)) (length b) = Some x) by (rewrite H, nth_error_app2, Nat.sub_diag by lia; reflexivity).
      rewrite nth_error_map in E. destruct (nth_error (seq 0 m) (length b)) as [y|] eqn:Y; [|discriminate]. simpl in E. injection E as <-.
      apply nth_error_nth with (d := 0%nat) in Y. rewrite seq_nth in Y by lia. simpl in Y. now rewrite Y.
    - intros j J. assert (E : nth_error (b ++ x :: a) j = Some (f j)).
      { rewrite <- H, nth_error_map. rewrite nth_error_nth' with (d := 0%nat) by (rewrite seq_length; lia). rewrite seq_nth by lia. reflexivity. }
      rewrite nth_error_app1 in E by auto. eapply nth_error_In; eauto. }
  assert (FM : forall A B (g : A -> list B) (R : list B -> B -> Prop) l, (forall b1 b2 x, R b2 x -> R (b1 ++ b2) x) ->
     (forall y b x a, In y l -> g y = b ++ x :: a -> R b x) -> forall b x a, flat_map g l = b ++ x :: a -> R b x).
  { intros A B g R l MON. induction l as [|y l IH]; intros HG b x a H; simpl in H; [destruct b; discriminate|].
    destruct (Nat.lt_ge_cases (length b) (length (g y))) as [L|L].
    - assert (E : exists a', g y = b ++ x :: a').
      { pose proof (firstn_skipn (length b) (g y)) as FS. assert (E1 : firstn (length b) (g y) = b).
        { pose proof (f_equal (firstn (length b)) H) as K. rewrite !firstn_app, Nat.sub_diag, firstn_all in K.
          replace (length b - length (g y))%nat with 0%nat in K by lia. simpl in K. now rewrite !app_nil_r in K. }
        destruct (skipn (length b) (g y)) as [|x' a'] eqn:SK.
        - apply (f_equal (@length B)) in FS. rewrite app_nil_r in FS. rewrite firstn_length in FS. lia.
        - exists a'. rewrite E1 in FS. rewrite <- FS in H. rewrite <- app_assoc in H. apply app_inv_head in H. simpl in H. injection H as -> _. congruence. }
      destruct E as [a' E]. eapply HG; [simpl; auto|exact E].
    - assert (E : exists b', b = g y ++ b' /\ flat_map g l = b' ++ x :: a).
      { exists (skipn (length (g y)) b). assert (E1 : firstn (length (g y)) b = g y).
        { pose proof (f_equal (firstn (length (g y))) H) as K. rewrite firstn_app, Nat.sub_diag in K. simpl in K. rewrite app_nil_r, firstn_all in K.
          rewrite firstn_app in K. replace (length (g y) - length b)%nat with 0%nat in K by lia. simpl in K. rewrite app_nil_r in K. congruence. }
        rewrite <- E1 at 1. rewrite firstn_skipn. split; [reflexivity|]. rewrite <- (firstn_skipn (length (g y)) b), E1, <- app_assoc in H. now apply app_inv_head in H. }
      destruct E as (b' & -> & E). apply MON. eapply IH; [|exact E]. intros; eapply HG; simpl; eauto. }
  intros c before n r k after H.
  revert H. unfold reading_order.
  set (R := fun (b : list (nat * nat * nat)) (x : nat * nat * nat) => forall n r k, x = (n, r, S k) -> In (n, r, k) b).
  assert (MON : forall b1 b2 x, R b2 x -> R (b1 ++ b2) x) by (unfold R; intros; apply in_app_iff; right; eauto).
  intros H. apply (FM _ _ _ R _ MON) in H; [apply H; reflexivity|].
  intros n0 b x a _ H0. apply (FM _ _ _ R _ MON) in H0; auto.
  intros r0 b0 x0 a0 _ H1. unfold row_cells in H1. destruct (multi _); [destruct b0; discriminate|].
  apply ROW in H1 as [-> H1]; [|reflexivity]. intros n' r' k' E. injection E as <- <- E. apply H1. lia.
Qed.

(** C03: the power behind contacts in series is on exactly if all of them conduct, and they change nothing. *)
Lemma C03_series_l : forall P c c' n r k,
  (forall col, (col < k)%nat -> contact (code_at c n r col) = true) -> (0 < k)%nat ->
  evaluates P P (map (fun col => (n, r, col)) (seq 0 k)) c c' ->
  unchanged c c' /\ (P n r (k - 1)%nat = true <-> forall col, (col < k)%nat -> closed c n r col).
Proof.
  intros P c c' n r k CT K0 EV.
  assert (ONE : forall col q c1, contact (code_at c n r col) = true -> cell_does c n r col (left_of (P n) r col) false q c1 ->
     c1 = c /\ (q = true <-> left_of (P n) r col = true /\ closed c n r col)).
  { intros col q c1 C D. unfold cell_does, closed in *. destruct (code_at c n r col) eqn:CD; try discriminate;
      repeat match goal with H : exists _, _ |- _ => destruct H | H : _ /\ _ |- _ => destruct H | H : unchanged _ _ |- _ => apply unchanged_eq in H end;
      subst c1; try subst q; (split; [reflexivity|]); rewrite ?andb_true_iff, ?negb_true_iff, ?Z.eqb_neq, ?Z.eqb_eq; try tauto.
    all: try (match goal with H : (_ = true <-> _) |- _ => rewrite H end; split; intros [H5 H6]; split; auto;
      [do 3 eexists; eauto|destruct H6 as (R & a & b & C1 & R1 & R2 & H6); simpl in *;
       repeat match goal with H : Some _ = Some _ |- _ => injection H as <- end;
       repeat match goal with H : reads ?c0 ?v ?a, K : reads ?c0 ?v ?b |- _ => assert (a = b) by (eapply reads_fun; eauto); subst; clear H end; auto]).
    - split; intros [H1 H2]; split; auto; [eauto|]. destruct H2 as (z & R & Z). now rewrite (reads_fun _ _ _ _ H R).
    - split; intros [H1 H2]; split; auto; [congruence|]. eapply reads_fun; eauto. }
  assert (G : forall m j c1, (j + m = k)%nat -> evaluates P P (map (fun col => (n, r, col)) (seq j m)) c c1 ->
     c1 = c /\ forall col, (j <= col < k)%nat -> P n r col = true <-> left_of (P n) r col = true /\ closed c n r col).
  { clear EV c'. induction m as [|m IH]; intros j c1 E EV; simpl in EV; inversion EV as [|? ? ? ? ? d ? A B]; subst.
    - split; [auto|]. intros; lia.
    - destruct (ONE _ _ _ (CT j ltac:(lia)) A) as [-> H]. destruct (IH (S j) c1 ltac:(lia) B) as [-> H2]. split; auto.
      intros col C. destruct (Nat.eq_dec col j) as [->|D]; [exact H|]. apply H2. lia. }
  destruct (G k 0%nat c' ltac:(lia) EV) as [-> H]. split; [intros l; reflexivity|].
  assert (ALL : forall m, (0 < m <= k)%nat -> P n r (m - 1)%nat = true <-> forall col, (col < m)%nat -> closed c n r col).
  { induction m as [|m IH]; intros M; [lia|]. replace (S m - 1)%nat with m by lia. rewrite H by lia. destruct m as [|m].
    - simpl. split; [intros [_ Z] col C; now replace col with 0%nat by lia|intros Z; split; auto].
    - cbn [left_of]. replace m with (S m - 1)%nat at 1 by lia. rewrite IH by lia. split.
      + intros [Z1 Z2] col C. destruct (Nat.eq_dec col (S m)) as [->|D]; auto. apply Z1. lia.
      + intros Z. split; [intros; apply Z; lia|apply Z; lia]. }
  apply ALL. lia.
Qed.

(** C03: contacts in series with a coil behind them write to the coil's register whether all of them conduct. *)
Lemma C03_rung_l : forall P c c' n r k l,
  (forall col, (col < k)%nat -> contact (code_at c n r col) = true) -> (0 < k)%nat ->
  code_at c n r k = I_COIL -> target c (arg c n r k 0) = Some l ->
  evaluates P P (map (fun col => (n, r, col)) (seq 0 (S k))) c c' ->
  exists q, (q = true <-> forall col, (col < k)%nat -> closed c n r col) /\ stored c l (b2z q) c'.
Proof.
  intros P c c' n r k l CT K0 CO T EV. rewrite seq_S, map_app in EV. simpl in EV.
  assert (SP : forall a b d d', evaluates P P (a ++ b) d d' -> exists d1, evaluates P P a d d1 /\ evaluates P P b d1 d').
  { induction a as [|x a IH]; intros b d d' H; [exists d; split; [constructor|auto]|]. simpl in H. inversion H as [|? ? ? ? ? d1 ? A B]; subst.
    destruct (IH _ _ _ B) as (d2 & H1 & H2). exists d2. split; auto. econstructor; eauto. }
  destruct (SP _ _ _ _ EV) as (d & H1 & H2). destruct (C03_series_l P c d n r k CT K0 H1) as [U Q]. apply unchanged_eq in U. subst d.
  inversion H2 as [|? ? ? ? ? d1 ? A B]; subst. inversion B; subst. unfold cell_does in A. rewrite CO in A. destruct A as [A1 A2].
  unfold coil_writes in A2. rewrite T in A2. exists (P n r k). split; auto. rewrite A1. destruct k as [|k]; [lia|]. simpl.
  now replace (S k - 1)%nat with k in Q by lia.
Qed.

(*EX
(* Two networks without bars. M0 = 1, M1 = 0: (M0 and not M1) -> M3; D0 > 5 and M3 -> Q0, an inverter; then M3 -> M1. *)
Definition C03_demo : ctx := demo_nets
  [net_on true [[cellv I_NO [V R_M 0]; cellv I_NC [V R_M 1]; cellv I_COIL [V R_M 3]];
                [cellv I_GT [V R_D 0; V R_NONE 5]; cellv I_NO [V R_M 3]; cellv I_COIL [V R_Q 0]];
                [cellv I_NO [V R_M 1]; cellv I_NEG []; cellv I_NOP []]];
   net_on true [[cellv I_NO [V R_M 3]; cellv I_COIL [V R_M 1]]]].
Example C03_case : logic_ready quiet_env C03_demo 1000 /\ no_bars C03_demo /\ length (reading_order C03_demo) = 11%nat
  /\ peek (scan_of quiet_env C03_demo) (LReg B_M 3) = Some (VZ 1) /\ peek (scan_of quiet_env C03_demo) (LReg B_M 1) = Some (VZ 1)
  /\ peek (scan_of quiet_env C03_demo) (LOut 0 K_Q 0) = Some (VZ 1) /\ powered (scan_of quiet_env C03_demo) 0 2 1 true
  /\ powered (scan_of quiet_env C03_demo) 0 2 2 false.
Proof. split; [apply (logic_readyb_ok C03_demo); vm_compute; reflexivity|]. split; [apply no_barsb_ok; vm_compute; reflexivity|]. repeat split; vm_compute; reflexivity. Qed.
(* The first rung on its own: both contacts conduct, so the coil writes 1. *)
Example C03_rung_case :
  (forall col, (col < 2)%nat -> contact (code_at C03_demo 0 0 col) = true) /\ code_at C03_demo 0 0 2 = I_COIL
  /\ target C03_demo (arg C03_demo 0 0 2 0) = Some (LReg B_M 3) /\ forall col, (col < 2)%nat -> closed C03_demo 0 0 col.
Proof.
  split; [intros [|[|col]] H; try lia; reflexivity|]. split; [reflexivity|]. split; [reflexivity|].
  intros [|[|col]] H; try lia; unfold closed; simpl code_at; cbv beta iota zeta.
  - exists 1. split; [decide_reads|lia].
  - decide_reads.
Qed.
EX*)

(** ** C04 *)

(** C04: the scan of any ladder logic program, whatever its bars: the networks are worked through step by step as the
    plan says. In every step of a column the cells of the joined rows are evaluated top to bottom, each from the power on
    its own left, and afterwards all of them carry the OR of the results. *)
Lemma C04_any_program_l : forall E s m, logic_ready E (s_ctx s) m ->
  exists s' c' P, scans E s s' /\ nets_do (s_ctx s) P (seq 0 (q_nets (x_q (s_ctx s)))) (s_ctx s) c'
    /\ same_registers c' (s_ctx s') /\ has_power (s_ctx s) (s_ctx s') P.
Proof. intros E s m RD. destruct (logic_scan E s m RD) as (s' & c' & P & SC & ND & SR & EV & HP). exists s', c', P. auto. Qed.

(** C04: networks made of groups of joined rows. Every group is one rung: its columns are executed from left to right, in
    a column the rows top to bottom; in every column all rows of the group carry the OR of what their cells made, so the
    next column starts from this OR in every row. *)
Lemma C04_groups_l : forall E s m hs, logic_ready E (s_ctx s) m ->
  (forall n rows cols, scanned (s_ctx s) n rows cols -> groups_from (s_ctx s) n cols 0 (hs n) /\ total (hs n) = rows) ->
  exists s' c' P Q, scans E s s'
    /\ evaluates P Q (flat_map (fun n => group_cells n (snd (size_of (s_ctx s) n)) 0 (hs n)) (seq 0 (q_nets (x_q (s_ctx s))))) (s_ctx s) c'
    /\ (forall n rows cols, scanned (s_ctx s) n rows cols -> ors cols (P n) (Q n) 0 (hs n))
    /\ same_registers c' (s_ctx s') /\ has_power (s_ctx s) (s_ctx s') P.
Proof.
  intros E s m hs RD G. destruct (logic_scan E s m RD) as (s' & c' & P & SC & ND & SR & EV & HP). set (c := s_ctx s) in *.
  destruct (nets_evaluate c P hs _ _ _ ND (seq_NoDup _ _)) as (Q & EQ & OR).
  { intros n rows cols Hn N. apply in_seq in Hn. assert (SCN : scanned c n rows cols) by (split; [lia|auto]). split.
    - destruct (sr_prog _ _ _ _ (lr_scan _ _ _ RD)) as [_ W]. destruct (W n ltac:(lia)) as (_ & en & rows' & cols' & N' & W').
      rewrite N in N'. injection N' as <- <- <-. apply W'; auto.
    - destruct (G _ _ _ SCN) as [G1 G2]. apply groups_segs; auto. }
  exists s', c', P, Q. split; [auto|]. split; [|split; [|auto]].
  - replace (flat_map _ _) with (flat_map (fun n => seg_cells n (snd (size_of c n)) 0 (hs n)) (seq 0 (q_nets (x_q c)))); [exact EQ|].
    assert (FE : forall (f g : nat -> list (nat * nat * nat)) l, (forall x, In x l -> f x = g x) -> flat_map f l = flat_map g l).
    { intros f g l. induction l as [|a l IH]; intros H; simpl; auto. rewrite H by (simpl; auto). f_equal. apply IH. intros; apply H; simpl; auto. }
    apply FE. intros n Hn. apply in_seq in Hn. unfold size_of.
    destruct (peek c (LNet n)) as [[| | | | | |[|] rows cols| | | | | | | | | | ]|] eqn:N; try (simpl snd; rewrite seg_cells_none; clear; generalize 0%nat at 2; induction (hs n); intros; simpl; auto; fail).
    simpl fst; simpl snd. assert (SCN : scanned c n rows cols) by (split; [lia|auto]). destruct (G _ _ _ SCN) as [G1 G2].
    apply group_seg_cells. eapply groups_pos; eauto.
  - intros n rows cols SCN. pose proof SCN as [H1 H2]. apply seg_ors_ors.
    + eapply groups_pos. apply (G _ _ _ SCN).
    + eapply OR; eauto. apply in_seq. lia.
Qed.

(*EX
(* One network: rows 0 to 2 are three parallel branches in both columns, row 3 stands alone. *)
Definition C04_demo : ctx := demo_nets
  [net_on true [[cellv I_NO [V R_M 1]; cellv I_CONN []]; [bar (cellv I_NO [V R_M 0]); bar (cellv I_NO [V R_M 3])];
                [bar (cellv I_NC [V R_M 2]); bar (cellv I_COIL [V R_M 1])]; [cellv I_NO [V R_M 1]; cellv I_COIL [V R_M 3]]]].
Example C04_case : logic_ready quiet_env C04_demo 1000
  /\ (forall n rows cols, scanned C04_demo n rows cols -> groups_from C04_demo n cols 0 [3; 1]%nat /\ total [3; 1]%nat = rows)
  /\ peek (scan_of quiet_env C04_demo) (LReg B_M 1) = Some (VZ 1) /\ peek (scan_of quiet_env C04_demo) (LReg B_M 3) = Some (VZ 1)
  /\ powered (scan_of quiet_env C04_demo) 0 0 0 true /\ powered (scan_of quiet_env C04_demo) 0 2 0 true.
Proof.
  split; [apply (logic_readyb_ok C04_demo); vm_compute; reflexivity|]. split; [|repeat split; vm_compute; reflexivity].
  intros n rows cols [N P]. simpl in N. destruct n as [|n]; [|lia]. vm_compute in P. injection P as <- <-. split; [|reflexivity].
  cbn [groups_from]. repeat match goal with |- _ /\ _ => split end; try lia; try reflexivity; try exact I;
    intros [|[|col]] C; try lia; (split; [reflexivity|]); intros [|[|[|i]]] I0; try lia; reflexivity.
Qed.
EX*)

(** ** C02 *)

(** C02: in a program without vertical bars an empty cell has no power after the scan. *)
Lemma C02_empty_in_scan_l : forall E s m, logic_ready E (s_ctx s) m -> no_bars (s_ctx s) ->
  exists s', scans E s s' /\ forall n rows cols r col, scanned (s_ctx s) n rows cols -> (r < rows)%nat -> (col < cols)%nat ->
    code_at (s_ctx s) n r col = I_NOP -> multi (code_at (s_ctx s) n r 0) = false -> powered (s_ctx s') n r col false.
Proof.
  intros E s m RD NB. destruct (C03_program_l E s m RD NB) as (s' & c' & P & SC & EV & SR & HP). exists s'. split; auto.
  intros n rows cols r col SN R C CD M.
  assert (HIN : In (n, r, col) (reading_order (s_ctx s))).
  { unfold reading_order. apply in_flat_map. exists n. split; [apply in_seq; destruct SN; lia|]. destruct SN as [_ SN]. unfold size_of. rewrite SN.
    apply in_flat_map. exists r. split; [apply in_seq; simpl; lia|]. unfold row_cells, size_of. rewrite M, SN. apply in_map_iff. exists col. split; auto.
    apply in_seq. simpl. lia. }
  assert (PQ : P n r col = false).
  { clear -EV HIN CD. revert EV HIN CD. generalize (reading_order (s_ctx s)) as l. generalize (s_ctx s) as c.
    intros c l. revert c. induction l as [|[[a b] d] l IH]; intros c EV HIN CD; [contradiction|]. inversion EV as [|? ? ? ? ? c1 ? A B]; subst.
    destruct HIN as [K|HIN].
    - injection K as -> -> ->. unfold cell_does in A. rewrite CD in A. apply A.
    - apply (IH c1); auto. rewrite <- CD. eapply cell_code_at; eauto. }
  rewrite <- PQ. apply (HP n rows cols); auto.
Qed.

(** ** C48 *)

Lemma steps_keep n l c pw c' pw' r col : steps_do n l c pw c' pw' ->
  (forall k rs, In (Run k rs) l -> ~ (k = col /\ In r rs)) -> pw' r col = pw r col.
Proof.
  induction 1 as [c pw|l c pw c' pw' H IH|l c pw c' pw' H IH|k rs l c c1 c2 pw pw2 qs CD SD IH]; intros NR; auto.
  - apply IH. intros; apply NR; simpl; auto.
  - apply IH. intros; apply NR; simpl; auto.
  - rewrite IH by (intros; apply NR; simpl; auto). unfold joins. destruct (col =? k)%nat eqn:E1; simpl; auto.
    apply Nat.eqb_eq in E1 as ->. destruct (existsb (Nat.eqb r) rs) eqn:E2; auto. exfalso. apply (NR k rs); [simpl; auto|]. split; auto.
    apply existsb_exists in E2 as (y & Y1 & Y2). apply Nat.eqb_eq in Y2 as ->. auto.
Qed.
Section B.
Variables (rows cols : nat) (code : nat -> nat -> ins) (br : nat -> nat -> bool).
Lemma joined_stop g col : br g col = false -> forall k g', (g' < g)%nat -> (g' + joined br k g' col < g)%nat.
Proof.
  intros B. induction k as [|k IH]; intros g' L; simpl; [lia|]. destruct (br (S g') col) eqn:X; [|lia].
  destruct (Nat.eq_dec (S g') g) as [Q|D]; [rewrite Q in X; congruence|]. specialize (IH (S g') ltac:(lia)). lia.
Qed.
Lemma group_stop g g' col r : br g col = false -> (g' < g)%nat -> In r (group rows br g' col) -> (r < g)%nat.
Proof. intros B L H. unfold group in H. apply in_seq in H. pose proof (joined_stop g col B (rows - S g') g' L). lia. Qed.
Lemma columns_runs g a f k rs : In (Run k rs) (flat_map (column_steps rows cols code br g) (seq a f)) -> (a <= k < a + f)%nat /\ rs = group rows br g k.
Proof.
  intros H. apply in_flat_map in H as (col & C & H). apply in_seq in C. unfold column_steps in H. apply in_app_iff in H as [H|H].
  - apply repeat_spec in H. discriminate.
  - destruct (negb _ || _) in H; [|contradiction]. destruct H as [H|[]]. injection H as <- <-. auto.
Qed.
Lemma net_runs f : forall g k rs, In (Run k rs) (net_steps rows cols code br f g) -> (k < cols)%nat /\ forall r, In r rs -> (g <= r)%nat.
Proof.
  induction f as [|f IH]; intros g k rs H; simpl in H; [contradiction|]. destruct (g <? rows)%nat; [|contradiction].
  simpl in H. destruct H as [H|H]; [discriminate|]. apply in_app_iff in H as [H|H].
  - destruct (multi (code g 0%nat)); [contradiction|]. apply in_app_iff in H as [H|[H|[]]]; [|discriminate].
    apply columns_runs in H as [H ->]. split; [lia|]. intros r R. unfold group in R. apply in_seq in R. lia.
  - destruct (IH _ _ _ H) as [H1 H2]. split; auto. intros r R. specialize (H2 r R). unfold next_rung in H2.
    destruct (multi _); [lia|]. unfold group in H2. rewrite seq_length in H2. lia.
Qed.
Lemma reach n g f : (g < rows)%nat -> (forall col, (col < cols)%nat -> br g col = false) -> (0 < cols)%nat ->
  forall g0 c pw c2 pw2, (g0 <= g)%nat -> (rows <= g0 + f)%nat -> steps_do n (net_steps rows cols code br f g0) c pw c2 pw2 ->
  exists f' c1 pw1, steps_do n (net_steps rows cols code br f' g) c1 pw1 c2 pw2 /\ (rows <= g + f')%nat
    /\ (forall r k, (g <= r)%nat -> pw1 r k = pw r k) /\ (forall n' r' k, code_at c1 n' r' k = code_at c n' r' k).
Proof.
  intros GR NB C0. induction f as [|f IH]; intros g0 c pw c2 pw2 L F SD; [lia|].
  destruct (Nat.eq_dec g0 g) as [->|D]; [exists (S f), c, pw; auto|].
  cbn [net_steps] in SD. rewrite ltb_true in SD by lia. apply steps_app in SD as (c1 & pw1 & S1 & S2).
  destruct (IH (next_rung rows code br g0) c1 pw1 c2 pw2) as (f' & ca & pwa & H1 & H2 & H3 & H4); auto.
  - unfold next_rung. destruct (multi _); [lia|]. unfold group. rewrite seq_length.
    pose proof (joined_stop g 0 (NB 0%nat C0) (rows - S g0) g0 ltac:(lia)). lia.
  - unfold next_rung. destruct (multi _); [lia|]. unfold group. rewrite seq_length. lia.
  - exists f', ca, pwa. split; auto. split; auto. split.
    + intros r k R. rewrite H3 by auto. eapply steps_keep; eauto. intros col rs H. unfold rung_steps in H. destruct H as [H|H]; [discriminate|].
      destruct (multi _); [contradiction|]. apply in_app_iff in H as [H|[H|[]]]; [|discriminate]. apply columns_runs in H as [H ->]. intros [-> K].
      apply (group_stop g) in K; [lia|apply NB; lia|lia].
    + intros n' r' k. rewrite H4. eapply steps_code; eauto.
Qed.
End B.
Lemma nets_net prog P l c c' n : nets_do prog P l c c' -> In n l ->
  exists d d' pw, steps_do n (plan prog n) d all_off d' pw /\ (forall r col, P n r col = pw r col) /\ forall n' r col, code_at d n' r col = code_at c n' r col.
Proof.
  induction 1 as [c|k l c c1 c2 pw SD EQ ND IH]; intros H; [contradiction|]. destruct H as [->|H]; [exists c, c1, pw; auto|].
  destruct (IH H) as (d & d' & pw' & A & B & C). exists d, d', pw'. split; auto. split; auto. intros. rewrite C. eapply steps_code; eauto.
Qed.
Lemma contact_needs_left c n r col p q own c' : contact (code_at c n r col) = true -> cell_does c n r col p own q c' -> q = true -> p = true.
Proof.
  unfold cell_does. destruct (code_at c n r col); intros C; try discriminate; intros H Q;
    repeat match goal with H : exists _, _ |- _ => destruct H | H : _ /\ _ |- _ => destruct H end; subst; auto;
    repeat match goal with H : _ && _ = true |- _ => apply andb_prop in H as [] end; auto.
  all: match goal with H : (true = true <-> _) |- _ => apply (proj1 H); reflexivity end.
Qed.

(** C48, what happens instead: a branch that joins the main rung only at a column [k] > 0 contributes nothing. Behind the
    join the main rung has power only if it has power in front of it, whatever the contacts of the branch do. *)
Lemma C48_branch_ignored_actual_l : forall E s m n rows cols g k, logic_ready E (s_ctx s) m -> scanned (s_ctx s) n rows cols ->
  joined_at (s_ctx s) n rows cols g k ->
  contact (code_at (s_ctx s) n g k) = true -> contact (code_at (s_ctx s) n (S g) k) = true ->
  exists s' before behind, scans E s s' /\ powered (s_ctx s') n g (k - 1) before /\ powered (s_ctx s') n g k behind
    /\ (behind = true -> before = true).
Proof.
  intros E s m n rows cols g k RD SN (R & K & BARS & MU) CT1 CT2. destruct (logic_scan E s m RD) as (s' & c' & P & SC & ND & SR & EV & HP).
  exists s', (P n g (k - 1)%nat), (P n g k). split; [auto|]. split; [apply (HP n rows cols); auto; lia|]. split; [apply (HP n rows cols); auto; lia|].
  set (c := s_ctx s) in *. destruct SN as [S1 S2].
  assert (IN : In n (seq 0 (q_nets (x_q c)))) by (apply in_seq; lia).
  destruct (nets_net _ _ _ _ _ n ND IN) as (d & d' & pw & SD & PQ & CQ).
  unfold plan in SD. rewrite S2 in SD.
  destruct (reach rows cols (code_at c n) (bar_at c n) n g rows ltac:(lia) (fun col C => proj1 (BARS col C)) ltac:(lia) 0%nat d all_off d' pw ltac:(lia) ltac:(lia) SD)
    as (f & d1 & pw1 & SD1 & F & OFF & CQ1).
  assert (CD1 : forall r col, code_at d1 n r col = code_at c n r col) by (intros; rewrite CQ1, CQ; auto).
  destruct f as [|f]; [lia|]. cbn [net_steps] in SD1. rewrite ltb_true in SD1 by lia. apply steps_app in SD1 as (d2 & pw2 & SD2 & SD3).
  assert (GRP : forall col, (col < cols)%nat -> group rows (bar_at c n) g col = if (col =? k)%nat then [g; S g] else [g]).
  { intros col C. destruct (BARS col C) as (B1 & B2 & B3). destruct (col =? k)%nat eqn:CK.
    - apply (group_seg rows (bar_at c n) g 2 col); [lia| |lia|].
      + intros i I0. replace (g + i)%nat with (S g) by lia. auto.
      + destruct (Nat.eq_dec (S (S g)) rows); [left; lia|right]. replace (g + 2)%nat with (S (S g)) by lia. apply B3. lia.
    - apply (group_seg rows (bar_at c n) g 1 col); [lia| |lia|]; [intros; lia|]. right. now replace (g + 1)%nat with (S g) by lia. }
  assert (P2 : forall j, pw g j = pw2 g j).
  { intros j. eapply steps_keep; eauto. intros k' rs H [_ I0]. apply net_runs in H as [_ H]. specialize (H g I0).
    unfold next_rung in H. rewrite MU, (GRP 0%nat ltac:(lia)) in H. replace (0 =? k)%nat with false in H by (symmetry; apply Nat.eqb_neq; lia). simpl in H. lia. }
  rewrite !PQ, !P2. unfold rung_steps in SD2. rewrite MU in SD2. inversion SD2 as [|? ? ? ? ? SD4| |]; subst.
  apply steps_app in SD4 as (d3 & pw3 & SD4 & SD5). inversion SD5 as [| |? ? ? ? ? SD6|]; subst. inversion SD6; subst.
  replace (seq 0 cols) with (seq 0 k ++ k :: seq (S k) (cols - S k)) in SD4.
  2:{ replace cols with (k + S (cols - S k))%nat at 2 by lia. rewrite seq_app. reflexivity. }
  rewrite flat_map_app in SD4. cbn [flat_map] in SD4. apply steps_app in SD4 as (d4 & pw4 & A1 & A2).
  apply steps_app in A2 as (d5 & pw5 & A2 & A3).
  assert (Q3 : forall j, (j <= k)%nat -> pw2 g j = pw5 g j).
  { intros j J. eapply steps_keep; eauto. intros k' rs H. apply columns_runs in H as [H _]. lia. }
  rewrite !Q3 by lia.
  assert (Q4 : pw4 (S g) (k - 1)%nat = false).
  { rewrite (steps_keep _ _ _ _ _ _ (S g) (k - 1) A1); [apply OFF; lia|]. intros k' rs H. apply columns_runs in H as [H ->]. intros [-> I0].
    rewrite GRP in I0 by lia. replace (k - 1 =? k)%nat with false in I0 by (symmetry; apply Nat.eqb_neq; lia). destruct I0 as [I0|[]]. lia. }
  unfold column_steps in A2. apply steps_ticks in A2. rewrite branch_seg in A2 by (intros; apply BARS; auto). simpl in A2.
  rewrite GRP, Nat.eqb_refl in A2 by lia. inversion A2 as [| | |? ? ? ? e1 ? ? ? qs CS A4]; subst. inversion A4; subst.
  inversion CS as [|? ? ? e2 ? q1 qs1 X1 CS1]; subst. inversion CS1 as [|? ? ? e3 ? q2 qs2 X2 CS2]; subst. inversion CS2; subst.
  unfold joins. rewrite Nat.eqb_refl. replace (k - 1 =? k)%nat with false by (symmetry; apply Nat.eqb_neq; lia). cbn [andb existsb].
  rewrite Nat.eqb_refl. simpl orb. unfold id.
  assert (CD4 : forall r col, code_at d4 n r col = code_at c n r col) by (intros; rewrite <- CD1; eapply steps_code; eauto).
  assert (L1 : left_of pw4 g k = pw4 g (k - 1)%nat) by (destruct k; [lia|]; simpl; now replace (k - 0)%nat with k by lia).
  assert (L2 : left_of pw4 (S g) k = false) by (rewrite <- Q4; destruct k; [lia|]; simpl; now replace (k - 0)%nat with k by lia).
  rewrite <- L1. intros H. apply orb_true_iff in H as [H|H].
  - eapply contact_needs_left; [|exact X1|exact H]. rewrite CD4. auto.
  - rewrite orb_false_r in H. exfalso. assert (K2 : left_of pw4 (S g) k = true); [|congruence].
    eapply contact_needs_left; [|exact X2|exact H]. rewrite (cell_code_at _ _ _ _ _ _ _ _ _ _ _ X1), CD4. auto.
Qed.

Definition branch_prog : ctx := demo_nets
  [net_on true [[cellv I_NO [V R_M 1]; cellv I_CONN []; cellv I_COIL [V R_M 3]]; [cellv I_NO [V R_M 0]; bar (cellv I_CONN []); cellv I_NOP []]]].
(** C48 is violated: a branch whose contacts all conduct up to the join leaves the main rung without power. *)
Lemma C48_branch_refuted_l : exists E s s' m n rows cols g k,
  logic_ready E (s_ctx s) m /\ scanned (s_ctx s) n rows cols /\ joined_at (s_ctx s) n rows cols g k
  /\ (forall col, (col <= k)%nat -> closed (s_ctx s) n (S g) col) /\ scans E s s' /\ powered (s_ctx s') n g k false.
Proof.
  exists quiet_env, (start branch_prog), (scan_st quiet_env branch_prog), 1000, 0%nat, 2%nat, 3%nat, 0%nat, 1%nat.
  split; [apply (logic_readyb_ok branch_prog); vm_compute; reflexivity|]. split; [split; [simpl; lia|reflexivity]|]. split.
  - split; [lia|]. split; [lia|]. split; [|reflexivity]. intros [|[|[|col]]] C; try lia; split; try reflexivity; split; try reflexivity; intros; lia.
  - split; [|split; vm_compute; reflexivity]. intros [|[|col]] C; try lia; unfold closed; simpl code_at; cbv beta iota zeta; [|exact I].
    exists 1. split; [decide_reads|lia].
Qed.
(*EX
(* The universal statement applies to that program. *)
Example C48_case : logic_ready quiet_env branch_prog 1000 /\ scanned branch_prog 0 2 3 /\ joined_at branch_prog 0 2 3 0 1
  /\ contact (code_at branch_prog 0 0 1) = true /\ contact (code_at branch_prog 0 1 1) = true.
Proof.
  split; [apply (logic_readyb_ok branch_prog); vm_compute; reflexivity|]. split; [split; [simpl; lia|reflexivity]|]. split; [|split; reflexivity].
  split; [lia|]. split; [lia|]. split; [|reflexivity]. intros [|[|[|col]]] C; try lia; split; try reflexivity; split; try reflexivity; intros; lia.
Qed.
EX*)

(** ** C15 *)

Definition reset_prog : ctx := demo_nets
  [net_on true [[cellv I_NO [V R_M 1]; bar (cellv I_CTU [V R_NONE 1; V R_NONE 9])]; [cellv I_NO [V R_M 0]; cellv I_MULTI []]]].
(** C15 is violated: with the contact in front of the second row closed and the count input open, the counter is not
    reset. *)
Lemma C15_reset_input_refuted_l : exists E s s' m i,
  scan_ready E (fun _ => False) (s_ctx s) m /\ scanned (s_ctx s) 0 2 2
  /\ code_at (s_ctx s) 0 0 1 = I_CTU /\ operand_at (s_ctx s) 0 0 1 0 (mk_value R_NONE i None) /\ multi (code_at (s_ctx s) 0 1 1) = true
  /\ code_at (s_ctx s) 0 0 0 = I_NO /\ ~ closed (s_ctx s) 0 0 0 /\ code_at (s_ctx s) 0 1 0 = I_NO /\ closed (s_ctx s) 0 1 0
  /\ scans E s s' /\ peek (s_ctx s) (LReg B_C (ix i)) = Some (VZ 7) /\ peek (s_ctx s') (LReg B_C (ix i)) = Some (VZ 7).
Proof.
  exists quiet_env, (start reset_prog), (scan_st quiet_env reset_prog), 1000, 1.
  split; [apply (readyb_ok reset_prog); vm_compute; reflexivity|]. split; [split; [simpl; lia|reflexivity]|].
  split; [reflexivity|]. split; [decide_op|]. split; [reflexivity|]. split; [reflexivity|]. split.
  - unfold closed. simpl code_at. cbv beta iota zeta. intros (z & R & Z). assert (R0 : reads reset_prog (arg reset_prog 0 0 0 0) 0) by decide_reads.
    apply Z. eapply reads_fun; eauto.
  - split; [reflexivity|]. split; [unfold closed; simpl code_at; cbv beta iota zeta; exists 1; split; [decide_reads|lia]|]. split; [vm_compute; reflexivity|]. split; vm_compute; reflexivity.
Qed.

(** ** C49 *)

Definition above_prog : ctx := demo_nets
  [net_on true [[cellv I_NO [V R_M 1]; cellv I_COIL [V R_M 3]]; [cellv I_NOP []; cellv I_NOP []];
                [cellv I_NOP []; cellv I_NOP []]; [cellv I_NOP []; cellv I_NOP []]]].
Definition above_placed : ctx := match fn_cell true 0 1 0 I_ADD 0 above_prog with Ok (true, c) => c | _ => above_prog end.
Definition above_filled : ctx :=
  match upd_cell 0 1 0 (set_c_data (Some [V R_D 0; V R_D 1; V R_D 3])) above_placed with Ok c => c | _ => above_placed end.
(** C49 is violated: placing an ADD below a rung (and filling in its operands) energises the coil of that rung, whose
    contact is open before and after. *)
Lemma C49_merge_refuted_l : exists E c c1 c2 s s' m,
  fn_cell true 0 1 0 I_ADD 0 c = Ok (true, c1) /\ changes_only c1 c2 (fun l => exists i, l = LData 0 1 0 i)
  /\ scan_ready E (fun _ => False) c m /\ scan_ready E (fun _ => False) c2 m
  /\ scans E (mk_st c []) s /\ scans E (mk_st c2 []) s'
  /\ code_at c 0 0 0 = I_NO /\ ~ closed c 0 0 0 /\ ~ closed c2 0 0 0 /\ code_at c 0 0 1 = I_COIL /\ target c (arg c 0 0 1 0) = Some (LReg B_M 3)
  /\ peek (s_ctx s) (LReg B_M 3) = Some (VZ 0) /\ peek (s_ctx s') (LReg B_M 3) = Some (VZ 1).
Proof.
  exists quiet_env, above_prog, above_placed, above_filled, (scan_st quiet_env above_prog), (scan_st quiet_env above_filled), 1000.
  split; [vm_compute; reflexivity|]. split.
  { assert (EQ : above_filled = put_cell 0 1 0 (mk_cell false true I_ADD 3 (Some [V R_D 0; V R_D 1; V R_D 3])) above_placed) by (vm_compute; reflexivity).
    intros l L.
    destruct (loc_eq_dec l (LPow 0 1 0)) as [->|D1]; [vm_compute; reflexivity|].
    destruct (loc_eq_dec l (LCell 0 1 0)) as [->|D2]; [vm_compute; reflexivity|].
    destruct (loc_eq_dec l (LDataLen 0 1 0)) as [->|D3]; [vm_compute; reflexivity|].
    rewrite EQ. apply put_cell_frame. unfold of_cell. tauto. }
  split; [apply (readyb_ok above_prog); vm_compute; reflexivity|]. split; [apply (readyb_ok above_filled); vm_compute; reflexivity|].
  split; [vm_compute; reflexivity|]. split; [vm_compute; reflexivity|]. split; [reflexivity|]. split; [|split].
  1, 2: unfold closed; match goal with |- context [code_at ?c] => assert (R0 : reads c (arg c 0 0 0 0) 0) by decide_reads; change (code_at c 0 0 0) with I_NO end;
    cbv beta iota zeta; intros (z & R & Z); apply Z; eapply reads_fun; eauto.
  repeat split; vm_compute; reflexivity.
Qed.
