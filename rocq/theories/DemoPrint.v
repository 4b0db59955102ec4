(** Decision procedures for the hypotheses about drawings on concrete programs. *)
From Coq Require Import String.
From Verif Require Export SpecPrint DemoCheck DemoJson.
Open Scope list_scope.
Open Scope Z_scope.

Definition writableb (v : value) : bool :=
  match v_type v with
  | R_S => match v_str v with Some _ => true | None => false end
  | R_R => u32 (v_raw v) mod 2 ^ 31 <=? 2139095040
  | R_OTHER _ => false
  | _ => true
  end.
Lemma writableb_ok v : writableb v = true -> writable v.
Proof. unfold writableb, writable. destruct (v_type v); auto; try discriminate; [destruct (v_str v); congruence|apply Z.leb_le]. Qed.
Definition figure_rowsb (c : ctx) (x : cell) : option nat :=
  match c_code x with
  | I_MULTI => Some 1%nat
  | I_FOREIGN => match elem (c_data x) 0 with Some v => option_map (fun d => d_cells (f_iocd d)) (elem (fo_fn (x_for c)) (ix (u32 (v_raw v)))) | None => None end
  | i => option_map fst (documented i)
  end.
Definition drawableb (c : ctx) (x : cell) : bool :=
  match figure_rowsb c x with
  | None => false
  | Some h => match c_code x with I_NOP | I_MULTI => true | _ => false end || (c_dq x =? 0)%nat || (3 <? h)%nat
              || forallb (fun j => match elem (c_data x) j with Some v => writableb v || ((j =? 1)%nat && timer_code (c_code x)) | None => false end) (seq 0 h)
  end.
Lemma drawableb_ok c n r col x : cell_of c n r col = Some x -> drawableb c x = true -> drawable c n r col.
Proof.
  intros X H. unfold drawableb in H. destruct (figure_rowsb c x) as [h|] eqn:FR; [|discriminate].
  assert (FR' : figure_rows c n r col = Some h /\ (c_code x = I_FOREIGN -> exists v, elem (c_data x) 0 = Some v)).
  { unfold figure_rows, code_at, arg. cbn [peek]. rewrite X. cbn [option_map obind]. unfold figure_rowsb in FR. destruct (c_code x); try (split; [exact FR|discriminate]).
    destruct (elem (c_data x) 0) as [v|]; [|discriminate]. cbn [option_map]. split; [exact FR|eauto]. }
  destruct FR' as [F1 F2]. exists (c_bar x), (c_code x), (c_dq x), h. cbn [peek]. rewrite X. cbn [option_map]. split; auto. split; auto. split.
  - intros E. destruct (F2 E) as (v & V). exists v. cbn [peek]. rewrite X. cbn [obind]. now rewrite V.
  - intros N1 N2 D H3 d HD. cbn [obind]. rewrite !orb_true_iff in H. destruct H as [[[H|H]|H]|H].
    + destruct (c_code x); discriminate || congruence.
    + apply Nat.eqb_eq in H. lia.
    + apply Nat.ltb_lt in H. lia.
    + assert (K := forallb_seq _ _ H d HD). cbv beta in K. destruct (elem (c_data x) d) as [v|]; [|discriminate]. exists v. split; [reflexivity|]. apply orb_true_iff in K. destruct K as [K|K]; [left; now apply writableb_ok|].
      apply andb_prop in K as [K1 K2]. apply Nat.eqb_eq in K1. auto.
Qed.
Definition printableb (c : ctx) : bool := all_cells c (drawableb c).
Lemma printableb_ok c : printableb c = true -> printable c.
Proof.
  intros H n N. assert (K := forallb_seq _ _ H n N). cbv beta in K. destruct (net_of c n) as [nt|] eqn:E; [|discriminate]. exists (n_en nt), (n_rows nt), (n_cols nt). cbn [peek]. rewrite E. split; auto.
  intros _ r col R C. destruct (all_cells_ok c (drawableb c) n r col H) as (x & X & D).
  - split; auto. exists (n_en nt), (n_rows nt), (n_cols nt). cbn [peek]. rewrite E. auto.
  - eapply drawableb_ok; eauto.
Qed.
Definition presentableb (c : ctx) : bool :=
  (Z.of_nat (q_nets (x_q c)) <=? 2 ^ 31)
  && forallb (fun n => match net_of c n with Some nt => (n_rows nt <=? 32)%nat && (n_cols nt <=? 255)%nat | None => true end) (seq 0 (q_nets (x_q c)))
  && match fo_fn (x_for c) with Some l => forallb (fun d => (1 <=? d_cells (f_iocd d))%nat && (d_cells (f_iocd d) <=? 3)%nat) l | None => true end.
Lemma documented_rows i h k : documented i = Some (h, k) -> (1 <= h <= 3)%nat.
Proof. destruct i; intros [= <- <-]; lia. Qed.
Lemma presentableb_ok c : presentableb c = true -> presentable c.
Proof.
  unfold presentableb. rewrite !andb_true_iff. intros [[H1 H2] H3]. split; [now apply Z.leb_le|]. intros n en rows cols N P. assert (K := forallb_seq _ _ H2 n N). cbv beta in K. cbn [peek] in P.
  destruct (net_of c n) as [nt|]; [|discriminate]. injection P as <- <- <-. apply andb_prop in K as [K1 K2]. apply Nat.leb_le in K1, K2. split; [split; auto|]. intros r col h R C T.
  unfold takes in T. destruct (code_at c n r col); try contradiction; try lia; try (destruct T as [k T]; exact (documented_rows _ _ _ T)); try lia.
  destruct T as (v & k & _ & [B|(_ & fo & l & d & B1 & B2 & _ & B4 & B5 & _)]); [discriminate|]. cbn [peek] in B1. injection B1 as <-. rewrite B2 in H3. apply nth_error_In in B4.
  rewrite forallb_forall in H3. specialize (H3 d B4). apply andb_prop in H3 as [A B]. apply Nat.leb_le in A, B. lia.
Qed.
(** Texts found or not. *)
Lemma stands_sub p k s : stands_at p k s -> firstn (length s) (skipn k p) = s.
Proof. intros (a & b & -> & <-). rewrite skipn_app, skipn_all, Nat.sub_diag. cbn [app skipn]. rewrite firstn_app, Nat.sub_diag, firstn_all. now rewrite app_nil_r. Qed.
