(** Deciding well-formedness of concrete machines (used by the examples only). *)
From Verif Require Export DemoTask SpecSafe.

Definition arrb (f : Z -> bool) (p : arr) : bool := match p with Some l => forallb f l | None => true end.
Lemma arrb_ok f p i z : arrb f p = true -> elem p i = Some z -> f z = true.
Proof. unfold arrb. destruct p as [l|]; [|discriminate]. simpl. intros H E. rewrite forallb_forall in H. apply H. eapply nth_error_In; eauto. Qed.
Definition upto (n z : Z) : bool := (0 <=? z) && (z <=? n).
Definition fitsb (z : Z) : bool := (- 2 ^ 31 <=? z) && (z <? 2 ^ 31).
Definition u32b (z : Z) : bool := (0 <=? z) && (z <? 2 ^ 32).
Definition regb (b : bank) : Z -> bool :=
  match b with
  | B_Cd | B_Cr | B_Td | B_Tr | B_Cdh | B_Crh | B_Tdh | B_Trh => upto 1
  | B_M | B_Mh => upto 255
  | B_C | B_R => u32b
  | B_D => fitsb
  end.
Definition inkb (k : ik) : Z -> bool := match k with K_I | K_Ih => upto 255 | K_IW | K_IWh => fitsb end.
Definition outkb (k : ok) : Z -> bool := match k with K_Q | K_Qh => upto 255 | K_QW | K_QWh => fitsb end.
Definition iks : list ik := [K_I; K_Ih; K_IW; K_IWh].
Definition oks : list ok := [K_Q; K_Qh; K_QW; K_QWh].
Definition listb {A} (f : A -> bool) (p : option (list A)) : bool := match p with Some l => forallb f l | None => true end.
Lemma listb_ok {A} (f : A -> bool) p i x : listb f p = true -> elem p i = Some x -> f x = true.
Proof. unfold listb. destruct p as [l|]; [|discriminate]. simpl. intros H E. rewrite forallb_forall in H. apply H. eapply nth_error_In; eauto. Qed.
Definition typedb (c : ctx) : bool :=
  forallb (fun b => arrb (regb b) (bank_arr b c)) banks
  && listb (fun t => u32b (t_acc t)) (x_tm c)
  && listb (fun m => forallb (fun k => arrb (inkb k) (in_arr k m)) iks) (x_in c)
  && listb (fun m => forallb (fun k => arrb (outkb k) (out_arr k m)) oks) (x_out c).
Lemma upto_ok n z : upto n z = true -> 0 <= z <= n. Proof. unfold upto. rewrite andb_true_iff. lia. Qed.
Lemma fitsb_ok z : fitsb z = true -> fits z. Proof. unfold fitsb, fits. rewrite andb_true_iff. lia. Qed.
Lemma u32b_ok z : u32b z = true -> 0 <= z < 2 ^ 32. Proof. unfold u32b. rewrite andb_true_iff. lia. Qed.
Lemma typedb_ok c : typedb c = true -> typed c.
Proof.
  unfold typedb. rewrite !andb_true_iff. intros (((A & B) & C) & D) l z Z. unfold holds, peek in Z. destruct l; simpl; try exact I; try discriminate.
  - rewrite forallb_forall in A. specialize (A b). destruct (elem _ i) as [y|] eqn:X; [|discriminate]. simpl in Z. injection Z as <-.
    eapply arrb_ok in X; [|apply A; destruct b; simpl; auto 20]. destruct b; simpl in *; auto using upto_ok, fitsb_ok, u32b_ok.
  - destruct (elem _ i) as [y|] eqn:X; [|discriminate]. simpl in Z. injection Z as <-. apply (listb_ok _ _ _ _ B) in X. now apply u32b_ok.
  - destruct (elem (x_in c) m) as [y|] eqn:X; [|discriminate]. simpl in Z. destruct (elem _ i) as [w|] eqn:Y; [|discriminate]. simpl in Z. injection Z as <-.
    apply (listb_ok _ _ _ _ C) in X. rewrite forallb_forall in X. specialize (X k). eapply arrb_ok in Y; [|apply X; destruct k; simpl; auto 20]. destruct k; simpl in *; auto using upto_ok, fitsb_ok.
  - destruct (elem (x_out c) m) as [y|] eqn:X; [|discriminate]. simpl in Z. destruct (elem _ i) as [w|] eqn:Y; [|discriminate]. simpl in Z. injection Z as <-.
    apply (listb_ok _ _ _ _ D) in X. rewrite forallb_forall in X. specialize (X k). eapply arrb_ok in Y; [|apply X; destruct k; simpl; auto 20]. destruct k; simpl in *; auto using upto_ok, fitsb_ok.
Qed.
(** Modules. *)
Definition haveb (n : nat) (p : arr) : bool := match p with Some l => (n <=? length l)%nat | None => (n =? 0)%nat end.
Definition in_modb (m : inmod) : bool := haveb (i_iq m) (i_I m) && haveb (i_iwq m) (i_IW m) && sizedb (i_iq m) (i_Ih m) && sizedb (i_iwq m) (i_IWh m).
Definition out_modb (m : outmod) : bool := haveb (o_qq m) (o_Q m) && haveb (o_qwq m) (o_QW m) && sizedb (o_qq m) (o_Qh m) && sizedb (o_qwq m) (o_QWh m).
Definition firstb {A} (n : nat) (f : A -> bool) (p : option (list A)) : bool := forallb (fun i => match elem p i with Some x => f x | None => false end) (seq 0 n).
Lemma firstb_ok {A} n (f : A -> bool) p i : firstb n f p = true -> (i < n)%nat -> exists x, elem p i = Some x /\ f x = true.
Proof.
  unfold firstb. intros H L. rewrite forallb_forall in H. specialize (H i). rewrite in_seq in H. specialize (H ltac:(lia)). destruct (elem p i); [eauto|discriminate].
Qed.
Definition modulesb (c : ctx) : bool := firstb (io_rq (x_io c)) in_modb (x_in c) && firstb (io_wq (x_io c)) out_modb (x_out c).
Lemma haveb_ok n (p : arr) : haveb n p = true -> n = 0%nat \/ exists k, size p = Some (VN k) /\ (n <= k)%nat.
Proof. unfold haveb. destruct p as [l|]; intros H; [right|left; now apply Nat.eqb_eq]. exists (length l). split; auto. now apply Nat.leb_le. Qed.
Lemma sizedb_ok' n (p : arr) : sizedb n p = true -> size p = None \/ exists k, size p = Some (VN k) /\ (n <= k)%nat.
Proof. unfold sizedb. destruct p as [l|]; simpl; [|auto]. right. exists (length l). split; auto. now apply Nat.leb_le. Qed.
Lemma modulesb_ok c : modulesb c = true -> modules_ok c.
Proof.
  unfold modulesb. rewrite andb_true_iff. intros [A B]. split; intros m M.
  - destruct (firstb_ok _ _ _ _ A M) as (x & X & F). unfold in_modb in F. rewrite !andb_true_iff in F. destruct F as (((F1 & F2) & F3) & F4).
    exists (i_id x), (i_iq x), (i_iwq x). split; [simpl; now rewrite X|]. intros k. unfold peek. rewrite X. destruct k; simpl; auto using haveb_ok, sizedb_ok'.
  - destruct (firstb_ok _ _ _ _ B M) as (x & X & F). unfold out_modb in F. rewrite !andb_true_iff in F. destruct F as (((F1 & F2) & F3) & F4).
    exists (o_id x), (o_qq x), (o_qwq x). split; [simpl; now rewrite X|]. intros k. unfold peek. rewrite X. destruct k; simpl; auto using haveb_ok, sizedb_ok'.
Qed.
(** Cells. *)
Definition cell_okb (en : bool) (x : cell) : bool :=
  (negb en || known_b (c_code x)) && ((c_dq x =? 0)%nat || match c_data x with Some d => (c_dq x <=? length d)%nat | None => false end).
Definition all_cells (c : ctx) (n rows cols : nat) (f : nat -> nat -> bool) : bool :=
  forallb (fun r => forallb (fun col => f r col) (seq 0 cols)) (seq 0 rows).
Lemma all_cells_ok c n rows cols f r col : all_cells c n rows cols f = true -> (r < rows)%nat -> (col < cols)%nat -> f r col = true.
Proof.
  unfold all_cells. intros H R C. rewrite forallb_forall in H. specialize (H r). rewrite in_seq in H. specialize (H ltac:(lia)).
  rewrite forallb_forall in H. specialize (H col). rewrite in_seq in H. apply H. lia.
Qed.
Definition cellsb (c : ctx) : bool :=
  forallb (fun n => match net_of c n with
    | Some nt => (negb (n_en nt) || (0 <? n_cols nt)%nat)
        && all_cells c n (n_rows nt) (n_cols nt) (fun r col => match cell_of c n r col with Some x => cell_okb (n_en nt) x | None => false end)
    | None => false end) (seq 0 (q_nets (x_q c))).
Lemma cellsb_ok c : cellsb c = true -> cells_ok c.
Proof.
  unfold cellsb. intros H n N. rewrite forallb_forall in H. specialize (H n). rewrite in_seq in H. specialize (H ltac:(lia)).
  destruct (net_of c n) as [nt|] eqn:X; [|discriminate]. apply andb_prop in H as [H1 H2]. exists (n_en nt), (n_rows nt), (n_cols nt).
  split; [unfold peek; now rewrite X|]. split; [intros EN; rewrite EN in H1; now apply Nat.ltb_lt|].
  intros r col R C. pose proof (all_cells_ok _ _ _ _ _ _ _ H2 R C) as F. cbv beta in F. unfold peek. destruct (cell_of c n r col) as [x|]; [|discriminate].
  unfold cell_okb in F. apply andb_prop in F as [F1 F2]. exists (c_bar x), (c_code x), (c_dq x). split; auto. split.
  - intros EN. rewrite EN in F1. simpl in F1. destruct (c_code x); simpl in *; auto; discriminate.
  - apply orb_prop in F2 as [F2|F2]; [left; now apply Nat.eqb_eq|]. right. simpl. destruct (c_data x) as [d|]; [|discriminate]. exists (length d). split; auto. now apply Nat.leb_le.
Qed.
Definition extrasb (c : ctx) : bool :=
  is_null (x_cron c) && forallb (fun i => match elem (fo_fn (x_for c)) i with Some _ => true | None => false end) (seq 0 (fo_qty (x_for c))).
Lemma extrasb_ok c : extrasb c = true -> extras_ok c.
Proof.
  unfold extrasb. intros H. apply andb_prop in H as [A B]. split.
  - intros k K. unfold peek in K. injection K as K. rewrite K in A. discriminate.
  - intros f K i I0. unfold peek in K. injection K as <-. rewrite forallb_forall in B. specialize (B i). rewrite in_seq in B. specialize (B ltac:(lia)).
    intros X. rewrite X in B. discriminate.
Qed.
(** Instructions. *)
Definition port_okb (c : ctx) (v : value) : bool :=
  match v_type v with
  | R_Q | R_QW => negb (v_module v <? Z.of_nat (io_wq (x_io c))) || match target c v with Some _ => true | None => false end
  | R_I | R_IW => negb (v_module v <? Z.of_nat (io_rq (x_io c))) || match target c v with Some _ => true | None => false end
  | _ => true
  end.
Definition read_okb (c : ctx) (v : value) : bool := (match v_type v with R_NONE => fitsb (v_raw v) | _ => true end) && port_okb c v.
Definition past_okb (c : ctx) (v : value) : bool := negb (bad_b c v) && match v_type v with R_QW | R_IW => port_okb c v | _ => true end.
Definition has_operandb (c : ctx) (n r col j : nat) : bool := match peek c (LData n r col j) with Some (VVal _) => true | _ => false end.
Definition word_destb (v : value) : bool := match v_type v with R_Cd | R_Cr | R_Td | R_Tr => false | _ => true end.
Definition constb (v : value) (p : Z -> bool) : bool := match v_type v with R_NONE => p (v_raw v) | _ => false end.
Definition in_qtyb (z : Z) (q : nat) : bool := (0 <=? z) && (z <? Z.of_nat q).
Definition cell_safeb (c : ctx) (n rows r col : nat) : bool :=
  let a := input c n r col in
  let R j := read_okb c (a j) in
  let H j := has_operandb c n r col j in
  let D j := word_destb (arg c n r col j) in
  match code_at c n r col with
  | I_NO | I_NC | I_FOREIGN => R 0%nat
  | I_RE | I_FE => R 0%nat && past_okb c (a 0%nat)
  | I_COIL => H 0%nat
  | I_COILL | I_COILU => H 0%nat && past_okb c (a 0%nat)
  | I_TON | I_TOF | I_TP => H 0%nat && H 1%nat && in_qtyb (v_raw (arg c n r col 0)) (q_t (x_q c))
      && (match basetime (v_type (arg c n r col 1)) with Some _ => true | None => false end) && (S r <? rows)%nat && past_okb c (a 0%nat)
  | I_CTU | I_CTD => H 0%nat && H 1%nat && in_qtyb (v_raw (arg c n r col 0)) (q_c (x_q c)) && (S r <? rows)%nat
  | I_ADD | I_MUL | I_DIV | I_MOD | I_AND | I_OR | I_XOR => R 0%nat && R 1%nat && H 2%nat && D 2%nat
  | I_SUB => R 0%nat && R 1%nat && H 2%nat && D 2%nat && (S (S r) <? rows)%nat
  | I_NOT => R 0%nat && H 1%nat && D 1%nat
  | I_SHL | I_SHR | I_ROL | I_ROR => R 0%nat && R 1%nat && H 0%nat && D 0%nat
  | I_EQ | I_NE | I_GT | I_GE | I_LT | I_LE => R 0%nat && R 1%nat
  | I_MOVE => R 0%nat
  | I_TMOVE => R 0%nat && R 1%nat && R 2%nat && R 3%nat && R 4%nat
      && constb (a 0%nat) (fun z => in_qtyb z (q_nets (x_q c))) && constb (a 2%nat) (fun z => in_qtyb z (q_nets (x_q c)))
  | _ => true
  end.
Lemma port_okb_ok c v : port_okb c v = true -> port_ok c v.
Proof.
  unfold port_okb, port_ok. destruct (v_type v); auto; intros H L; apply orb_prop in H as [H|H]; try (destruct (target c v); discriminate);
    apply negb_true_iff, Z.ltb_ge in H; lia.
Qed.
Lemma read_okb_ok c v : read_okb c v = true -> read_ok c v.
Proof. unfold read_okb. rewrite andb_true_iff. intros [A B]. split; [|now apply port_okb_ok]. intros K. rewrite K in A. now apply fitsb_ok. Qed.
Lemma past_okb_ok c v : past_okb c v = true -> past_ok c v.
Proof.
  unfold past_okb. rewrite andb_true_iff. intros [A B]. split; [rewrite <- bad_b_spec; intros X; rewrite X in A; discriminate|].
  destruct (v_type v); auto; now apply port_okb_ok.
Qed.
Lemma has_operandb_ok c n r col j : has_operandb c n r col j = true -> has_operand c n r col j.
Proof. unfold has_operandb, has_operand. destruct (peek _ _) as [[]|]; try discriminate. eauto. Qed.
Lemma word_destb_ok v : word_destb v = true -> word_dest v.
Proof. unfold word_destb, word_dest. destruct (v_type v); auto; discriminate. Qed.
Lemma in_qtyb_ok z q : in_qtyb z q = true -> in_qty z q. Proof. unfold in_qtyb, in_qty. rewrite andb_true_iff. lia. Qed.
Lemma constb_ok v p z : constb v p = true -> possible v z -> p z = true.
Proof. unfold constb, possible. destruct (v_type v); try discriminate. congruence. Qed.
Lemma cell_safeb_ok c n rows r col : cell_safeb c n rows r col = true -> cell_safe c n rows r col.
Proof.
  unfold cell_safeb, cell_safe. cbv zeta. destruct (code_at c n r col); auto; rewrite ?andb_true_iff; intros H; try (now apply read_okb_ok); try (now apply has_operandb_ok);
    repeat match goal with H : _ /\ _ |- _ => destruct H end;
    repeat match goal with |- _ /\ _ => split end; auto using read_okb_ok, past_okb_ok, has_operandb_ok, word_destb_ok, in_qtyb_ok;
    try (apply Nat.ltb_lt; assumption); try (intros _; now apply past_okb_ok);
    try (intros K; rewrite K in *; discriminate).
  intros z [K|K]; apply (in_qtyb_ok z); eauto using (constb_ok _ (fun z => in_qtyb z (q_nets (x_q c)))).
Qed.
(** Arithmetic, by intervals. *)
Definition span (v : value) : Z * Z :=
  match v_type v with
  | R_NONE => (v_raw v, v_raw v)
  | R_M | R_Q | R_I => (0, 255)
  | R_Cd | R_Cr | R_Td | R_Tr => (0, 1)
  | R_T => (0, 2 ^ 31 - 1)
  | R_C | R_D | R_R | R_IW | R_QW => (- 2 ^ 31, 2 ^ 31 - 1)
  | R_S | R_INV | R_OTHER _ => (0, 0)
  end.
Lemma span_ok v z : possible v z -> fst (span v) <= z <= snd (span v).
Proof. unfold possible, span, fits. destruct (v_type v); simpl; lia. Qed.
Definition mag (v : value) : Z := Z.max (Z.abs (fst (span v))) (Z.abs (snd (span v))).
Lemma mag_ok v z : possible v z -> Z.abs z <= mag v.
Proof. intros H. apply span_ok in H. unfold mag. lia. Qed.
Definition cell_exactb (c : ctx) (n r col : nat) : bool :=
  let a := input c n r col in
  let '(l0, h0) := span (a 0%nat) in
  let '(l1, h1) := span (a 1%nat) in
  forallb (fun j => match v_type (a j) with R_R => false | _ => true end) (converted (code_at c n r col))
  && match code_at c n r col with
     | I_ADD => fitsb (l0 + l1) && fitsb (h0 + h1)
     | I_SUB => fitsb (l0 - h1) && fitsb (h0 - l1)
     | I_MUL => mag (a 0%nat) * mag (a 1%nat) <? 2 ^ 31
     | I_DIV => mag (a 0%nat) <? 2 ^ 31
     | I_MOD => (mag (a 0%nat) <? 2 ^ 31) && ((0 <? l1) || (h1 <? 0))
     | I_ROL | I_ROR => constb (a 1%nat) (fun y => negb (y mod 32 =? 0))
     | _ => true
     end.
Lemma quot_abs_le x y : Z.abs (Z.quot x y) <= Z.abs x.
Proof.
  destruct (Z.eq_dec y 0) as [->|N]; [rewrite Z.quot_0_r_ext by auto; lia|]. rewrite <- Z.quot_abs by auto.
  rewrite Z.quot_div_nonneg by lia. apply Z.div_le_upper_bound; nia.
Qed.
Lemma cell_exactb_ok c n r col : cell_exactb c n r col = true -> cell_exact c n r col.
Proof.
  unfold cell_exactb, cell_exact. cbv zeta. destruct (span (input c n r col 0)) as [l0 h0] eqn:S0. destruct (span (input c n r col 1)) as [l1 h1] eqn:S1.
  rewrite andb_true_iff. intros [A B]. split.
  - intros j J K. rewrite forallb_forall in A. specialize (A j J). cbv beta in A. rewrite K in A. discriminate.
  - intros x y X Y. pose proof (span_ok _ _ X) as X1. pose proof (span_ok _ _ Y) as Y1. pose proof (mag_ok _ _ X) as X2. pose proof (mag_ok _ _ Y) as Y2.
    rewrite S0 in X1. rewrite S1 in Y1. simpl in X1, Y1. pose proof (quot_abs_le x y) as Q.
    destruct (code_at c n r col); auto; rewrite ?andb_true_iff in B.
    + destruct B as [B1 B2]. apply fitsb_ok in B1, B2. unfold fits in *. lia.
    + destruct B as [B1 B2]. apply fitsb_ok in B1, B2. unfold fits in *. lia.
    + apply Z.ltb_lt in B. assert (Z.abs (x * y) < 2 ^ 31) by (rewrite Z.abs_mul; nia). unfold fits. lia.
    + apply Z.ltb_lt in B. intros _. unfold fits. lia.
    + destruct B as [B1 B2]. apply Z.ltb_lt in B1. split; [apply orb_prop in B2 as [B2|B2]; apply Z.ltb_lt in B2; lia|]. unfold fits. lia.
    + pose proof (constb_ok _ _ _ B Y) as K. cbv beta in K. apply negb_true_iff, Z.eqb_neq in K. auto.
    + pose proof (constb_ok _ _ _ B Y) as K. cbv beta in K. apply negb_true_iff, Z.eqb_neq in K. auto.
Qed.
(** All together. *)
Definition bank_sizesb (c : ctx) : bool :=
  forallb (fun b => arr_okb (bank_arr b c) (bank_qty b (x_q c))) banks && (match x_tm c with Some l => (q_t (x_q c) <=? length l)%nat | None => false end).
Lemma bank_sizesb_ok c : bank_sizesb c = true -> sized c.
Proof.
  unfold bank_sizesb. rewrite andb_true_iff. intros [B C]. split.
  - intros b. rewrite forallb_forall in B. specialize (B b). assert (I : In b banks) by (destruct b; simpl; auto 20). specialize (B I). unfold arr_okb in B.
    unfold peek. destruct (bank_arr b c) as [l|]; [|discriminate]. exists (length l). split; auto. now apply Nat.leb_le.
  - unfold peek. destruct (x_tm c) as [l|]; [|discriminate]. exists (length l). split; auto. now apply Nat.leb_le.
Qed.
Definition each_cell (f : nat -> nat -> nat -> nat -> bool) (c : ctx) : bool :=
  forallb (fun n => match net_of c n with Some nt => negb (n_en nt) || all_cells c n (n_rows nt) (n_cols nt) (f n (n_rows nt)) | None => false end) (seq 0 (q_nets (x_q c))).
Lemma each_cell_ok f c n rows cols r col : each_cell f c = true -> scanned c n rows cols -> (r < rows)%nat -> (col < cols)%nat -> f n rows r col = true.
Proof.
  unfold each_cell. intros H [N P] R C. rewrite forallb_forall in H. specialize (H n). rewrite in_seq in H. specialize (H ltac:(lia)). unfold peek in P.
  destruct (net_of c n) as [nt|]; [|discriminate]. simpl in P. injection P as P1 P2 P3. rewrite P1, P2, P3 in H. simpl in H. eapply all_cells_ok in H; eauto.
Qed.
Definition wfb (c : ctx) : bool :=
  bank_sizesb c && modulesb c && cellsb c && extrasb c && match x_net c with Some l => Z.of_nat (length l) <=? 2 ^ 32 | None => false end
  && typedb c && each_cell (cell_safeb c) c.
Lemma wfb_ok c : wfb c = true -> well_formed_ctx c.
Proof.
  unfold wfb. rewrite !andb_true_iff. intros ((((((A & B) & C) & D) & F) & G) & H). constructor; auto using bank_sizesb_ok, modulesb_ok, cellsb_ok, extrasb_ok, typedb_ok.
  - unfold peek. destruct (x_net c) as [l|]; [|discriminate]. split; [discriminate|]. intros k [= <-]. now apply Z.leb_le.
  - intros n rows cols r col S R CC. apply cell_safeb_ok. exact (each_cell_ok _ _ _ _ _ _ _ H S R CC).
Qed.
Definition exactb (c : ctx) : bool := each_cell (fun n _ => cell_exactb c n) c.
Lemma exactb_ok c : exactb c = true -> exact_program c.
Proof. intros H n rows cols r col S R C. apply cell_exactb_ok. exact (each_cell_ok _ _ _ _ _ _ _ H S R C). Qed.
Definition coversb (n : nat) (p : option (list bool)) : bool := match p with Some t => (n <=? length t)%nat | None => true end.
Definition tablesb (c : ctx) : bool := coversb (io_rq (x_io c)) (io_rd (x_io c)) && coversb (io_wq (x_io c)) (io_wr (x_io c)).
Lemma tablesb_ok c : tablesb c = true -> tables_ok c.
Proof.
  unfold tablesb. rewrite andb_true_iff. intros [A B]. exists (x_io c). split; auto. split; intros t T; rewrite T in *; now apply Nat.leb_le.
Qed.
(** The environment of the task examples, when the inputs fed are bytes. *)
Lemma feed_typed z n c : (forall i, 0 <= z i <= 255) -> typed c -> typed (set_x_in (option_map (nth_map (feed_in z) n) (x_in c)) c).
Proof.
  intros Hz T l y Y. assert (X : (exists i, l = LIn n K_I i) \/ ~ exists i, l = LIn n K_I i).
  { destruct l; try (right; intros (? & ?); discriminate). destruct k; try (right; intros (? & ?); discriminate).
    destruct (Nat.eq_dec m n) as [->|]; [left; eauto|right; intros (? & ?); congruence]. }
  destruct X as [(i & ->)|X].
  - unfold holds, peek in Y. cbn [x_in set_x_in] in Y. destruct (x_in c) as [ms|]; [|discriminate]. simpl in Y. rewrite nth_map_nth, Nat.eqb_refl in Y.
    destruct (nth_error ms n) as [x|]; [|discriminate]. simpl in Y. destruct (i_I x) as [w|]; [|discriminate]. simpl in Y.
    destruct (nth_error (map z (seq 0 (length w))) i) as [u|] eqn:Q; [|discriminate]. simpl in Y. injection Y as <-. apply nth_error_In, in_map_iff in Q. destruct Q as (j & <- & _). simpl. auto.
  - apply T. unfold holds in *. rewrite <- (feed_changes z n c l X). exact Y.
Qed.
Lemma task_behaved clock ins req : (forall k i, 0 <= ins k i <= 255) -> behaved (task_env clock ins req) task_w.
Proof.
  intros H. constructor.
  - apply task_callbacks.
  - intros k ev c T. destruct ev; simpl; auto.
    + destruct (req k) as [u|]; auto. intros l z Z. apply T. unfold holds in *. rewrite <- Z. destruct l; try reflexivity; discriminate.
    + destruct (req k) as [u|]; auto. intros l z Z. apply T. unfold holds in *. rewrite <- Z. destruct l; try reflexivity; discriminate.
    + apply feed_typed; auto.
  - intros. simpl. auto.
  - intros k. unfold calendar. simpl. lia.
Qed.
