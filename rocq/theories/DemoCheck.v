(** Decision procedures for the hypotheses about the program checker on concrete machines. *)
From Verif Require Export SpecCheck DemoSafe.

Definition exactlyb {A} (n : nat) (p : option (list A)) : bool := match p with Some l => (length l =? n)%nat && negb (n =? 0)%nat | None => (n =? 0)%nat end.
Lemma exactlyb_ok {A} n (p : option (list A)) : exactlyb n p = true -> exactly n p.
Proof.
  unfold exactlyb, exactly. destruct p as [l|]; [rewrite andb_true_iff, negb_true_iff, Nat.eqb_eq, Nat.eqb_neq|rewrite Nat.eqb_eq]; intros H; split; simpl; try lia; split; intros; try discriminate; try lia; auto.
Qed.
Definition checkableb (c : ctx) : bool :=
  exactlyb (io_rq (x_io c)) (x_in c) && exactlyb (io_wq (x_io c)) (x_out c) && cellsb c
  && firstb (fo_qty (x_for c)) (fun d => (1 <=? d_cells (f_iocd d))%nat && (d_cells (f_iocd d) <=? 255)%nat) (fo_fn (x_for c)).
Lemma checkableb_ok c : checkableb c = true -> checkable c.
Proof.
  unfold checkableb. rewrite !andb_true_iff. intros (((A & B) & C) & D). constructor; auto using exactlyb_ok.
  - intros n N. destruct (cellsb_ok c C n N) as (en & rows & cols & P & _ & Q). exists en, rows, cols. split; auto. intros r col R L.
    destruct (Q r col R L) as (bar & i & dq & X & _ & Y). eauto 6.
  - intros f i P I. cbn [peek] in P. injection P as <-. destruct (firstb_ok _ _ _ _ D I) as (d & X & Y). apply andb_prop in Y as [Y1 Y2].
    apply Nat.leb_le in Y1, Y2. eauto.
Qed.
Definition acceptsb (c : ctx) : bool := match program_check c with Ok (Some st) => match ps_err st with P_OK => true | _ => false end | _ => false end.
Lemma acceptsb_ok c : acceptsb c = true -> accepts c.
Proof. unfold acceptsb, accepts. destruct (program_check c) as [[st|]| |]; try discriminate. destruct (ps_err st) eqn:E; try discriminate. eauto. Qed.
Definition refusesb (c : ctx) : bool := match program_check c with Ok (Some st) => match ps_err st with P_OK => false | _ => true end | _ => false end.
Lemma refusesb_ok c : refusesb c = true -> ~ accepts c.
Proof. unfold refusesb, accepts. intros H (st & A & B). rewrite A, B in H. discriminate. Qed.
Definition completeb (c : ctx) : bool :=
  each_cell (fun n _ r col =>
    match cell_of c n r col with
    | Some x => known_b (c_code x)
        && (match documented (c_code x) with Some (_, k) => (c_dq x =? k)%nat | None => true end)
        && match c_data x with Some l => forallb (fun v => match v_type v with R_NONE => fitsb (v_raw v) | _ => true end) l | None => true end
        && match c_code x with I_TMOVE => constb (input c n r col 0) (fun z => in_qtyb z (q_nets (x_q c))) && constb (input c n r col 2) (fun z => in_qtyb z (q_nets (x_q c))) | _ => true end
    | None => false end) c.
Lemma completeb_ok c : completeb c = true -> complete c.
Proof.
  intros H n rows cols r col S R C. pose proof (each_cell_ok _ _ _ _ _ _ _ H S R C) as K. cbv beta in K. unfold code_at, operand_at. cbn [peek].
  destruct (cell_of c n r col) as [x|] eqn:X; [|discriminate]. cbn [option_map obind]. rewrite !andb_true_iff in K. destruct K as (((K1 & K2) & K3) & K4).
  split; [|split; [|split]].
  - destruct (c_code x); simpl in *; auto; discriminate.
  - intros h k D. rewrite D in K2. apply Nat.eqb_eq in K2. rewrite K2. eauto.
  - intros d v [V _] T. destruct (c_data x) as [l|]; [|discriminate]. simpl in V. destruct (nth_error l d) as [v'|] eqn:E; [|discriminate]. injection V as ->.
    rewrite forallb_forall in K3. apply nth_error_In, K3 in E. rewrite T in E. now apply fitsb_ok.
  - intros T. rewrite T in K4. apply andb_prop in K4 as [K5 K6]. intros z [Z|Z]; apply (in_qtyb_ok z); [exact (constb_ok _ _ _ K5 Z)|exact (constb_ok _ _ _ K6 Z)].
Qed.
(** A machine laid out as configured. *)
Definition laid_outb (c : ctx) : bool :=
  bank_sizesb c && modulesb c && extrasb c && typedb c && checkableb c && match x_net c with Some l => Z.of_nat (length l) <=? 2 ^ 32 | None => false end.
Lemma laid_outb_ok c : laid_outb c = true -> laid_out c.
Proof.
  unfold laid_outb. rewrite !andb_true_iff. intros (((((A & B) & C) & D) & F) & G). constructor; auto using bank_sizesb_ok, modulesb_ok, extrasb_ok, typedb_ok, checkableb_ok.
  - unfold peek. destruct (x_net c) as [l|]; [|discriminate]. split; [discriminate|]. intros k [= <-]. now apply Z.leb_le.
  - unfold checkableb in F. rewrite !andb_true_iff in F. destruct F as ((_ & F) & _). intros n rows cols [N S]. destruct (cellsb_ok c F n N) as (en & rows' & cols' & P & Q & _).
    rewrite S in P. injection P as <- <- <-. auto.
Qed.
