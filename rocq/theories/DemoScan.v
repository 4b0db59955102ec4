(** Deciding the hypotheses of scan statements for concrete programs (used by the examples only). *)
From Verif Require Export Demo ScanOutcome.

(** Deciding the hypotheses for concrete contexts. *)
Definition known_b (i : ins) : bool := match i with I_INV | I_OTHER _ => false | _ => true end.
Definition wf_netb (c : ctx) (n : nat) : bool :=
  match net_of c n with
  | None => false
  | Some nt => negb (is_null (n_cells nt)) &&
     (negb (n_en nt) || ((0 <? n_cols nt)%nat &&
      forallb (fun r => forallb (fun col => match cell_of c n r col with Some x => known_b (c_code x) | None => false end)
        (seq 0 (n_cols nt))) (seq 0 (n_rows nt))))
  end.
Definition wf_progb (c : ctx) : bool := negb (is_null (x_net c)) && forallb (wf_netb c) (seq 0 (q_nets (x_q c))).
Lemma wf_progb_ok c : wf_progb c = true -> wf_program c.
Proof.
  unfold wf_progb. intros H. apply andb_prop in H as [H1 H2]. split.
  - simpl. destruct (x_net c); [discriminate|discriminate].
  - intros n Hn. rewrite forallb_forall in H2. specialize (H2 n). rewrite in_seq in H2. specialize (H2 ltac:(lia)). unfold wf_netb in H2.
    simpl. destruct (net_of c n) as [nt|] eqn:N; [|discriminate]. apply andb_prop in H2 as [H2 H3]. simpl. split.
    + destruct (n_cells nt); discriminate.
    + do 3 eexists. split; [reflexivity|]. intros EN. rewrite EN in H3. simpl in H3. apply andb_prop in H3 as [H3 H4].
      apply Nat.ltb_lt in H3. split; auto. intros r col R C. rewrite forallb_forall in H4. specialize (H4 r). rewrite in_seq in H4.
      specialize (H4 ltac:(lia)). rewrite forallb_forall in H4. specialize (H4 col). rewrite in_seq in H4. specialize (H4 ltac:(lia)).
      destruct (cell_of c n r col) as [x|] eqn:X; [|discriminate]. unfold peek. rewrite X. do 3 eexists. split; [reflexivity|].
      destruct (c_code x); simpl in *; auto; discriminate.
Qed.
Definition readyb (c : ctx) : bool :=
  wf_progb c && (0 <=? si_maxcyc (x_si c))
  && forallb (fun b => negb (is_null (bank_arr b c))) banks && negb (is_null (x_tm c))
  && (match x_net c with Some l => Z.of_nat (length l) <=? 2 ^ 32 | None => false end)
  && (match x_cron c with None => true | Some k => match cr_jobs k with Some _ => negb (cr_used k =? 0)%nat | None => false end end).
Lemma quiet_writes clock : env_writes (timed_env clock) (fun _ => False).
Proof. split; intros; simpl; apply changes_refl. Qed.
Lemma readyb_ok c clock : readyb c = true -> scan_ready (timed_env clock) (fun _ => False) c (si_maxcyc (x_si c)).
Proof.
  unfold readyb. rewrite !andb_true_iff. intros (((((A & B) & C) & D) & F) & G). constructor; auto using quiet_writes, wf_progb_ok.
  - intros k K. simpl in K. destruct (x_net c); [|discriminate]. simpl in K. injection K as <-. now apply Z.leb_le.
  - intros [[b K]|K].
    + rewrite forallb_forall in C. specialize (C b). simpl in K. destruct (bank_arr b c); [discriminate|].
      enough (negb true = true) by discriminate. apply C. destruct b; simpl; auto 20.
    + simpl in K. destruct (x_tm c); discriminate.
  - eexists; split; reflexivity.
  - now apply Z.leb_le.
  - unfold cron_ready. simpl. destruct (x_cron c) as [k|]; [|auto]. right. destruct (cr_jobs k) as [js|] eqn:J; [|discriminate].
    exists k, js. repeat split; auto. intros K. rewrite K in G. discriminate.
Qed.
Definition scan_of (E : env) (c : ctx) : ctx := match ladder_scan E (start c) with Ok (_, s') => s_ctx s' | _ => c end.
Definition scan_st (E : env) (c : ctx) : st := match ladder_scan E (start c) with Ok (_, s') => s' | _ => start c end.
Definition net_on (b : bool) (rows : list (list cell)) : network := mk_network b (length rows) (length (nth 0 rows [])) (Some rows).
Definition demo_nets (nets : list network) : ctx :=
  set_x_exec None (set_x_net (Some nets) (set_x_q (set_q_nets (length nets) (x_q (demo [[]]))) (demo [[]]))).

(** ** Ladder logic programs *)
From Verif Require Export Rung.

Definition opb (c : ctx) (n r col i : nat) : bool :=
  match peek c (LData n r col i), peek c (LCell n r col) with
  | Some (VVal _), Some (VCell _ _ dq) => (i <? dq)%nat
  | _, _ => false
  end.
Lemma opb_ok c n r col i : opb c n r col i = true -> operand_at c n r col i (arg c n r col i).
Proof.
  unfold opb, operand_at, arg. destruct (peek c (LData n r col i)) as [[]|]; try discriminate.
  destruct (peek c (LCell n r col)) as [[]|] eqn:X; try discriminate.
  intros H. apply Nat.ltb_lt in H. split; auto; do 3 eexists; split; eauto.
Qed.
Definition hasb (c : ctx) (v : value) : bool := match readv c v with Some _ => true | None => false end.
Lemma hasb_ok c v : hasb c v = true -> has_value c v.
Proof. unfold hasb. destruct (readv c v) as [z|] eqn:R; [|discriminate]. intros _. exists z. now apply readv_reads. Qed.
Definition hadb (c : ctx) (v : value) : bool :=
  match v_type v with
  | R_M => (0 <=? v_raw v) && match peek c (LReg B_Mh (ix (v_raw v))) with Some (VZ _) => true | _ => false end
  | R_NONE => true
  | _ => false
  end.
Lemma hadb_ok c v : hadb c v = true -> had_value c v.
Proof.
  unfold hadb, had_value, prev_reads. destruct (v_type v) eqn:T; intros H; try discriminate.
  - exists 0. reflexivity.
  - apply andb_prop in H as [H1 H2]. destruct (peek c (LReg B_Mh (ix (v_raw v)))) as [[]|] eqn:P; try discriminate.
    eexists. split; [lia|exact P].
Qed.
Definition logic_cellb (c : ctx) (n r col : nat) : bool :=
  let v := arg c n r col 0 in
  let w := arg c n r col 1 in
  match code_at c n r col with
  | I_NOP | I_CONN | I_NEG | I_MULTI => true
  | I_NO | I_NC => opb c n r col 0 && hasb c v
  | I_RE | I_FE => opb c n r col 0 && hasb c v && hadb c v
  | I_COIL => opb c n r col 0
  | I_COILL | I_COILU => opb c n r col 0 && hadb c v
  | I_EQ | I_NE | I_GT | I_GE | I_LT | I_LE => opb c n r col 0 && opb c n r col 1 && hasb c v && hasb c w
  | _ => false
  end.
Lemma logic_cellb_ok c n r col : logic_cellb c n r col = true -> logic_cell c n r col.
Proof.
  unfold logic_cellb, logic_cell. destruct (code_at c n r col); intros H; try discriminate; auto;
    repeat match goal with H : _ && _ = true |- _ => apply andb_prop in H as [] end;
    repeat match goal with |- _ /\ _ => split end; auto using opb_ok, hasb_ok, hadb_ok.
Qed.
Definition on_cells (c : ctx) (f : nat -> nat -> nat -> bool) : bool :=
  forallb (fun n => forallb (fun r => forallb (f n r) (seq 0 (snd (size_of c n)))) (seq 0 (fst (size_of c n)))) (seq 0 (q_nets (x_q c))).
Lemma on_cells_ok c f : on_cells c f = true -> forall n rows cols r col, scanned c n rows cols -> (r < rows)%nat -> (col < cols)%nat -> f n r col = true.
Proof.
  intros H n rows cols r col [S1 S2] R C. unfold on_cells in H. rewrite forallb_forall in H. specialize (H n). rewrite in_seq in H. specialize (H ltac:(lia)).
  unfold size_of in H. rewrite S2 in H. simpl in H. rewrite forallb_forall in H. specialize (H r). rewrite in_seq in H. specialize (H ltac:(lia)).
  rewrite forallb_forall in H. apply H. apply in_seq. lia.
Qed.
Definition logic_readyb (c : ctx) : bool :=
  readyb c && (match x_cron c with None => true | _ => false end) && stores_okb c && on_cells c (logic_cellb c)
  && forallb (fun n => cost c n <=? si_maxcyc (x_si c)) (seq 0 (q_nets (x_q c))).
Lemma logic_readyb_ok c clock : logic_readyb c = true -> logic_ready (timed_env clock) c (si_maxcyc (x_si c)).
Proof.
  unfold logic_readyb. rewrite !andb_true_iff. intros ((((A & B) & C) & D) & F). constructor.
  - now apply readyb_ok.
  - simpl. destruct (x_cron c); [discriminate|reflexivity].
  - now apply stores_okb_ok.
  - intros n rows cols r col SC R CC. apply logic_cellb_ok. eapply on_cells_ok; eauto.
  - intros n Hn. rewrite forallb_forall in F. specialize (F n). rewrite in_seq in F. specialize (F ltac:(lia)). lia.
Qed.
Definition no_barsb (c : ctx) : bool := on_cells c (fun n r col => negb (bar_at c n r col)).
Lemma no_barsb_ok c : no_barsb c = true -> no_bars c.
Proof. intros H n rows cols r col SC R C. pose proof (on_cells_ok _ _ H n rows cols r col SC R C) as K. cbv beta in K. now destruct (bar_at c n r col). Qed.
