(** the program checker (C40). *)
From Verif Require Export Checking P_Safe DemoCheck.
(*IMPORT DemoTask *)

(** The rules for one cell. *)
Definition cell_rule (c : ctx) (n rows r col : nat) : Prop :=
  rows_rule c n rows r col
  /\ (code_at c n r col <> I_MULTI ->
      forall bar i dq d, peek c (LCell n r col) = Some (VCell bar i dq) -> (d < dq)%nat ->
        exists v, peek c (LData n r col d) = Some (VVal v) /\ operand_rule c i dq d v).
Lemma good_of c n r col x : exactly (io_rq (x_io c)) (x_in c) -> exactly (io_wq (x_io c)) (x_out c) -> cell_of c n r col = Some x ->
  sane c x <-> forall bar i dq d, peek c (LCell n r col) = Some (VCell bar i dq) -> (d < dq)%nat ->
        exists v, peek c (LData n r col d) = Some (VVal v) /\ operand_rule c i dq d v.
Proof.
  intros HR HW HX. unfold sane. cbn [peek]. rewrite HX. simpl. split.
  - intros H bar i dq d [= <- <- <-] D. apply H, operand_spec in D; auto. destruct D as (v & -> & D). exists v. auto.
  - intros H d D. apply operand_spec; auto. destruct (H _ _ _ d eq_refl D) as (v & A & B). exists v. split; auto.
    destruct (elem (c_data x) d); [|discriminate]. now injection A as ->.
Qed.
Lemma code_of c n r col x : cell_of c n r col = Some x -> code_at c n r col = c_code x.
Proof. intros H. unfold code_at. cbn [peek]. now rewrite H. Qed.
Lemma rules_of c n nt : checkable c -> (n < q_nets (x_q c))%nat -> net_at n c = Ok nt ->
  (forall col, (col < n_cols nt)%nat -> col_rule c col nt 0 (n_rows nt) 0) <->
  forall r col, (r < n_rows nt)%nat -> (col < n_cols nt)%nat -> cell_rule c n (n_rows nt) r col.
Proof.
  intros HC HN EN.
  assert (HX : forall r col, (r < n_rows nt)%nat -> (col < n_cols nt)%nat -> exists x, cell_of c n r col = Some x).
  { intros r col R C. destruct (ck_cells c HC n HN) as (en & rows & cols & A & B). cbn [peek] in A. rewrite (net_at_inv _ _ _ EN) in A. injection A as <- <- <-.
    destruct (B r col R C) as (bar & i & dq & D & _). cbn [peek] in D. destruct (cell_of c n r col); [eauto|discriminate]. }
  assert (HR := ck_reads c HC). assert (HW := ck_writes c HC). split.
  - intros H r col R C. destruct (H col C r ltac:(lia)) as (x & X1 & X2 & X3 & X4). apply (cell_in_at _ _ _ _ _ _ EN) in X1.
    unfold cell_rule, rows_rule. rewrite (code_of _ _ _ _ _ X1). split.
    + split.
      * intros M. destruct (X3 ltac:(lia) M) as (G & h & H1 & H2 & H3 & H4). exists h. split; [now apply (takes_hgt _ _ _ _ x)|]. split; auto.
        intros k K. destruct (H4 k K) as (y & Y1 & Y2). apply (cell_in_at _ _ _ _ _ _ EN) in Y1. now apply (cont_at _ _ _ _ y).
      * intros M. destruct (X4 ltac:(lia) M) as (r0 & h & y & Y1 & Y2 & Y3 & Y4). exists r0, h. split; [lia|]. split; auto.
        apply (cell_in_at _ _ _ _ _ _ EN) in Y2. now apply (takes_hgt _ _ _ _ y).
    + intros M. destruct (X3 ltac:(lia) M) as (G & _). eapply good_of; eauto.
  - intros H col C j J. destruct (HX j col) as (x & X); [lia|auto|]. destruct (H j col) as [[A B] D]; [lia|auto|].
    rewrite (code_of _ _ _ _ _ X) in A, B, D. exists x. split; [now apply (cell_in_at _ _ _ _ _ _ EN)|]. split; [intros; lia|]. split; intros _ M.
    + split; [eapply good_of; eauto|]. destruct (A M) as (h & T & F & K). apply (takes_hgt _ _ _ _ x) in T; auto. exists h. split; auto.
      split; [|split; auto].
      * destruct h; [|lia]. exfalso. unfold hgt in T. destruct (c_code x); try (destruct T as [k T]; discriminate); try discriminate; auto.
        destruct T as (v & k & _ & _ & [T|(_ & fo & l & d & T1 & T2 & T3 & T4 & T5 & _)]); [discriminate|].
        destruct (ck_foreign c HC fo (ix (u32 (v_raw v))) T1 T3) as (d' & D1 & D2). rewrite T2 in D1. simpl in D1. rewrite T4 in D1. injection D1 as <-. lia.
      * intros i I. destruct (HX i col) as (y & Y); [lia|auto|]. exists y. split; [now apply (cell_in_at _ _ _ _ _ _ EN)|]. apply (cont_at _ _ _ _ _ Y). auto.
    + destruct (B M) as (r0 & h & R0 & T & L). destruct (HX r0 col) as (y & Y); [lia|auto|]. exists r0, h, y. split; [lia|].
      split; [now apply (cell_in_at _ _ _ _ _ _ EN)|]. split; auto. now apply (takes_hgt _ _ _ _ y) in T.
Qed.
Lemma net_of_at c n en rows cols : peek c (LNet n) = Some (VNet en rows cols) -> exists nt, net_at n c = Ok nt /\ n_rows nt = rows /\ n_cols nt = cols.
Proof.
  cbn [peek]. intros H. destruct (net_of c n) as [nt|] eqn:E; [|discriminate]. injection H as <- <- <-. exists nt. split; auto. now apply net_at_of.
Qed.
Lemma peek_net c n nt : net_at n c = Ok nt -> peek c (LNet n) = Some (VNet (n_en nt) (n_rows nt) (n_cols nt)).
Proof. intros H. cbn [peek]. now rewrite (net_at_inv _ _ _ H). Qed.
Lemma obeys_spec c : checkable c -> obeys c <-> exists st, check_networks c (q_nets (x_q c)) 0 None = Ok (st, true).
Proof.
  intros HC. rewrite (networks_spec c (ck_foreign c HC) (q_nets (x_q c)) 0 None). split.
  - intros H j J. destruct (ck_cells c HC j ltac:(lia)) as (en & rows & cols & A & _). destruct (net_of_at _ _ _ _ _ A) as (nt & EN & <- & <-).
    exists nt. split; auto. apply (rules_of c j); auto; try lia. intros r col R C. apply (H j _ _ _ r col ltac:(lia) A R C).
  - intros H n en rows cols r col N A R C. destruct (H n ltac:(lia)) as (nt & EN & K). rewrite (peek_net _ _ _ EN) in A. injection A as <- <- <-.
    apply (rules_of c n nt HC N EN); auto.
Qed.
Lemma some_cells c : (exists j nt, (0 <= j < 0 + q_nets (x_q c)) /\ net_at j c = Ok nt /\ 0 < n_rows nt /\ 0 < n_cols nt)%nat <-> has_cells c.
Proof.
  split.
  - intros (j & nt & J & A & R & C). exists j, 0%nat, 0%nat. split; [lia|]. exists (n_en nt), (n_rows nt), (n_cols nt). rewrite (peek_net _ _ _ A). auto.
  - intros (n & r & col & N & en & rows & cols & A & R & C). destruct (net_of_at _ _ _ _ _ A) as (nt & EN & <- & <-). exists n, nt. repeat split; auto; lia.
Qed.
Lemma check_status c st go : check_networks c (q_nets (x_q c)) 0 None = Ok (st, go) ->
  (if go then fine st /\ (st <> None <-> has_cells c) else exists s, st = Some s /\ ps_err s <> P_OK)
  /\ forall s, st = Some s -> program_cell c (ps_net s) (ps_row s) (ps_col s) /\ ps_code s = code_at c (ps_net s) (ps_row s) (ps_col s).
Proof.
  intros H. apply (networks_status c (fun s => program_cell c (ps_net s) (ps_row s) (ps_col s) /\ ps_code s = code_at c (ps_net s) (ps_row s) (ps_col s))) in H; auto.
  - destruct H as [A B]. split; [|apply B; discriminate]. destruct go; auto. destruct A as [A D]. split; [now apply A|]. rewrite D, some_cells. intuition congruence.
  - intros s n nt col N EN C (A & B & R & x & X & Y). subst. split; [split; auto; exists (n_en nt), (n_rows nt), (n_cols nt); rewrite (peek_net _ _ _ EN); auto|].
    apply (cell_in_at _ _ _ _ _ _ EN) in X. now rewrite (code_of _ _ _ _ _ X).
Qed.

(** ** C40 *)

(** C40: exactly the programs that follow the rules are accepted: every register operand (reals excepted) and every port is
    inside the configured banks and modules, the operands have types the instruction takes, timers have a timer and a time
    base, and the rows of multi-row instructions are in order. *)
Lemma C40_accepts_l : forall c, checkable c -> accepts c <-> has_cells c /\ obeys c.
Proof.
  intros c HC. rewrite (obeys_spec c HC). unfold accepts, program_check. split.
  - intros (st & H & E). destruct (check_networks c (q_nets (x_q c)) 0 None) as [[s go]| |] eqn:EN; simpl in H; try discriminate. injection H as ->.
    destruct (check_status _ _ _ EN) as [A _]. destruct go; [|destruct A as (s' & [= <-] & A); contradiction].
    destruct A as [_ A]. split; [apply A; discriminate|eauto].
  - intros [A [st EN]]. rewrite EN. simpl. destruct (check_status _ _ _ EN) as [[B D] _]. destruct st as [st|]; [|tauto]. exists st. auto.
Qed.
(** C40: unless an operand names the module after the last one the checker always finishes with a status; it names a cell of
    the program and its instruction. *)
Lemma C40_finishes_l : forall c, checkable c -> ~ one_too_many c ->
  exists st, program_check c = Ok st /\ (st <> None <-> has_cells c)
    /\ forall s, st = Some s -> program_cell c (ps_net s) (ps_row s) (ps_col s) /\ ps_code s = code_at c (ps_net s) (ps_row s) (ps_col s).
Proof.
  intros c HC HM. destruct (networks_def c (q_nets (x_q c)) 0 None) as [[st go] H].
  - intros j J. destruct (ck_cells c HC j ltac:(lia)) as (en & rows & cols & A & B). destruct (net_of_at _ _ _ _ _ A) as (nt & EN & <- & <-).
    exists nt. split; auto. intros r col exp R C. destruct (B r col R C) as (bar & i & dq & D & F). 
    destruct (cell_of c j r col) as [x|] eqn:X; [|cbn [peek] in D; rewrite X in D; discriminate]. assert (D0 := D). cbn [peek] in D, F. rewrite X in D, F. simpl in D, F. injection D as <- <- <-.
    assert (V : forall d, (d < c_dq x)%nat -> exists v, elem (c_data x) d = Some v).
    { intros d L. destruct F as [F|(k & F1 & F2)]; [lia|]. unfold size in F1. destruct (c_data x) as [l|]; [|discriminate]. injection F1 as <-. simpl.
      destruct (nth_error l d) eqn:Q; eauto. apply nth_error_None in Q. lia. }
    exists x. split; [now apply (cell_in_at _ _ _ _ _ _ EN)|]. apply cell_def; [exact (ck_foreign c HC)| |].
    + intros d L. destruct (V d L) as [v EV]. apply (operand_def c x d v); auto; try apply HC.
      destruct (v_type v) eqn:T; auto; intros Q; apply HM; exists j, r, col, d, v;
        (split; [split; [lia|exists en, (n_rows nt), (n_cols nt); auto]|split; [split; [cbn [peek]; rewrite X; simpl; now rewrite EV|exists (c_bar x), (c_code x), (c_dq x); auto]|rewrite T; auto]]).
    + destruct (Nat.eq_dec (c_dq x) 0); auto. right. apply V. lia.
  - unfold program_check. rewrite H. simpl. exists st. split; auto. destruct (check_status _ _ _ H) as [A B]. split; auto.
    destruct go; [apply A|]. destruct A as (s & -> & _). split; [|discriminate]. intros _. destruct (B s eq_refl) as [P _]. now exists (ps_net s), (ps_row s), (ps_col s).
Qed.

(** What acceptance says about one scanned cell. *)
Lemma rule_operand c n rows cols r col bar i dq j : checkable c -> obeys c -> complete c -> scanned c n rows cols -> (r < rows)%nat -> (col < cols)%nat ->
  peek c (LCell n r col) = Some (VCell bar i dq) -> i <> I_MULTI -> (j < dq)%nat ->
  exists v, peek c (LData n r col j) = Some (VVal v) /\ operand_rule c i dq j v /\ (v_type v = R_NONE -> fits (v_raw v)).
Proof.
  intros HC HO HD HS R C X M J. assert (EC : code_at c n r col = i) by (unfold code_at; now rewrite X).
  destruct HS as [N EN]. destruct (HO _ _ _ _ _ _ N EN R C) as [_ A]. rewrite EC in A. destruct (A M _ _ _ _ X J) as (v & V1 & V2).
  exists v. split; auto. split; auto. destruct (HD _ _ _ _ _ (conj N EN) R C) as (_ & _ & F & _). apply (F j). split; eauto.
Qed.
Lemma const0_ok c : read_ok c (mk_value R_NONE 0 None).
Proof. split; [intros _; unfold fits; simpl; lia|exact I]. Qed.
Lemma in_dec z n : ~ ~ in_qty z n -> in_qty z n.
Proof. unfold in_qty. lia. Qed.
Lemma safe_cell c n rows cols r col : checkable c -> obeys c -> complete c -> scanned c n rows cols -> (r < rows)%nat -> (col < cols)%nat -> cell_safe c n rows r col.
Proof.
  intros HC HO HD HS R C. destruct HS as [N EN].
  destruct (ck_cells c HC n N) as (en & rows' & cols' & A & B). rewrite A in EN. injection EN as -> -> ->.
  destruct (B r col R C) as (bar & i & dq & X & _). assert (HS : scanned c n rows cols) by (split; auto).
  assert (EC : code_at c n r col = i) by (unfold code_at; now rewrite X).
  assert (HJ := fun j M => rule_operand c n rows cols r col bar i dq j HC HO HD HS R C X M).
  destruct (HD _ _ _ _ _ HS R C) as (HK & HQ & _ & HT). rewrite EC in HK, HQ, HT.
  assert (DQ : forall h k, documented i = Some (h, k) -> dq = k).
  { intros h k K. destruct (HQ h k K) as (b' & i' & Y). rewrite X in Y. now injection Y. }
  assert (HH : i <> I_MULTI -> exists h, takes c n r col h /\ (r + h <= rows)%nat).
  { intros M. destruct (HO _ _ _ _ _ _ N A R C) as [[F _] _]. rewrite EC in F. destruct (F M) as (h & F1 & F2 & _). eauto. }
  unfold takes in HH. rewrite EC in HH.
  assert (ARG : forall j v, peek c (LData n r col j) = Some (VVal v) -> arg c n r col j = v) by (intros j v V; unfold arg; now rewrite V).
  assert (INP : forall j v, (j < dq)%nat -> peek c (LData n r col j) = Some (VVal v) -> input c n r col j = v).
  { intros j v L V. unfold input. rewrite X. rewrite (proj2 (Nat.ltb_lt _ _) L). auto. }
  assert (RD : i <> I_MULTI -> timer_code i = false -> forall j, read_ok c (input c n r col j)).
  { intros M T j. destruct (Nat.lt_ge_cases j dq) as [L|L].
    - destruct (HJ j M L) as (v & V & (I & Y & P) & F). rewrite T in P. rewrite (INP _ _ L V). split; auto.
      unfold port_rule in P. unfold port_ok. destruct (v_type v); auto.
    - unfold input. rewrite X. rewrite (proj2 (Nat.ltb_ge _ _) L). apply const0_ok. }
  assert (HAS : i <> I_MULTI -> forall j, (j < dq)%nat -> has_operand c n r col j).
  { intros M j L. destruct (HJ j M L) as (v & V & _). exists v. auto. }
  assert (WD : i <> I_MULTI -> allowed i 0 = Some numbers -> (forall d, allowed i d = allowed i 0) -> forall j, (j < dq)%nat -> word_dest (arg c n r col j)).
  { intros M Y Z j L. destruct (HJ j M L) as (v & V & (I & W & P) & F). rewrite (ARG _ _ V). unfold typed_as in W. rewrite Z in W. apply W in Y.
    unfold word_dest. simpl in Y. repeat (destruct Y as [<-|Y]; auto). tauto. }
  assert (PAST : forall l, i <> I_MULTI -> allowed i 0 = Some l -> ~ In R_R l -> ~ In R_QW l -> ~ In R_IW l -> (0 < dq)%nat -> past_ok c (input c n r col 0)).
  { intros l M Y Y1 Y2 Y3 L. destruct (HJ 0%nat M L) as (v & V & ((I1 & I2) & W & P) & F). rewrite (INP _ _ L V). apply W in Y.
    split; [apply I1; intros Q; congruence|]. destruct (v_type v); auto; contradiction. }
  assert (TM : timer_code i = true -> forall h k, documented i = Some (h, k) -> k = 2%nat -> h = 2%nat -> has_operand c n r col 0 /\ has_operand c n r col 1
      /\ in_qty (v_raw (arg c n r col 0)) (q_t (x_q c)) /\ basetime (v_type (arg c n r col 1)) <> None /\ past_ok c (input c n r col 0)).
  { intros T h k K -> ->. assert (dq = 2)%nat as Q by eauto. assert (M : i <> I_MULTI) by (intros ->; discriminate). rewrite Q in *.
    destruct (HJ 0%nat M ltac:(lia)) as (v & V & ((I1 & I2) & W & P) & F). destruct (HJ 1%nat M ltac:(lia)) as (v' & V' & (I' & W' & P') & F').
    rewrite T in P, P'. destruct P as [_ P], P' as [_ P']. simpl in P, P'. rewrite (ARG _ _ V), (ARG _ _ V'), (INP 0%nat v ltac:(lia) V).
    assert (BI : ~ bad_index c v) by (apply I1; congruence). assert (BI' := BI). unfold bad_index in BI'. rewrite P in BI'.
    split; [apply HAS; auto; lia|]. split; [apply HAS; auto; lia|]. split; [now apply in_dec|]. split; auto. split; auto. now rewrite P. }
  assert (CT : allowed i 0 = Some [R_C] -> i <> I_MULTI -> (0 < dq)%nat -> in_qty (v_raw (arg c n r col 0)) (q_c (x_q c))).
  { intros Y M L. destruct (HJ 0%nat M L) as (v & V & ((I1 & I2) & W & P) & F). rewrite (ARG _ _ V). apply W in Y. destruct Y as [Y|[]].
    assert (BI : ~ bad_index c v) by (apply I1; congruence). unfold bad_index in BI. rewrite <- Y in BI. now apply in_dec. }
  clear HJ. unfold cell_safe. rewrite EC. 
  assert (HM : known i -> i <> I_MULTI) by (intros K ->; exact K).
  destruct i; auto; assert (M : known I_NOP -> True) by auto; clear M;
    try (destruct HK as [HK|HK]; [|discriminate]; specialize (HM HK); specialize (DQ _ _ eq_refl); specialize (HAS HM); rewrite DQ in *; specialize (RD HM)).
  all: try (specialize (RD eq_refl)).
  all: try (split; [apply RD|]; eapply PAST; [auto|reflexivity|simpl; intuition discriminate..|lia]; fail).
  all: try (apply HAS; lia).
  all: try (split; [apply HAS; lia|]; eapply PAST; [auto|reflexivity|simpl; intuition discriminate..|lia]; fail).
  all: try (destruct (TM eq_refl _ _ eq_refl eq_refl eq_refl) as (T1 & T2 & T3 & T4 & T5); destruct (HH HM) as (h & (k & [= <- <-]) & F);
            repeat (split; auto); lia).
  all: try (repeat (split; [apply RD|]); try (split; [apply HAS; lia|]); try apply RD; try (apply WD; auto; lia); fail).
  all: try (split; [apply HAS; lia|]; split; [apply HAS; lia|]; split; [apply CT; auto; lia|];
            destruct (HH HM) as (h & (k & [= <- <-]) & F); lia).
  - split; [apply RD|]. split; [apply RD|]. split; [apply HAS; lia|]. split; [apply WD; auto; lia|].
    destruct (HH HM) as (h & (k & [= <- <-]) & F). lia.
  - apply RD; [discriminate|auto].
  - repeat (split; [apply RD|]). auto.
Qed.
Lemma accepted_wf c : laid_out c -> accepts c -> complete c -> well_formed_ctx c.
Proof.
  intros [H1 H2 H3 H4 H5 H6 HC] HA HD. apply C40_accepts_l in HA as [_ HO]; auto. split; auto.
  - intros n N. destruct (ck_cells c HC n N) as (en & rows & cols & A & B). exists en, rows, cols. split; auto. split.
    + intros ->. apply (H6 n rows). split; auto.
    + intros r col R C. destruct (B r col R C) as (bar & i & dq & X & Y). exists bar, i, dq. split; auto. split; auto. intros ->.
      destruct (HD n rows cols r col (conj N A) R C) as (K & _). unfold code_at in K. rewrite X in K. auto.
  - intros n rows cols r col S R C. eapply safe_cell; eauto.
Qed.
(** C40: on a machine whose memory is laid out as configured, a program that is accepted, and whose instructions have all
    their operands, can be scanned any number of times without a read or write outside the banks, modules and cells. The
    hypothesis [complete] lists what the checker leaves unchecked. *)
Lemma C40_safe_partial_l : forall E W n s, polite E W -> (forall k, calendar (wall E k)) ->
  laid_out (s_ctx s) -> accepts (s_ctx s) -> complete (s_ctx s) ->
  (exists s', many_scans E n s = Ok (tt, s')) \/ exists u, many_scans E n s = Bad u /\ arithmetic u.
Proof.
  intros E W n s HP HC H1 H2 H3. destruct (C41_scans_l E W n s HP HC) as [(s' & A & _)|B]; eauto. now apply accepted_wf.
Qed.
(** C40: nor does the task then, however long it runs. *)
Lemma C40_task_partial_l : forall E W n s, behaved E W -> tables_ok (s_ctx s) -> laid_out (s_ctx s) -> accepts (s_ctx s) -> complete (s_ctx s) ->
  (exists r s', ladder_task E n s = Ok (r, s')) \/ exists u, ladder_task E n s = Bad u /\ arithmetic u.
Proof.
  intros E W n s HB HT H1 H2 H3. destruct (C41_task_l E W n s HB) as [(r & s' & A & _)|B]; eauto. now apply accepted_wf.
Qed.
(** C40: a timer whose time base is 10 ms or one minute is refused if its preset is not also the number of a memory flag or
    counter: the type field of the preset is taken for a register type. *)
Lemma C40_time_base_l : forall c n r col bar i dq v, checkable c -> program_cell c n r col ->
  peek c (LCell n r col) = Some (VCell bar i dq) -> timer_code i = true -> operand_at c n r col 1 v ->
  (basetime (v_type v) = Some 10 /\ ~ in_qty (v_raw v) (q_m (x_q c)) \/ basetime (v_type v) = Some 60000 /\ ~ in_qty (v_raw v) (q_c (x_q c))) ->
  ~ accepts c.
Proof.
  intros c n r col bar i dq v HC (N & en & rows & cols & EN & R & C) X T [V (b' & i' & dq' & X' & L)] HB HA.
  rewrite X in X'. injection X' as <- <- <-. apply C40_accepts_l in HA as [_ HO]; auto.
  destruct (HO _ _ _ _ _ _ N EN R C) as [_ A]. assert (EC : code_at c n r col = i) by (unfold code_at; now rewrite X). rewrite EC in A.
  destruct (A ltac:(intros ->; discriminate) _ _ _ _ X L) as (v' & V' & ((I1 & I2) & _)). rewrite V in V'. injection V' as <-.
  unfold bad_index in I1. unfold basetime in HB. destruct (v_type v); simpl in *; try tauto; try (destruct HB as [[HB _]|[HB _]]; discriminate).
  - destruct HB as [[_ HB]|[HB _]]; [|discriminate]. apply I1; auto; discriminate.
  - destruct HB as [[HB _]|[_ HB]]; [discriminate|]. apply I1; auto; discriminate.
Qed.

Definition short_rows : list (list cell) := [[cellv I_NO [V R_M 0]; mk_cell false false I_COIL 0 None]].
Definition table_rows : list (list cell) := [[cellv I_NO [V R_M 0]; cellv I_TMOVE [V R_NONE 7; V R_NONE 0; V R_NONE 0; V R_NONE 0; V R_NONE 1]]].
Definition next_rows : list (list cell) := [[cellv I_NO [V R_I 1]; cellv I_COIL [V R_M 1]]].
Definition real_rows : list (list cell) := [[cellv I_NO [V R_M 0]; cellv I_MOVE [V R_R 9; V R_R 0]]; [cellv I_NOP []; mk_cell false false I_MULTI 0 None]].
(** C40 is false of instructions without operands: a coil that has none is accepted, and scanning it dereferences NULL. *)
Lemma C40_operand_refuted_l : exists c E, laid_out c /\ accepts c /\ ladder_scan E (start c) = Bad UB_null.
Proof.
  exists (demo short_rows), quiet_env. split; [apply laid_outb_ok; vm_compute; reflexivity|]. split; [apply acceptsb_ok; vm_compute; reflexivity|vm_compute; reflexivity].
Qed.
(** C40 is false of tables: TMOVE from a network that does not exist is accepted, and scanning it reads outside the networks. *)
Lemma C40_table_refuted_l : exists c E, laid_out c /\ accepts c /\ ladder_scan E (start c) = Bad UB_oob.
Proof.
  exists (demo table_rows), quiet_env. split; [apply laid_outb_ok; vm_compute; reflexivity|]. split; [apply acceptsb_ok; vm_compute; reflexivity|vm_compute; reflexivity].
Qed.
(** C40: an operand that names the module after the last one makes the checker itself read outside the module table. *)
Lemma C40_module_refuted_l : exists c, laid_out c /\ program_check c = Bad UB_oob.
Proof. exists (demo next_rows). split; [apply laid_outb_ok; vm_compute; reflexivity|vm_compute; reflexivity]. Qed.
(** C40 is false of reals: an operand with a register number outside the bank of reals is accepted. *)
Lemma C40_real_refuted_l : exists c n r col d v, laid_out c /\ accepts c /\ operand_at c n r col d v /\ bad_index c v.
Proof.
  exists (demo real_rows), 0%nat, 0%nat, 1%nat, 0%nat, (V R_R 9). split; [apply laid_outb_ok; vm_compute; reflexivity|].
  split; [apply acceptsb_ok; vm_compute; reflexivity|]. split; [decide_op|apply bad_b_spec; vm_compute; reflexivity].
Qed.
(*EX
(** A program with contacts, a timer, a counter, arithmetic and coils is accepted; it meets all hypotheses. *)
Definition more (i : ins) : cell := mk_cell false false i 0 None.
Definition good_rows : list (list cell) :=
  [[cellv I_NO [V R_I 0]; cellv I_TON [V R_T 1; V R_Q 50]; cellv I_COIL [V R_Q 256]];
   [cellv I_RE [V R_M 2]; more I_MULTI; cellv I_COILL [V R_M 3]];
   [cellv I_NC [V R_Td 1]; cellv I_ADD [V R_D 0; V R_NONE 7; V R_D 2]; more I_NOP];
   [more I_NOP; more I_MULTI; cellv I_CTU [V R_C 2; V R_NONE 3]];
   [more I_CONN; more I_MULTI; more I_MULTI]].
Definition with_row (r : nat) (x : list cell) : list (list cell) := firstn r good_rows ++ x :: skipn (S r) good_rows.
Example C40_example_accepted : laid_out (demo good_rows) /\ accepts (demo good_rows) /\ complete (demo good_rows).
Proof. split; [apply laid_outb_ok; vm_compute; reflexivity|]. split; [apply acceptsb_ok; vm_compute; reflexivity|apply completeb_ok; vm_compute; reflexivity]. Qed.
(** Faulty programs are refused, with the place and the kind of the fault. *)
Example C40_example_refused :
  program_check (demo (with_row 1 [cellv I_RE [V R_M 4]; more I_MULTI; cellv I_COILL [V R_M 3]])) = Ok (Some (mk_pstatus 0 1 0 P_FAIL I_RE))
  /\ program_check (demo (with_row 1 [cellv I_RE [V R_M 2]; more I_NOP; cellv I_COILL [V R_M 3]])) = Ok (Some (mk_pstatus 0 1 1 P_MISSING_MULTI I_NOP))
  /\ program_check (demo (with_row 3 [more I_NOP; more I_MULTI; more I_NOP])) = Ok (Some (mk_pstatus 0 4 2 P_DANGLING I_MULTI))
  /\ program_check (demo (with_row 1 [cellv I_RE [V R_I 2]; more I_MULTI; cellv I_COILL [V R_M 3]])) = Ok (Some (mk_pstatus 0 1 0 P_I_MODULE I_RE))
  /\ program_check (demo (with_row 1 [cellv I_RE [V R_I 512]; more I_MULTI; cellv I_COILL [V R_M 3]])) = Ok (Some (mk_pstatus 0 1 0 P_I_PORT I_RE))
  /\ program_check (demo (with_row 4 [more I_CONN; more I_MULTI; cellv I_CTU [V R_C 2; V R_NONE 3]])) = Ok (Some (mk_pstatus 0 4 2 P_MISSING_MULTI I_CTU)).
Proof. vm_compute. repeat split; reflexivity. Qed.
(** Five units of 10 ms are refused because there is no memory flag 5. *)
Definition slow_rows : list (list cell) := with_row 0 [cellv I_NO [V R_I 0]; cellv I_TON [V R_T 1; V R_M 5]; cellv I_COIL [V R_Q 256]].
Example C40_example_time_base : checkable (demo slow_rows) /\ program_cell (demo slow_rows) 0 0 1 /\ peek (demo slow_rows) (LCell 0 0 1) = Some (VCell false I_TON 2)
  /\ operand_at (demo slow_rows) 0 0 1 1 (V R_M 5) /\ basetime R_M = Some 10 /\ ~ in_qty 5 (q_m (x_q (demo slow_rows)))
  /\ program_check (demo slow_rows) = Ok (Some (mk_pstatus 0 0 1 P_FAIL I_TON)).
Proof.
  split; [apply checkableb_ok; vm_compute; reflexivity|]. split; [split; [vm_compute; auto|do 3 eexists; split; [reflexivity|split; vm_compute; auto]]|].
  split; [reflexivity|]. split; [decide_op|]. split; [reflexivity|]. split; [unfold in_qty; simpl; lia|vm_compute; reflexivity].
Qed.
EX*)
