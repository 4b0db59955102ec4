(** A scan of a ladder logic program evaluates its plan (SpecRung). *)
From Verif Require Export SpecRung ScanOutcome Effects.

(** ** Registers under coils *)
Definition is_word (l : loc) : Prop := match l with LReg _ _ | LIn _ _ _ | LOut _ _ _ => True | _ => False end.
(** [c] came from [c0] by writing coils. *)
Record evolved (c0 c : ctx) : Prop := {
  e_same : forall l, ~ is_word l -> peek c l = peek c0 l;
  e_stores : stores_ok c;
  e_has : forall v, has_value c0 v -> has_value c v;
  e_had : forall v, had_value c0 v -> had_value c v }.
Lemma evolved_refl c : stores_ok c -> evolved c c.
Proof. intros; constructor; auto. Qed.
Lemma kept_bit t b : kept t (b2z b) = b2z b.
Proof. destruct t, b; reflexivity. Qed.
Lemma bit01 b : b2z b = 0 \/ b2z b = 1. Proof. destruct b; auto. Qed.
Lemma stored_holds c l b c' l' z : stored c l (b2z b) c' -> holds c l' z -> exists z', holds c' l' z' /\ (z' = z \/ z' = b2z b).
Proof.
  intros [H1 H2] H. destruct (loc_eq_dec l l') as [<-|D]; [exists (b2z b); auto|].
  exists z. split; auto. unfold holds. rewrite H2; auto.
Qed.
Lemma f32_bit b : exists z, f32_to_i32 (b2z b) = Ok z.
Proof. destruct b; eexists; vm_compute; reflexivity. Qed.
Lemma f32_keep u b z z' : f32_to_i32 u = Ok z -> z' = u \/ z' = b2z b -> exists y, f32_to_i32 z' = Ok y.
Proof. intros H [->| ->]; [eauto|apply f32_bit]. Qed.
Lemma flag_keep c l b c' l' z : stored c l (b2z b) c' -> holds_flag c l' z -> exists z', holds_flag c' l' z'.
Proof.
  intros S [H F]. destruct (stored_holds _ _ _ _ _ _ S H) as (z' & H' & [->| ->]); [|pose proof (bit01 b)]; eexists; split; eauto.
Qed.
Section Stored.
Variables (c c' : ctx) (l : loc) (b : bool).
Hypothesis Hl : is_word l.
Hypothesis HS : stored c l (b2z b) c'.
Lemma st_same l' : ~ is_word l' -> peek c' l' = peek c l'.
Proof. intros H. apply (proj2 HS). intros <-. auto. Qed.
Lemma st_qty : x_q c' = x_q c. Proof. apply peek_qty, st_same. auto. Qed.
Lemma st_io : x_io c' = x_io c. Proof. apply peek_io, st_same. auto. Qed.
Lemma st_bad v : bad_index c' v <-> bad_index c v.
Proof. unfold bad_index. rewrite st_qty. tauto. Qed.
Lemma st_stores : stores_ok c -> stores_ok c'.
Proof.
  intros H. apply (stores_shape c c'); auto.
  intros l' K. apply st_same. destruct l'; simpl in *; tauto.
Qed.
Lemma st_holds l' : (exists z, holds c l' z) -> exists z, holds c' l' z.
Proof. intros (z & H). destruct (stored_holds _ _ _ _ _ _ HS H) as (z' & H' & _); eauto. Qed.
Lemma st_flag l' : (exists z, holds_flag c l' z) -> exists z, holds_flag c' l' z.
Proof. intros (z & H). eapply flag_keep; eauto. Qed.
Lemma st_has v : has_value c v -> has_value c' v.
Proof.
  unfold has_value. intros (z & [(B & -> & N)|(B & R)]).
  - exists 0. left. rewrite st_bad. split; [exact B|]. split; [reflexivity|].
    assert (NB : forall bk, bank_arr bk c <> None -> bank_arr bk c' <> None)
      by (intros bk; apply size_none; symmetry; apply (st_same (LRegLen bk)); auto).
    assert (NT : x_tm c <> None -> x_tm c' <> None) by (apply size_none; symmetry; apply (st_same LTmLen); auto).
    destruct (v_type v); intuition eauto.
  - assert (RR : exists z, match v_type v with
     | R_NONE => z = v_raw v
     | R_M => holds c' (LReg B_M (ix (v_raw v))) z
     | R_Cd => holds_flag c' (LReg B_Cd (ix (v_raw v))) z
     | R_Cr => holds_flag c' (LReg B_Cr (ix (v_raw v))) z
     | R_Td => holds_flag c' (LReg B_Td (ix (v_raw v))) z
     | R_Tr => holds_flag c' (LReg B_Tr (ix (v_raw v))) z
     | R_C => exists u, holds c' (LReg B_C (ix (v_raw v))) u /\ z = i32 u
     | R_T => exists u, holds c' (LAcc (ix (v_raw v))) u /\ z = Z.min u (2 ^ 31 - 1)
     | R_D => holds c' (LReg B_D (ix (v_raw v))) z
     | R_R => exists u, holds c' (LReg B_R (ix (v_raw v))) u /\ f32_to_i32 u = Ok z
     | R_Q => if v_module v <? Z.of_nat (io_wq (x_io c')) then holds c' (LOut (ix (v_module v)) K_Q (ix (v_port v))) z else z = 0
     | R_QW => if v_module v <? Z.of_nat (io_wq (x_io c')) then holds c' (LOut (ix (v_module v)) K_QW (ix (v_port v))) z else z = 0
     | R_I => if v_module v <? Z.of_nat (io_rq (x_io c')) then holds c' (LIn (ix (v_module v)) K_I (ix (v_port v))) z else z = 0
     | R_IW => if v_module v <? Z.of_nat (io_rq (x_io c')) then holds c' (LIn (ix (v_module v)) K_IW (ix (v_port v))) z else z = 0
     | R_S | R_INV | R_OTHER _ => z = 0
     end).
    { rewrite st_io. destruct (v_type v); eauto using st_holds, st_flag; try (destruct (_ <? _); eauto using st_holds; fail).
      - destruct R as (u & R & _). destruct (stored_holds _ _ _ _ _ _ HS R) as (u' & R' & _); eauto.
      - destruct R as (u & R & _). unfold holds in *. rewrite <- (st_same (LAcc _)) in R by auto. eauto.
      - destruct R as (u & R & R3). destruct (stored_holds _ _ _ _ _ _ HS R) as (u' & R' & D).
        destruct (f32_keep _ _ _ _ R3 D) as (y & Y). exists y, u'. auto. }
    destruct RR as (z' & RR). exists z'. right. rewrite st_bad. auto.
Qed.
Lemma st_had v : had_value c v -> had_value c' v.
Proof.
  unfold had_value, prev_reads. intros (z & R). rewrite st_io.
  destruct (v_type v); try (destruct R as [R0 R]); eauto.
  all: try (destruct (st_holds _ (ex_intro _ _ R)) as (y & Y); exists y; auto; fail).
  all: try (destruct (st_flag _ (ex_intro _ _ R)) as (y & Y); exists y; auto; fail).
  all: try (destruct (_ <? _); eauto using st_holds; fail).
  - destruct (_ <? _); [|eauto]. destruct R as (id & qd & qa & M & R).
    assert (EX : exists z, if v_port v <? Z.of_nat qd then (peek c' (LOutLen (ix (v_module v)) K_Qh) = None /\ z = 0)
              \/ holds c' (LOut (ix (v_module v)) K_Qh (ix (v_port v))) z else z = 0).
    { destruct (_ <? _); [|eauto]. destruct R as [[R ->]|R].
      - exists 0. left. rewrite (st_same (LOutLen _ _)) by auto. auto.
      - destruct (st_holds _ (ex_intro _ _ R)) as (y & Y); eauto. }
    destruct EX as (y & Y). exists y, id, qd, qa. rewrite (st_same (LOutMeta _)) by auto. auto.
  - destruct (_ <? _); [|eauto]. destruct R as (id & qd & qa & M & R).
    assert (EX : exists z, if v_port v <? Z.of_nat qd then (peek c' (LInLen (ix (v_module v)) K_Ih) = None /\ z = 0)
              \/ holds c' (LIn (ix (v_module v)) K_Ih (ix (v_port v))) z else z = 0).
    { destruct (_ <? _); [|eauto]. destruct R as [[R ->]|R].
      - exists 0. left. rewrite (st_same (LInLen _ _)) by auto. auto.
      - destruct (st_holds _ (ex_intro _ _ R)) as (y & Y); eauto. }
    destruct EX as (y & Y). exists y, id, qd, qa. rewrite (st_same (LInMeta _)) by auto. auto.
  - destruct R as (u & R & _). destruct (stored_holds _ _ _ _ _ _ HS R) as (u' & R' & _); eauto 6.
  - destruct R as (u & R & _). unfold holds in *. rewrite <- (st_same (LAcc _)) in R by auto. eauto 6.
  - destruct R as (u & R & R3). destruct (stored_holds _ _ _ _ _ _ HS R) as (u' & R' & D).
    destruct (f32_keep _ _ _ _ R3 D) as (y & Y). exists y. eauto.
Qed.
Lemma st_evolved c0 : evolved c0 c -> evolved c0 c'.
Proof.
  intros [A B C D]. constructor; auto using st_stores, st_has, st_had.
  intros l' L. rewrite st_same; auto.
Qed.
End Stored.
Lemma evolved_coil c0 c v q c' : evolved c0 c -> coil_writes c v q c' -> evolved c0 c'.
Proof.
  unfold coil_writes. destruct (target c v) as [l|] eqn:T; intros H S.
  - eapply st_evolved; eauto. apply target_shape in T. destruct l; simpl; auto; contradiction.
  - replace c' with c; auto. apply peek_ext. intros l. symmetry. apply S.
Qed.
Lemma wr_coil c v q : stores_ok c -> coil_writes c v q (wr v (b2z q) c).
Proof.
  intros H. unfold coil_writes. destruct (target c v) as [l|] eqn:T.
  - split; [|intros l' L; apply wr_frame; congruence]. pose proof (wr_here v (b2z q) c l H T) as K. now rewrite kept_bit in K.
  - intros l. apply wr_frame. congruence.
Qed.

(** ** Hooks that change nothing *)
Section Quiet.
Variable E : env.
Hypothesis HE : env_writes E (fun _ => False).
Lemma emit_quiet ev s : scan_event ev -> exists s', emit E ev s = Ok (tt, s') /\ s_ctx s' = s_ctx s.
Proof.
  intros H. unfold emit. eexists. split; [reflexivity|]. simpl. apply peek_ext. intros l. apply (proj1 HE); auto.
Qed.
Lemma panic_quiet s : exists s', panic E s = Ok (tt, s') /\ s_ctx s' = s_ctx s.
Proof. unfold panic. rewrite bind_getc. destruct (h_panic _); [apply emit_quiet; exact I|exists s; auto]. Qed.
Lemma check_quiet cc s : cc <= si_maxcyc (x_si (s_ctx s)) -> exists s', check_cycles E cc s = Ok (true, s') /\ s_ctx s' = s_ctx s.
Proof.
  intros H. unfold check_cycles. rewrite bind_getc.
  assert (K : exists s1, (if 4 * si_maxcyc (x_si (s_ctx s)) <? 5 * cc then panic E else ret tt) s = Ok (tt, s1) /\ s_ctx s1 = s_ctx s).
  { destruct (_ <? _); [apply panic_quiet|exists s; auto]. }
  destruct K as (s1 & K1 & K2). rewrite (bind_ok _ _ _ _ _ K1), bind_getc, K2. replace (_ <? cc) with false by lia. exists s1; auto.
Qed.

(** ** One network *)
Section N.
Variables (base : ctx) (n rows cols : nat).
(** The machine in [s] has the registers of [c] and the power [pw]. *)
Record at_power (c : ctx) (pw : power) (s : st) : Prop := {
  k_exec : x_exec (s_ctx s) = Some n;
  k_regs : same_registers c (s_ctx s);
  k_pow : forall r col, (r < rows)%nat -> (col < cols)%nat -> powered (s_ctx s) n r col (pw r col);
  k_oth : forall k r col, k <> n -> peek (s_ctx s) (LPow k r col) = peek base (LPow k r col) }.
Definition set_power (pw : power) (r col : nat) (q : bool) : power :=
  fun r' col' => if (r' =? r)%nat && (col' =? col)%nat then q else pw r' col'.
Definition status (l : loc) : Prop := (exists n r col, l = LPow n r col) \/ In l [LErr; LLast; LExec].
Lemma k_ext c pw pw' s : (forall r col, pw r col = pw' r col) -> at_power c pw s -> at_power c pw' s.
Proof. intros H [A B C D]. constructor; auto. intros. rewrite <- H; auto. Qed.
Lemma k_regs_eq c pw s l : at_power c pw s -> ~ status l -> peek (s_ctx s) l = peek c l.
Proof. intros H K. apply (k_regs _ _ _ H l K). Qed.
Lemma k_store c pw s : at_power c pw s -> same_store c (s_ctx s).
Proof.
  intros H l L. eapply k_regs_eq; eauto. intros [(a & b & d & ->)|K]; [exact L|]. simpl in K. intuition (subst; exact L).
Qed.
(** A change of status only. *)
Lemma k_status c pw s s' : at_power c pw s -> changes_only (s_ctx s) (s_ctx s') (fun l => l = LErr \/ l = LLast) -> at_power c pw s'.
Proof.
  intros [A B C D] H. constructor.
  - assert (K : peek (s_ctx s') LExec = peek (s_ctx s) LExec) by (apply H; intros [K|K]; discriminate). simpl in K. congruence.
  - intros l L. rewrite H; [apply B; exact L|]. intros [->| ->]; apply L; right; simpl; auto.
  - intros r col R K. unfold powered. rewrite H; [apply C; auto|]. intros [?|?]; discriminate.
  - intros k r col K. rewrite H; [apply D; auto|]. intros [?|?]; discriminate.
Qed.
Lemma k_ctx c pw s s' : at_power c pw s -> s_ctx s' = s_ctx s -> at_power c pw s'.
Proof. intros [A B C D] H. constructor; rewrite H; auto. Qed.
(** The effect of a cell: its power and a register. *)
Lemma k_cell c pw s c' c2 r col q : at_power c pw s -> (r < rows)%nat -> (col < cols)%nat ->
  x_exec c2 = x_exec (s_ctx s) ->
  (forall l, ~ status l -> peek c2 l = peek c' l) ->
  powered c2 n r col q ->
  (forall k r' col', (k, r', col') <> (n, r, col) -> peek c2 (LPow k r' col') = peek (s_ctx s) (LPow k r' col')) ->
  at_power c' (set_power pw r col q) (inc s c2).
Proof.
  intros [A B C D] R K HX HR HP HO. constructor; simpl s_ctx.
  - congruence.
  - intros l L. apply HR, L.
  - intros r' col' R' K'. unfold set_power, powered. destruct (r' =? r)%nat eqn:E1; [destruct (col' =? col)%nat eqn:E2|]; cbn [andb].
    + apply Nat.eqb_eq in E1, E2. subst. exact HP.
    + apply Nat.eqb_neq in E2. rewrite HO by congruence. apply C; auto.
    + apply Nat.eqb_neq in E1. rewrite HO by congruence. apply C; auto.
  - intros k r' col' N. rewrite HO by congruence. auto.
Qed.
Lemma k_executing c pw s r col : at_power c pw s -> peek c (LNet n) = Some (VNet true rows cols) ->
  (r < rows)%nat -> (col < cols)%nat -> executing (s_ctx s) n r col.
Proof.
  intros H N R K. split; [simpl; now rewrite (k_exec _ _ _ H)|]. split.
  - exists true, rows, cols. split; auto. rewrite (k_regs_eq _ _ _ _ H); auto. intros [(a & b & d & ?)|?]; [discriminate|simpl in *; intuition discriminate].
  - pose proof (k_pow _ _ _ H r col R K) as P. unfold powered in P. simpl in P.
    destruct (cell_of (s_ctx s) n r col) as [x|] eqn:X; [|discriminate]. exists (c_bar x), (c_code x), (c_dq x). simpl. now rewrite X.
Qed.
Lemma k_left c pw s r col : at_power c pw s -> (r < rows)%nat -> (col < cols)%nat -> left_powered (s_ctx s) n r col (left_of pw r col).
Proof. intros H R K. destruct col as [|k]; simpl; [reflexivity|]. apply (k_pow _ _ _ H); lia. Qed.
Lemma k_op c pw s r col i v : at_power c pw s -> operand_at c n r col i v -> operand_at (s_ctx s) n r col i v.
Proof.
  intros H [A B]. split; [|destruct B as (x & y & z & B & L); exists x, y, z; split; auto]; rewrite (k_regs_eq _ _ _ _ H); auto;
    (intros [(a & b & d & ?)|?]; [discriminate|simpl in *; intuition discriminate]).
Qed.

Lemma not_status_data l : match l with LPow _ _ _ | LErr | LLast | LExec => False | _ => True end -> ~ status l.
Proof. intros H [(a & b & d & ->)|K]; [auto|]. simpl in K. intuition (subst; auto). Qed.
Lemma status_not l : ~ status l -> match l with LPow _ _ _ | LErr | LLast | LExec => False | _ => True end.
Proof. intros H. destruct l; auto; apply H; try (right; simpl; tauto). left; eauto. Qed.

(** The instruction of one cell. *)
Lemma logic_runs c0 c pw s r col : evolved c0 c -> at_power c pw s -> peek c (LNet n) = Some (VNet true rows cols) ->
  (r < rows)%nat -> (col < cols)%nat -> logic_cell c n r col -> known (code_at c n r col) ->
  exists f c2 q c', ladder_function E (code_at c n r col) = Some f /\ f col r s = Ok (E_OK, inc s c2)
    /\ cell_does c n r col (left_of pw r col) (pw r col) q c' /\ at_power c' (set_power pw r col q) (inc s c2) /\ evolved c0 c'.
Proof.
  intros EV K N R C L KN. pose proof (k_executing _ _ _ r col K N R C) as X. pose proof (k_left _ _ _ r col K R C) as LP.
  pose proof (k_pow _ _ _ K r col R C) as OWN. pose proof (k_store _ _ _ K) as SS. pose proof (e_stores _ _ EV) as ST.
  assert (ST' : stores_ok (s_ctx s)) by (eapply stores_same; eauto).
  pose proof (executing_has _ _ _ _ X) as HC.
  set (p := left_of pw r col) in *. set (v := arg c n r col 0) in *. set (w := arg c n r col 1) in *.
  assert (UN : unchanged c c) by (intros ?; reflexivity).
  (* the power of the cell alone *)
  assert (KP : forall c1 q, changes_only (s_ctx s) c1 (eq LErr) -> x_exec c1 = x_exec (s_ctx s) ->
     at_power c (set_power pw r col q) (inc s (put_pow n r col q c1))).
  { intros c1 q C1 X1. apply (k_cell c pw s c); auto.
    - now rewrite put_pow_exec.
    - intros l NS. rewrite put_pow_frame; [|intros ->; apply NS; left; eauto]. rewrite C1; [apply (k_regs_eq _ _ _ _ K NS)|].
      intros <-. apply NS. right; simpl; auto.
    - apply powered_pow_here. destruct HC as (x & HC).
      assert (Q : peek c1 (LPow n r col) = peek (s_ctx s) (LPow n r col)) by (apply C1; discriminate). simpl in Q. rewrite HC in Q.
      destruct (cell_of c1 n r col) as [y|] eqn:Y; [exists y; auto|discriminate].
    - intros k r' col' D. rewrite put_pow_frame by congruence. apply C1; discriminate. }
  assert (KM : forall v q, at_power c (set_power pw r col q) (inc s (put_pow n r col q (mark (s_ctx s) v)))).
  { intros v0 q. apply KP; [|apply xe_mark; auto]. intros l D. apply mark_frame. congruence. }
  assert (K2 : forall v w q, at_power c (set_power pw r col q) (inc s (put_pow n r col q (two (s_ctx s) v w)))).
  { intros v0 w0 q. apply KP; [|unfold two; apply xe_mark, xe_mark; auto]. intros l D. unfold two. rewrite 2mark_frame by congruence. auto. }
  assert (K0 : forall q, at_power c (set_power pw r col q) (inc s (put_pow n r col q (s_ctx s)))).
  { intros q. apply KP; auto. apply changes_refl. }
  (* a coil *)
  assert (KC : forall q, at_power (wr v (b2z q) c) (set_power pw r col q) (inc s (wr v (b2z q) (put_pow n r col q (s_ctx s))))
                /\ coil_writes c v q (wr v (b2z q) c) /\ evolved c0 (wr v (b2z q) c)).
  { intros q. pose proof (wr_coil c v q ST) as CW. split; [|split; [auto|eapply evolved_coil; eauto]].
    assert (TE : target (put_pow n r col q (s_ctx s)) v = target c v).
    { apply target_same. intros l IS. rewrite put_pow_frame; [apply SS; auto|]. intros ->. exact IS. }
    assert (ST2 : stores_ok (put_pow n r col q (s_ctx s))) by (apply st_pow; auto).
    apply (k_cell c pw s); auto.
    - assert (Q : peek (wr v (b2z q) (put_pow n r col q (s_ctx s))) LExec = peek (s_ctx s) LExec).
      { rewrite wr_frame; [apply put_pow_frame; discriminate|]. intros T. apply target_shape in T. exact T. }
      simpl in Q. congruence.
    - intros l NS. destruct (target c v) as [t|] eqn:T.
      + destruct (loc_eq_dec l t) as [->|D].
        * pose proof (wr_here v (b2z q) _ t ST2 TE) as W1. pose proof (wr_here v (b2z q) c t ST T) as W2. unfold holds in *. congruence.
        * rewrite 2wr_frame by congruence. rewrite put_pow_frame; [apply (k_regs_eq _ _ _ _ K NS)|]. intros ->; apply NS; left; eauto.
      + rewrite 2wr_frame by congruence. rewrite put_pow_frame; [apply (k_regs_eq _ _ _ _ K NS)|]. intros ->; apply NS; left; eauto.
    - apply powered_wr, powered_pow_here; auto.
    - intros k r' col' D. rewrite wr_frame; [apply put_pow_frame; congruence|]. intros T. apply target_shape in T. exact T. }
  assert (CMP : forall f op R, ladder_function E (code_at c n r col) = Some f -> f = cmpop E op -> compares (code_at c n r col) = Some R ->
     (forall a b, op a b = true <-> R a b) ->
     (operand_at c n r col 0 v /\ operand_at c n r col 1 w /\ has_value c v /\ has_value c w) ->
     exists c2 q c', f col r s = Ok (E_OK, inc s c2) /\
       (exists R a b, compares (code_at c n r col) = Some R /\ reads c v a /\ reads c w b /\ (q = true <-> p = true /\ R a b) /\ unchanged c c')
       /\ at_power c' (set_power pw r col q) (inc s c2) /\ evolved c0 c').
  { intros f op RR _ -> CR OP (O1 & O2 & (a & A) & (b & B)).
    pose proof (k_op _ _ _ _ _ _ _ K O1) as O1'. pose proof (k_op _ _ _ _ _ _ _ K O2) as O2'.
    pose proof (reads_same _ _ _ _ SS A) as A'. pose proof (reads_same _ _ _ _ SS B) as B'.
    destruct p eqn:EP.
    - exists (put_pow n r col (op a b) (two (s_ctx s) v w)), (op a b), c. split; [eapply cmp_ok; eauto|].
      split; [|auto]. exists RR, a, b. split; [auto|]. split; [auto|]. split; [auto|]. split; [|auto]. rewrite OP. tauto.
    - exists (put_pow n r col false (s_ctx s)), false, c. split; [eapply cmp_off; eauto|].
      split; [|auto]. exists RR, a, b. split; [auto|]. split; [auto|]. split; [auto|]. split; [|auto]. split; intros; [discriminate|tauto]. }
  unfold logic_cell in L. fold v w in L. unfold cell_does. fold v w p.
  destruct (code_at c n r col) eqn:CODE; simpl in L; try contradiction; simpl ladder_function.
  - (* NOP *) exists (fn_NOP E), (s_ctx s), (pw r col), c. split; [auto|]. split; [destruct s; reflexivity|]. split; [auto|]. split; [|auto].
    apply (k_cell c pw s c); auto. intros l NS. apply (k_regs_eq _ _ _ _ K NS).
  - exists (fn_CONN E), (put_pow n r col p (s_ctx s)), p, c. split; [auto|]. split; [apply conn_ok; auto|]. auto.
  - exists (fn_NEG E), (put_pow n r col (negb p) (s_ctx s)), (negb p), c. split; [auto|]. split; [apply neg_ok; auto|]. auto.
  - destruct L as (O & z & Z). pose proof (k_op _ _ _ _ _ _ _ K O) as O'. pose proof (reads_same _ _ _ _ SS Z) as Z'.
    exists (fn_NO E), (put_pow n r col (negb (z =? 0) && p) (mark (s_ctx s) v)), (negb (z =? 0) && p), c.
    split; [auto|]. split; [eapply no_ok; eauto|]. split; [|auto]. exists z. split; [auto|]. split; [apply andb_comm|auto].
  - destruct L as (O & z & Z). pose proof (k_op _ _ _ _ _ _ _ K O) as O'. pose proof (reads_same _ _ _ _ SS Z) as Z'.
    exists (fn_NC E), (put_pow n r col ((z =? 0) && p) (mark (s_ctx s) v)), ((z =? 0) && p), c.
    split; [auto|]. split; [eapply nc_ok; eauto|]. split; [|auto]. exists z. split; [auto|]. split; [apply andb_comm|auto].
  - destruct L as (O & (z & Z) & (o & Y)). pose proof (k_op _ _ _ _ _ _ _ K O) as O'. pose proof (reads_same _ _ _ _ SS Z) as Z'.
    pose proof (prev_reads_same _ _ _ _ SS Y) as Y'.
    exists (fn_RE E), (put_pow n r col (negb (z =? 0) && (o =? 0) && p) (mark (s_ctx s) v)), (negb (z =? 0) && (o =? 0) && p), c.
    split; [auto|]. split; [eapply re_ok; eauto|]. split; [|auto]. exists z, o. split; [auto|]. split; [auto|]. split; [|auto].
    destruct p, (z =? 0), (o =? 0); reflexivity.
  - destruct L as (O & (z & Z) & (o & Y)). pose proof (k_op _ _ _ _ _ _ _ K O) as O'. pose proof (reads_same _ _ _ _ SS Z) as Z'.
    pose proof (prev_reads_same _ _ _ _ SS Y) as Y'.
    exists (fn_FE E), (put_pow n r col ((z =? 0) && negb (o =? 0) && p) (mark (s_ctx s) v)), ((z =? 0) && negb (o =? 0) && p), c.
    split; [auto|]. split; [eapply fe_ok; eauto|]. split; [|auto]. exists z, o. split; [auto|]. split; [auto|]. split; [|auto].
    destruct p, (z =? 0), (o =? 0); reflexivity.
  - pose proof (k_op _ _ _ _ _ _ _ K L) as O'. destruct (KC p) as (KC1 & KC2 & KC3).
    exists (fn_COIL E), (wr v (b2z p) (put_pow n r col p (s_ctx s))), p, (wr v (b2z p) c).
    split; [auto|]. split; [eapply coil_ok; eauto; apply O'|]. auto.
  - destruct L as (O & (o & Y)). pose proof (k_op _ _ _ _ _ _ _ K O) as O'. pose proof (prev_reads_same _ _ _ _ SS Y) as Y'.
    destruct (KC (negb (o =? 0) || p)) as (KC1 & KC2 & KC3).
    eexists (fn_COILL E), _, (negb (o =? 0) || p), _.
    split; [auto|]. split; [eapply coill_ok; eauto|]. split; [exists o; split; [auto|]; split; [reflexivity|exact KC2]|]. auto.
  - destruct L as (O & (o & Y)). pose proof (k_op _ _ _ _ _ _ _ K O) as O'. pose proof (prev_reads_same _ _ _ _ SS Y) as Y'.
    destruct (KC (negb (o =? 0) && negb p)) as (KC1 & KC2 & KC3).
    eexists (fn_COILU E), _, (negb (o =? 0) && negb p), _.
    split; [auto|]. split; [eapply coilu_ok; eauto|]. split; [exists o; split; [auto|]; split; [reflexivity|exact KC2]|]. auto.
  - destruct (CMP _ _ _ eq_refl eq_refl eq_refl Z.eqb_eq L) as (c2 & q & c' & X1 & X2 & X3). exists (fn_EQ E), c2, q, c'. auto.
  - destruct (CMP _ _ _ eq_refl eq_refl eq_refl ltac:(intros; simpl; lia) L) as (c2 & q & c' & X1 & X2 & X3). exists (fn_GT E), c2, q, c'. auto.
  - destruct (CMP _ _ _ eq_refl eq_refl eq_refl ltac:(intros; simpl; lia) L) as (c2 & q & c' & X1 & X2 & X3). exists (fn_GE E), c2, q, c'. auto.
  - destruct (CMP _ _ _ eq_refl eq_refl eq_refl ltac:(intros; simpl; lia) L) as (c2 & q & c' & X1 & X2 & X3). exists (fn_LT E), c2, q, c'. auto.
  - destruct (CMP _ _ _ eq_refl eq_refl eq_refl ltac:(intros; simpl; lia) L) as (c2 & q & c' & X1 & X2 & X3). exists (fn_LE E), c2, q, c'. auto.
  - destruct (CMP _ _ _ eq_refl eq_refl eq_refl ltac:(intros; simpl; lia) L) as (c2 & q & c' & X1 & X2 & X3). exists (fn_NE E), c2, q, c'. auto.
Qed.

(** One cell, with its bookkeeping. *)
Lemma exec_cell_runs c0 c pw s r col : evolved c0 c -> at_power c pw s -> peek c (LNet n) = Some (VNet true rows cols) ->
  (r < rows)%nat -> (col < cols)%nat -> logic_cell c n r col -> known (code_at c n r col) \/ code_at c n r col = I_MULTI ->
  exists s' q c', exec_cell E n col r s = Ok (true, s') /\ cell_does c n r col (left_of pw r col) (pw r col) q c'
    /\ at_power c' (set_power pw r col q) s' /\ evolved c0 c'.
Proof.
  intros EV K N R C L KN. unfold exec_cell.
  pose proof (k_pow _ _ _ K r col R C) as OWN. unfold powered in OWN. simpl in OWN.
  destruct (cell_of (s_ctx s) n r col) as [x|] eqn:X; [|discriminate].
  assert (MC : mcell r col s = Ok (x, s)).
  { unfold mcell. rewrite bind_getc. apply lift_ok. eapply ex_cell_ok; eauto. apply K. }
  assert (CX : c_code x = code_at c n r col).
  { unfold code_at. rewrite <- (k_regs_eq _ _ _ (LCell n r col) K) by (apply not_status_data; exact I). simpl. now rewrite X. }
  rewrite (bind_ok _ _ _ _ _ MC), CX.
  match goal with |- context [bind (modc ?f) ?k s] => change (bind (modc f) k s) with (k tt (inc s (f (s_ctx s)))); set (s1 := inc s (f (s_ctx s))) end.
  assert (K1 : at_power c pw s1).
  { eapply k_status; [exact K|]. intros l D. destruct l; try reflexivity; exfalso; auto. }
  destruct KN as [KN|KN].
  - replace (is_multi (code_at c n r col)) with false by (destruct (code_at c n r col); auto; contradiction).
    destruct (logic_runs c0 c pw s1 r col EV K1 N R C L KN) as (f & c2 & q & c' & F & FR & CD & K2 & EV2). rewrite F.
    rewrite (bind_ok _ _ _ _ _ FR). unfold set_err at 1.
    match goal with |- context [bind (modc ?g) ?k ?s0] => change (bind (modc g) k s0) with (k tt (inc s0 (g (s_ctx s0)))); set (s3 := inc s0 (g (s_ctx s0))) end.
    assert (K3 : at_power c' (set_power pw r col q) s3).
    { eapply k_status; [exact K2|]. intros l D. destruct l; try reflexivity; exfalso; auto. }
    change (is_ok E_OK) with true. cbv beta iota. rewrite bind_getc.
    assert (EM : exists s4, (if h_instr (x_h (s_ctx s3)) then emit E EvInstr else ret tt) s3 = Ok (tt, s4) /\ s_ctx s4 = s_ctx s3).
    { destruct (h_instr _); [apply emit_quiet; exact I|exists s3; auto]. }
    destruct EM as (s4 & EM & S4). rewrite (bind_ok _ _ _ _ _ EM). exists s4, q, c'. split; [reflexivity|]. split; [auto|]. split; [|auto].
    eapply k_ctx; eauto.
  - rewrite KN. simpl is_multi. cbv beta iota. exists s1, (pw r col), c. split; [reflexivity|]. unfold cell_does. rewrite KN.
    split; [split; [reflexivity|intros ?; reflexivity]|]. split; [|auto]. eapply k_ext; [|exact K1]. intros r' col'. unfold set_power.
    destruct (r' =? r)%nat eqn:E1; [destruct (col' =? col)%nat eqn:E2|]; simpl; auto. apply Nat.eqb_eq in E1, E2. now subst.
Qed.

(** What stays true of the program while coils are written. *)
Section C.
Variable c0 : ctx.
Hypothesis HN : peek c0 (LNet n) = Some (VNet true rows cols).
Hypothesis HW : wf_cells c0 n rows cols.
Hypothesis HG : forall r col, (r < rows)%nat -> (col < cols)%nat -> logic_cell c0 n r col.
Lemma ev_net c : evolved c0 c -> peek c (LNet n) = Some (VNet true rows cols).
Proof. intros H. rewrite (e_same _ _ H); auto. Qed.
Lemma ev_code c r col : evolved c0 c -> code_at c n r col = code_at c0 n r col.
Proof. intros H. unfold code_at. rewrite (e_same _ _ H); auto. Qed.
Lemma ev_arg c r col j : evolved c0 c -> arg c n r col j = arg c0 n r col j.
Proof. intros H. unfold arg. rewrite (e_same _ _ H); auto. Qed.
Lemma ev_op c r col j v : evolved c0 c -> operand_at c0 n r col j v -> operand_at c n r col j v.
Proof. intros H. unfold operand_at. rewrite !(e_same _ _ H); auto. Qed.
Lemma ev_logic c r col : evolved c0 c -> (r < rows)%nat -> (col < cols)%nat -> logic_cell c n r col.
Proof.
  intros H R C. pose proof (HG r col R C) as L. unfold logic_cell in *. rewrite ev_code, (ev_arg c r col 0), (ev_arg c r col 1) by auto.
  destruct (code_at c0 n r col); auto; repeat match goal with H : _ /\ _ |- _ => destruct H | |- _ /\ _ => split end;
    solve [apply ev_op; auto | eapply e_has; eauto | eapply e_had; eauto].
Qed.
Lemma ev_known c r col : evolved c0 c -> (r < rows)%nat -> (col < cols)%nat -> known (code_at c n r col) \/ code_at c n r col = I_MULTI.
Proof.
  intros H R C. rewrite ev_code by auto. unfold code_at. destruct (HW r col R C) as (b & i & d & P & K). rewrite P. auto.
Qed.
Lemma exec_rows_runs col rs : (col < cols)%nat -> NoDup rs -> (forall r, In r rs -> (r < rows)%nat) -> forall c pw0 pw1 s,
  evolved c0 c -> at_power c pw1 s -> (forall r k, k <> col \/ In r rs -> pw1 r k = pw0 r k) ->
  exists s' qs c' pw2, exec_rows E n col rs s = Ok (true, s') /\ cells_do n col pw0 rs c qs c' /\ at_power c' pw2 s' /\ evolved c0 c'
    /\ map (fun r => pw2 r col) rs = qs /\ (forall r k, k <> col \/ ~ In r rs -> pw2 r k = pw1 r k).
Proof.
  intros C. induction rs as [|r rs IH]; intros ND HR c pw0 pw1 s EV K EQ.
  - exists s, [], c, pw1. split; [reflexivity|]. split; [constructor|]. auto.
  - inversion ND as [|r0 rs0 NI ND2]; subst. cbn [exec_rows].
    assert (R : (r < rows)%nat) by (apply HR; simpl; auto).
    destruct (exec_cell_runs c0 c pw1 s r col EV K (ev_net c EV) R C (ev_logic c r col EV R C) (ev_known c r col EV R C))
      as (s1 & q & c1 & X & CD & K1 & EV1).
    rewrite (bind_ok _ _ _ _ _ X).
    destruct (IH ND2 ltac:(intros; apply HR; simpl; auto) c1 pw0 (set_power pw1 r col q) s1 EV1 K1) as (s2 & qs & c2 & pw2 & X2 & CD2 & K2 & EV2 & MP & FR).
    { intros r' k D. unfold set_power. destruct (r' =? r)%nat eqn:E1; [destruct (k =? col)%nat eqn:E2|]; cbn [andb].
      - apply Nat.eqb_eq in E1, E2. subst. destruct D as [D|D]; contradiction.
      - apply EQ. apply Nat.eqb_neq in E2. auto.
      - apply EQ. simpl. intuition. }
    exists s2, (q :: qs), c2, pw2. split; [exact X2|]. split; [|split; [auto|split; [auto|split]]].
    + econstructor; [|exact CD2].
      assert (LE : left_of pw1 r col = left_of pw0 r col).
      { destruct col as [|k]; [reflexivity|]. apply EQ. left. lia. }
      rewrite <- LE. rewrite <- (EQ r col) by (simpl; auto). exact CD.
    + simpl. f_equal; [|exact MP]. rewrite FR by auto. unfold set_power. rewrite 2Nat.eqb_refl. reflexivity.
    + intros r' k D. rewrite FR by (simpl in D; tauto). unfold set_power.
      destruct (r' =? r)%nat eqn:E1; [destruct (k =? col)%nat eqn:E2|]; cbn [andb]; auto.
      apply Nat.eqb_eq in E1, E2. subst. simpl in D. tauto.
Qed.
Lemma or_states_runs col rs c pw s acc : at_power c pw s -> (col < cols)%nat -> (forall r, In r rs -> (r < rows)%nat) ->
  or_states col rs acc s = Ok (acc || existsb id (map (fun r => pw r col) rs), s).
Proof.
  intros K C. revert acc. induction rs as [|r rs IH]; intros acc HR; simpl; [now rewrite orb_false_r|].
  rewrite (bind_ok _ _ _ _ _ (mstate_ok _ n _ _ _ (k_exec _ _ _ K) (k_pow _ _ _ K r col ltac:(apply HR; simpl; auto) C))).
  rewrite IH by (intros; apply HR; simpl; auto). unfold id at 1. now rewrite orb_assoc.
Qed.
Lemma put_states_runs col rs b : (col < cols)%nat -> (forall r, In r rs -> (r < rows)%nat) -> forall c pw s, at_power c pw s ->
  exists s', put_states col rs b s = Ok (tt, s') /\ at_power c (joins pw col rs b) s'.
Proof.
  intros C. induction rs as [|r rs IH]; intros HR c pw s K; simpl.
  - exists s. split; [reflexivity|]. eapply k_ext; [|exact K]. intros r col'. unfold joins. simpl. now rewrite andb_false_r.
  - assert (R : (r < rows)%nat) by (apply HR; simpl; auto).
    assert (HC : has_cell (s_ctx s) n r col).
    { pose proof (k_pow _ _ _ K r col R C) as P. unfold powered in P. simpl in P. destruct (cell_of (s_ctx s) n r col) as [x|] eqn:X; [|discriminate]. exists x; auto. }
    rewrite (bind_ok _ _ _ _ _ (mput_ok s n r col b (k_exec _ _ _ K) HC)).
    destruct (IH ltac:(intros; apply HR; simpl; auto) c (set_power pw r col b) (inc s (put_pow n r col b (s_ctx s)))) as (s' & X & K').
    { apply (k_cell c pw s c); auto.
      - now rewrite put_pow_exec.
      - intros l NS. rewrite put_pow_frame; [apply (k_regs_eq _ _ _ _ K NS)|]. intros ->. apply NS. left; eauto.
      - apply powered_pow_here; auto.
      - intros k r' col' D. apply put_pow_frame. congruence. }
    exists s'. split; [exact X|]. eapply k_ext; [|exact K']. intros r' col'. unfold joins, set_power. cbn [existsb].
    destruct (col' =? col)%nat eqn:E1; [|rewrite andb_false_r; reflexivity]. rewrite andb_true_r. cbn [andb].
    destruct (r' =? r)%nat, (existsb (Nat.eqb r') rs); reflexivity.
Qed.
(** Steps whose groups are inside the network. *)
Definition step_in (x : step) : Prop :=
  match x with Run col rs => (col < cols)%nat /\ NoDup rs /\ (forall r, In r rs -> (r < rows)%nat) | _ => True end.
Lemma run_steps_runs m l : forall cc c pw s, limit c0 m -> (forall x, In x l -> step_in x) -> cc + ticks l <= m ->
  evolved c0 c -> at_power c pw s ->
  exists s' c' pw', run_steps E n l cc s = Ok (true, s') /\ steps_do n l c pw c' pw' /\ at_power c' pw' s' /\ evolved c0 c'.
Proof.
  induction l as [|x l IH]; intros cc c pw s LM HX HT EV K.
  - exists s, c, pw. split; [reflexivity|]. split; [constructor|]. auto.
  - assert (HX' : forall x, In x l -> step_in x) by (intros; apply HX; simpl; auto).
    pose proof (HX x (or_introl eq_refl)) as Hx. destruct x as [|col rs|]; cbn [run_steps].
    + rewrite ticks_tick in HT. pose proof (ticks_nonneg l) as TN.
      assert (MX : cc + 1 <= si_maxcyc (x_si (s_ctx s))).
      { destruct LM as (si & L1 & L2). rewrite <- (e_same _ _ EV LStats) in L1 by auto.
        rewrite <- (k_regs_eq _ _ _ LStats K) in L1 by (apply not_status_data; exact I). simpl in L1. injection L1 as <-. lia. }
      destruct (check_quiet (cc + 1) s MX) as (s1 & X1 & C1). rewrite (bind_ok _ _ _ _ _ X1).
      destruct (IH (cc + 1) c pw s1 LM HX' ltac:(lia) EV (k_ctx _ _ _ _ K C1)) as (s' & c' & pw' & X & SD & K' & EV').
      exists s', c', pw'. split; [exact X|]. split; [now constructor|]. auto.
    + destruct Hx as (C & ND & HR). rewrite ticks_run in HT.
      destruct (exec_rows_runs col rs C ND HR c pw pw s EV K ltac:(auto)) as (s1 & qs & c1 & pw1 & X1 & CD & K1 & EV1 & MP & FR).
      rewrite (bind_ok _ _ _ _ _ X1). rewrite (bind_ok _ _ _ _ _ (or_states_runs col rs c1 pw1 s1 false K1 C HR)). rewrite MP. simpl orb.
      destruct (put_states_runs col rs (existsb id qs) C HR c1 pw1 s1 K1) as (s2 & X2 & K2). rewrite (bind_ok _ _ _ _ _ X2).
      assert (K3 : at_power c1 (joins pw col rs (existsb id qs)) s2).
      { eapply k_ext; [|exact K2]. intros r k. unfold joins. destruct (k =? col)%nat eqn:E1; cbn [andb].
        - destruct (existsb (Nat.eqb r) rs) eqn:E2; auto. apply FR. right. intros NI.
          assert (T : existsb (Nat.eqb r) rs = true) by (apply existsb_exists; exists r; split; auto; apply Nat.eqb_refl). congruence.
        - apply FR. left. now apply Nat.eqb_neq. }
      destruct (IH cc c1 _ s2 LM HX' HT EV1 K3) as (s' & c' & pw' & X & SD & K' & EV').
      exists s', c', pw'. split; [exact X|]. split; [econstructor; eauto|]. auto.
    + rewrite ticks_close in HT. rewrite bind_getc.
      assert (EM : exists s1, (if h_scan_end (x_h (s_ctx s)) then emit E EvScanEnd else ret tt) s = Ok (tt, s1) /\ s_ctx s1 = s_ctx s).
      { destruct (h_scan_end _); [apply emit_quiet; exact I|exists s; auto]. }
      destruct EM as (s1 & X1 & C1). rewrite (bind_ok _ _ _ _ _ X1).
      destruct (IH cc c pw s1 LM HX' ltac:(lia) EV (k_ctx _ _ _ _ K C1)) as (s' & c' & pw' & X & SD & K' & EV').
      exists s', c', pw'. split; [exact X|]. split; [now constructor|]. auto.
Qed.
Lemma plan_in code bar f g x : (forall k g col, (joined bar k g col <= k)%nat) -> In x (net_steps rows cols code bar f g) -> step_in x.
Proof.
  intros JL. revert g. induction f as [|f IH]; intros g H; cbn [net_steps] in H; [contradiction|].
  destruct (g <? rows)%nat eqn:G; [|contradiction]. apply Nat.ltb_lt in G. apply in_app_iff in H as [H|H]; [|eauto].
  simpl in H. destruct H as [<-|H]; [exact I|]. destruct (multi (code g 0%nat)); [contradiction|]. apply in_app_iff in H as [H|[<-|[]]]; [|exact I].
  apply in_flat_map in H as (col & C & H). apply in_seq in C. unfold column_steps in H. apply in_app_iff in H as [H|H].
  - apply repeat_spec in H as ->. exact I.
  - destruct (_ || _); [|contradiction]. destruct H as [<-|[]]. split; [lia|]. split; [apply seq_NoDup|]. intros r R. unfold group in R. apply in_seq in R.
    specialize (JL (rows - S g)%nat g col). lia.
Qed.
End C.
End N.
End Quiet.

(** ** The whole scan *)
Lemma clear_total c n en rows cols : peek c (LNet n) = Some (VNet en rows cols) -> wf_cells c n rows cols ->
  exists c', upd_net n clear_states c = Ok c'.
Proof.
  intros N W. simpl in N. destruct (net_of c n) as [nt|] eqn:NO; [|discriminate]. simpl in N. injection N as _ NR NC.
  unfold upd_net. rewrite (net_at_of _ _ _ NO). simpl rbind.
  assert (CS : exists nt', clear_states nt = Ok nt').
  { unfold clear_states. destruct ((n_rows nt =? 0)%nat || (n_cols nt =? 0)%nat) eqn:Z0; [eauto|].
    apply orb_false_iff in Z0 as [Z1 Z2]. apply Nat.eqb_neq in Z1, Z2.
    assert (CE : forall r col, (r < rows)%nat -> (col < cols)%nat -> exists x, ncell nt r col = Some x).
    { intros r col R C. destruct (W r col R C) as (b & i & d & P & _). simpl in P. rewrite (cell_of_net _ _ _ _ _ NO) in P.
      destruct (ncell nt r col); [eauto|discriminate]. }
    unfold ncell in CE. destruct (n_cells nt) as [rs|]; [|destruct (CE 0%nat 0%nat) as (x & X); [lia|lia|discriminate]].
    assert (LR : (rows <= length rs)%nat).
    { destruct (Nat.le_gt_cases rows (length rs)) as [?|G]; auto. destruct (CE (length rs) 0%nat) as (x & X); [lia|lia|].
      simpl in X. unfold elem, obind in X. rewrite (proj2 (nth_error_None rs (length rs))) in X by lia. discriminate. }
    assert (LC : forall r row, (r < rows)%nat -> nth_error rs r = Some row -> (cols <= length row)%nat).
    { intros r row R H. destruct (Nat.le_gt_cases cols (length row)) as [?|G]; auto. destruct (CE r (length row)) as (x & X); auto.
      simpl in X. unfold elem, obind in X. rewrite H in X. rewrite (proj2 (nth_error_None row (length row))) in X by lia. discriminate. }
    rewrite NR, NC.
    assert (MF : forall k l, (k <= length l)%nat -> (forall i row, (i < k)%nat -> nth_error l i = Some row -> (cols <= length row)%nat) ->
       exists l', map_first k (map_first cols (fun x => Ok (set_c_state false x))) l = Ok l').
    { induction k as [|k IH]; intros l L F; [simpl; eauto|]. destruct l as [|row t]; [simpl in L; lia|]. cbn [map_first].
      destruct (map_first_ok cols (fun x : cell => Ok (set_c_state false x)) row) as (row' & ->);
        [apply (F 0%nat); [lia|reflexivity]|eauto|]. simpl rbind.
      destruct (IH t) as (t' & ->); [simpl in L; lia|intros i rw I0 H; apply (F (S i)); [lia|exact H]|]. simpl. eauto. }
    destruct (MF rows rs LR) as (l' & ->); [intros; eapply LC; eauto|]. simpl. eauto. }
  destruct CS as (nt' & ->). simpl rbind. unfold net_of, elem, obind in NO. destruct (x_net c) as [l|]; [|discriminate]. eauto.
Qed.
Section Scan.
Variables (E : env) (c0 : ctx) (m : Z).
Hypothesis LR : logic_ready E c0 m.
Notation WE := (fun _ : loc => False).
Notation J := (J WE c0).
Lemma lay_none : forall l, WE l -> ~ is_layout l. Proof. intros l []. Qed.
Lemma same_trans a b c : same_registers a b -> same_registers b c -> same_registers a c.
Proof. apply changes_trans. Qed.
Lemma network_runs n s c : (n < q_nets (x_q c0))%nat -> J s -> same_registers c (s_ctx s) -> evolved c0 c ->
  exists s' c' pw, scan_network E n s = Ok (true, s') /\ steps_do n (plan c0 n) c all_off c' pw /\ same_registers c' (s_ctx s') /\ evolved c0 c'
    /\ (forall rows cols r col, scanned c0 n rows cols -> (r < rows)%nat -> (col < cols)%nat -> powered (s_ctx s') n r col (pw r col))
    /\ (forall k r col, k <> n -> peek (s_ctx s') (LPow k r col) = peek (s_ctx s) (LPow k r col)).
Proof.
  intros Hn HJ SR EV. destruct LR as [[HE HL HW HS HB HM M0 [_ WF] CR0] CR ST LP CO].
  destruct (WF n Hn) as (LRo & en & rows & cols & LN & WC).
  unfold scan_network. rewrite bind_getc.
  pose proof (J_meta WE c0 HL s (LNet n) HJ I) as MN. rewrite LN in MN. simpl in MN.
  destruct (net_of (s_ctx s) n) as [nt|] eqn:N; [|discriminate]. simpl in MN. injection MN as M1 M2 M3.
  rewrite (bind_ok _ _ _ _ _ (lift_ok _ _ _ (net_at_of _ _ _ N))).
  replace (is_null (n_cells nt)) with false.
  2:{ assert (K : peek (s_ctx s) (LRows n) = peek c0 (LRows n)).
      { apply (J_layout WE c0 HL); auto; try exact I; try discriminate. }
      simpl in K. rewrite N in K. simpl in K. destruct (n_cells nt) eqn:NC; [reflexivity|]. exfalso. apply LRo. exact (eq_sym K). }
  rewrite M1. destruct en.
  - destruct (WC eq_refl) as [C0 WCC]. assert (SC : scanned c0 n rows cols) by (split; auto).
    match goal with |- context [bind (modc ?f) ?k s] => change (bind (modc f) k s) with (k tt (inc s (f (s_ctx s)))); set (s1 := inc s (f (s_ctx s))) end.
    cbv beta.
    assert (C1 : changes_only (s_ctx s) (s_ctx s1) (eq LExec)) by (intros l L; destruct l; simpl; auto; congruence).
    assert (W1 : wf_cells (s_ctx s1) n rows cols).
    { intros r col R C. destruct (WCC r col R C) as (b & i & d & P & K). exists b, i, d. split; auto.
      rewrite (C1 (LCell n r col)) by discriminate. rewrite (J_meta WE c0 HL s (LCell n r col) HJ I). auto. }
    assert (N1 : peek (s_ctx s1) (LNet n) = Some (VNet true rows cols)).
    { rewrite (C1 (LNet n)) by discriminate. rewrite (J_meta WE c0 HL s (LNet n) HJ I). auto. }
    destruct (clear_total _ _ _ _ _ N1 W1) as (c2 & CL). pose proof (clear_net_ok _ _ _ CL) as [C2 OFF].
    assert (UC : updc (upd_net n clear_states) s1 = Ok (tt, inc s1 c2)) by (apply updc_ok; exact CL).
    rewrite (bind_ok _ _ _ _ _ UC). set (s2 := inc s1 c2).
    assert (H1 : JX WE c0 n s1).
    { split; [|reflexivity]. apply (J_changes WE c0 s _ (eq LExec)); auto. intros l <-. left; left; simpl; auto. }
    assert (H2 : JX WE c0 n s2).
    { apply (JX_changes WE c0 n s1 _ (fun l => exists r col, l = LPow n r col)); auto.
      - intros l (r & col & ->). eapply WS_pow; eauto.
      - intros (r & col & ?). discriminate. }
    rewrite M2. rewrite (rows_eq E WE c0 n rows cols HE HL HS SC WCC rows 0 0 s2) by (auto; lia).
    assert (PL : plan c0 n = net_steps rows cols (code_at c0 n) (bar_at c0 n) rows 0) by (unfold plan; now rewrite LN).
    rewrite <- PL.
    assert (K2 : at_power (s_ctx s) n rows cols c all_off s2).
    { constructor.
      - apply H2.
      - intros l L. transitivity (peek (s_ctx s1) l); [|transitivity (peek (s_ctx s) l)].
        + apply C2. intros (r & col & ->). apply L. left; eauto.
        + apply C1. intros <-. apply L. right; simpl; auto.
        + apply SR, L.
      - intros r col R C. destruct (W1 r col R C) as (b & i & d & P & _).
        assert (PP : exists q, powered (s_ctx s1) n r col q).
        { unfold powered. simpl in *. destruct (cell_of _ n r col) as [x|]; [|discriminate]. simpl. eauto. }
        destruct PP as (q & PP). exact (OFF r col rows cols true N1 R C q PP).
      - intros k r col D. transitivity (peek (s_ctx s1) (LPow k r col)); [|apply C1; discriminate].
        apply C2. intros (r' & col' & K). congruence. }
    destruct (run_steps_runs E HE (s_ctx s) n rows cols c0 LN WCC ltac:(intros; eapply LP; eauto) m (plan c0 n) 0 c all_off s2 HM) as (s' & c' & pw & X & SD & K' & EV'); auto.
    + intros x Hx. rewrite PL in Hx. eapply plan_in; [|exact Hx]. intros k g col. apply (joined_le c0 n).
    + specialize (CO n Hn). change (cost c0 n) with (ticks (plan c0 n)) in CO. lia.
    + exists s', c', pw. split; [exact X|]. split; [auto|]. split; [apply K'|]. split; [auto|]. split.
      * intros rows' cols' r col SC' R C. destruct SC' as [_ SC']. rewrite LN in SC'. injection SC' as <- <-. apply K'; auto.
      * intros k r col D. apply K'; auto.
  - exists s, c, all_off. split; [reflexivity|]. unfold plan. rewrite LN. split; [constructor|]. split; [auto|]. split; [auto|]. split; [|auto].
    intros rows' cols' r col [_ SC] _ _. congruence.
Qed.
Lemma nets_do_ext prog P P' l c c' : (forall n, In n l -> forall r col, P n r col = P' n r col) -> nets_do prog P l c c' -> nets_do prog P' l c c'.
Proof.
  intros H D. induction D as [c|n l c c1 c2 pw A B D IH]; [constructor|]. econstructor; [exact A| |apply IH; intros; apply H; simpl; auto].
  intros. rewrite <- H by (simpl; auto). auto.
Qed.
Lemma networks_runs f n s c : (n + f = q_nets (x_q c0))%nat -> J s -> same_registers c (s_ctx s) -> evolved c0 c ->
  exists s' c' P, scan_networks E f n s = Ok (tt, s') /\ nets_do c0 P (seq n f) c c' /\ same_registers c' (s_ctx s') /\ evolved c0 c'
    /\ (forall k rows cols r col, (n <= k)%nat -> scanned c0 k rows cols -> (r < rows)%nat -> (col < cols)%nat -> powered (s_ctx s') k r col (P k r col))
    /\ (forall k r col, (k < n)%nat -> peek (s_ctx s') (LPow k r col) = peek (s_ctx s) (LPow k r col)).
Proof.
  pose proof (sr_env _ _ _ _ (lr_scan _ _ _ LR)) as HE. pose proof (sr_nets _ _ _ _ (lr_scan _ _ _ LR)) as HS.
  revert n s c. induction f as [|f IH]; intros n s c Hf HJ SR EV; cbn [scan_networks seq]; rewrite bind_getc;
    rewrite (peek_qty c0 (s_ctx s)) by (apply (J_meta WE c0 lay_none); auto; exact I).
  - replace (n <? q_nets (x_q c0))%nat with false by (symmetry; apply Nat.ltb_ge; lia).
    exists s, c, (fun _ => all_off). split; [reflexivity|]. split; [constructor|]. split; [auto|]. split; [auto|]. split; [|auto].
    intros k rows cols r col L [K _] _ _. lia.
  - replace (n <? q_nets (x_q c0))%nat with true by (symmetry; apply Nat.ltb_lt; lia).
    destruct (network_runs n s c ltac:(lia) HJ SR EV) as (s1 & c1 & pw & X1 & SD & SR1 & EV1 & PW & OT). rewrite (bind_ok _ _ _ _ _ X1).
    assert (HJ1 : J s1).
    { pose proof (J_network E WE c0 HE lay_none HS n (fun _ s' => J s') s ltac:(lia) HJ ltac:(auto)) as W. exact (wp_ok _ _ _ _ _ _ W X1). }
    destruct (IH (S n) s1 c1 ltac:(lia) HJ1 SR1 EV1) as (s2 & c2 & P & X2 & ND & SR2 & EV2 & PW2 & OT2).
    exists s2, c2, (fun k => if (k =? n)%nat then pw else P k). split; [exact X2|]. split; [|split; [auto|split; [auto|split]]].
    + econstructor; [exact SD| |].
      * intros. now rewrite Nat.eqb_refl.
      * eapply nets_do_ext; [|exact ND]. intros k Hk r col. apply in_seq in Hk. replace (k =? n)%nat with false; [auto|]. symmetry. apply Nat.eqb_neq. lia.
    + intros k rows cols r col L SC R C. destruct (k =? n)%nat eqn:Q.
      * apply Nat.eqb_eq in Q as ->. unfold powered. rewrite OT2 by lia. apply (PW rows cols); auto.
      * apply Nat.eqb_neq in Q. apply (PW2 k rows cols); auto. lia.
    + intros k r col L. rewrite OT2 by lia. apply OT. lia.
Qed.
End Scan.
Lemma logic_scan E s m : logic_ready E (s_ctx s) m ->
  exists s' c' P, scans E s s' /\ nets_do (s_ctx s) P (seq 0 (q_nets (x_q (s_ctx s)))) (s_ctx s) c' /\ same_registers c' (s_ctx s')
    /\ evolved (s_ctx s) c' /\ has_power (s_ctx s) (s_ctx s') P.
Proof.
  intros LR. set (c0 := s_ctx s) in *. unfold scans, ladder_scan.
  match goal with |- context [bind (modc ?f) ?k s] => change (bind (modc f) k s) with (k tt (inc s (f (s_ctx s)))); set (s1 := inc s (f (s_ctx s))) end.
  cbv beta. assert (C1 : changes_only c0 (s_ctx s1) (eq LExec)) by (intros l L; destruct l; simpl; auto; congruence).
  assert (CR : scan_cron E s1 = Ok (true, s1)).
  { unfold scan_cron. rewrite bind_getc. pose proof (lr_cron _ _ _ LR) as K. simpl in K. simpl. injection K as K. fold c0. rewrite K. reflexivity. }
  rewrite (bind_ok _ _ _ _ _ CR), bind_getc.
  replace (is_null (x_net (s_ctx s1))) with false.
  2:{ destruct (sr_prog _ _ _ _ (lr_scan _ _ _ LR)) as [K _]. simpl in K. simpl. fold c0. destruct (x_net c0); [reflexivity|]. exfalso; apply K; reflexivity. }
  destruct (networks_runs E c0 m LR (q_nets (x_q c0)) 0 s1 c0) as (s' & c' & P & X & ND & SR & EV & PW & _); auto.
  - eapply changes_mono; [|exact C1]. intros l <-. left; left; simpl; auto.
  - eapply changes_mono; [|exact C1]. intros l <-. right; simpl; auto.
  - apply evolved_refl. apply (lr_stores _ _ _ LR).
  - exists s', c', P. split; [exact X|]. split; [auto|]. split; [auto|]. split; [auto|].
    intros n rows cols r col SC R C. apply (PW n rows cols); auto. lia.
Qed.
