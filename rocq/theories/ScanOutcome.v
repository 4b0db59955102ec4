(** How a scan ends: completion, fault or watchdog, and in which order the instructions are executed. *)
From Verif Require Export Plan CronStep.

Section G.
Variables (E : env) (W : loc -> Prop).
Lemma executes_pre l s0 s s' : changes_only (s_ctx s0) (s_ctx s) (glue W) -> executes E W l s s' -> executes E W l s0 s'.
Proof.
  intros C H. inversion H; subst.
  - constructor. eapply changes_trans; eauto.
  - econstructor; [eapply changes_trans; eauto|eauto|auto].
Qed.
Lemma executes_app l1 l2 s s1 s2 : executes E W l1 s s1 -> executes E W l2 s1 s2 -> executes E W (l1 ++ l2) s s2.
Proof.
  induction 1 as [s s1 C|n r col l s sa sb s1 C X H IH]; intros H2; simpl.
  - eapply executes_pre; eauto.
  - econstructor; eauto.
Qed.
Lemma executes_post l s s1 s2 : executes E W l s s1 -> changes_only (s_ctx s1) (s_ctx s2) (glue W) -> executes E W l s s2.
Proof. intros H C. rewrite <- (app_nil_r l). eapply executes_app; [exact H|]. now constructor. Qed.
Lemma executes_refl s : executes E W [] s s.
Proof. constructor. apply changes_refl. Qed.
End G.

Definition is_tick (x : step) : bool := match x with Tick => true | _ => false end.
Definition ticks (l : list step) : Z := Z.of_nat (length (filter is_tick l)).
Lemma ticks_app a b : ticks (a ++ b) = ticks a + ticks b.
Proof. unfold ticks. rewrite filter_app, app_length. lia. Qed.
Lemma ticks_tick l : ticks (Tick :: l) = 1 + ticks l. Proof. unfold ticks. simpl length. lia. Qed.
Lemma ticks_run col rs l : ticks (Run col rs :: l) = ticks l. Proof. reflexivity. Qed.
Lemma ticks_close l : ticks (Close :: l) = ticks l. Proof. reflexivity. Qed.
Lemma ticks_nonneg l : 0 <= ticks l. Proof. unfold ticks. lia. Qed.

Lemma filter_ext_in' {A} (f g : A -> bool) l : (forall x, In x l -> f x = g x) -> filter f l = filter g l.
Proof. apply filter_ext_in. Qed.

Section P.
Variables (E : env) (WE : loc -> Prop) (c0 : ctx) (m : Z).
Hypothesis HE : env_writes E WE.
Hypothesis HL : forall l, WE l -> ~ is_layout l.
Hypothesis HW : forall l, In l [LState; LErr; LLast; LStats] -> ~ WE l.
Hypothesis HS : forall k, peek c0 LNets = Some (VN k) -> Z.of_nat k <= 2 ^ 32.
Hypothesis HB : ~ bank_missing c0.
Hypothesis HM : limit c0 m.
Notation glue := (glue WE).
Notation executes := (executes E WE).

Lemma glue_we l : WE l -> glue l. Proof. now right; right. Qed.
Lemma glue_state : ~ glue LState.
Proof. intros [(n & r & col & K)|[K|K]]; [discriminate|simpl in K; intuition discriminate|]. apply (HW LState); simpl; auto. Qed.

(** The scan invariant together with: the machine state is still the one at the start. *)
Section N.
Variables (n rows cols : nat).
Hypothesis HN : scanned c0 n rows cols.
Hypothesis HC : wf_cells c0 n rows cols.
Notation JX := (JX WE c0 n).
Notation code := (code_at c0 n).
Notation bar := (bar_at c0 n).
Definition JS (s : st) : Prop := JX s /\ peek (s_ctx s) LState = peek c0 LState.

Lemma J_stats s : J WE c0 s -> peek (s_ctx s) LStats = peek c0 LStats.
Proof.
  intros H. apply H. intros [K|K]; [|apply (HW LStats); simpl; auto].
  destruct K as [K|[(a & b & d & e & f & _ & K)|[(a & b & d & i & _ & K)|(k & js & j & _ & _ & _ & _ & _ & K)]]]; try discriminate.
  - simpl in K. intuition discriminate.
  - destruct K as [(j & v & _ & _ & T)|[(_ & v & _ & _ & T)|[(_ & v & _ & _ & T)|(_ & n' & r' & c' & a' & b' & A & K)]]]; try discriminate.
    + apply target_place in T. contradiction.
    + simpl in T. intuition discriminate.
    + simpl in T. intuition discriminate.
Qed.
Lemma J_max s : J WE c0 s -> si_maxcyc (x_si (s_ctx s)) = m.
Proof. intros H. pose proof (J_stats s H) as K. destruct HM as (si & M1 & M2). rewrite M1 in K. simpl in K. injection K as ->. exact M2. Qed.
Lemma J_banks s : J WE c0 s -> ~ bank_missing (s_ctx s).
Proof.
  intros H K. apply HB. destruct K as [[b K]|K].
  - left. exists b. rewrite <- (J_meta WE c0 HL s (LRegLen b) H I). exact K.
  - right. rewrite <- (J_meta WE c0 HL s LTmLen H I). exact K.
Qed.
Lemma JS_glue s s' : JS s -> JX s' -> changes_only (s_ctx s) (s_ctx s') glue -> JS s'.
Proof. intros [H S] H' C. split; auto. rewrite <- S. apply C, glue_state. Qed.

(** wp with the invariant and a frame at the same time. *)
Lemma JG {A} (mm : M A) (P : A -> st -> Prop) s : JS s -> (forall Q : A -> st -> Prop, (forall a s', JX s' -> Q a s') -> wp any mm Q s) ->
  wp any mm P s -> (forall a s', P a s' -> changes_only (s_ctx s) (s_ctx s') glue) ->
  wp any mm (fun a s' => JS s' /\ P a s') s.
Proof.
  intros H K1 K2 K3. specialize (K1 (fun _ s' => JX s') (fun _ s' h => h)). unfold wp in *.
  destruct (mm s) as [[a s']| |]; auto. split; auto. eapply JS_glue; eauto.
Qed.

Lemma panic_g s : wp any (panic E) (fun _ s' => changes_only (s_ctx s) (s_ctx s') WE) s.
Proof.
  unfold panic. apply wp_bind, wp_getc. destruct (h_panic _); [|apply wp_ret, changes_refl].
  unfold wp, emit; simpl. apply HE; exact I.
Qed.
Lemma emit_g ev s : scan_event ev -> wp any (emit E ev) (fun _ s' => changes_only (s_ctx s) (s_ctx s') WE) s.
Proof. intros. unfold wp, emit; simpl. apply HE; auto. Qed.

Definition stopped (s s' : st) : Prop :=
  changes_only (s_ctx s) (s_ctx s') (fun l => l = LErr \/ l = LState \/ WE l)
  /\ peek (s_ctx s') LErr = Some (VErr E_OVERFLOW) /\ peek (s_ctx s') LState = Some (VState S_ERROR).
Lemma check_out cc s : JS s ->
  wp any (check_cycles E cc) (fun b s' => JX s' /\
    if b : bool then cc <= m /\ JS s' /\ changes_only (s_ctx s) (s_ctx s') glue else m < cc /\ stopped s s') s.
Proof.
  intros H. assert (A : wp any (check_cycles E cc) (fun b s' =>
    if b : bool then cc <= m /\ changes_only (s_ctx s) (s_ctx s') WE else m < cc /\ stopped s s') s).
  { unfold check_cycles. apply wp_bind, wp_getc, wp_bind.
    assert (B : forall s1, changes_only (s_ctx s) (s_ctx s1) WE ->
      wp any (c2 <- getc;; (if si_maxcyc (x_si c2) <? cc then set_state S_ERROR;;; set_err E_OVERFLOW;;; panic E;;; ret false else ret true))%m
       (fun b s' => if b : bool then cc <= m /\ changes_only (s_ctx s) (s_ctx s') WE else m < cc /\ stopped s s') s1).
    { intros s1 C1. apply wp_bind, wp_getc.
      assert (M1 : si_maxcyc (x_si (s_ctx s1)) = m).
      { rewrite <- (J_max s) by apply H. assert (K : peek (s_ctx s1) LStats = peek (s_ctx s) LStats) by (apply C1, HW; simpl; auto).
        simpl in K. congruence. }
      rewrite M1. destruct (m <? cc) eqn:Q.
      - apply Z.ltb_lt in Q. apply wp_bind, wp_modc, wp_bind, wp_modc, wp_bind.
        eapply wp_mono; [|apply panic_g]. intros [] s2 C2. apply wp_ret. split; auto.
        assert (P1 : peek (s_ctx s2) LErr = Some (VErr E_OVERFLOW)) by (rewrite C2; [reflexivity|apply HW; simpl; auto]).
        assert (P2 : peek (s_ctx s2) LState = Some (VState S_ERROR)) by (rewrite C2; [reflexivity|apply HW; simpl; auto]).
        split; [|now split]. intros l L. rewrite C2 by tauto.
        transitivity (peek (s_ctx s1) l); [|apply C1; tauto]. destruct l; try reflexivity; exfalso; apply L; auto.
      - apply Z.ltb_ge in Q. apply wp_ret. auto. }
    destruct (_ <? _); [eapply wp_mono; [|apply panic_g]|apply wp_ret, B, changes_refl]. intros [] s1. apply B. }
  pose proof (JX_check E WE c0 HE HL n cc (fun _ s' => JX s') s (proj1 H) (fun _ _ h => h)) as K.
  unfold wp in *. destruct (check_cycles E cc s) as [[b s']| |]; auto. split; auto. destruct b; auto.
  destruct A as [A1 A2]. assert (C : changes_only (s_ctx s) (s_ctx s') glue) by (eapply changes_mono; [|exact A2]; intros; now apply glue_we).
  repeat split; auto; eapply JS_glue; eauto.
Qed.

Definition faulted (r col : nat) (e : err) (s s' : st) : Prop :=
  multi (code r col) = false /\
  exists s1 s2, changes_only (s_ctx s) (s_ctx s1) glue /\ executed E n r col s1 e s2 /\ e <> E_OK
    /\ s_tr s' = s_tr s2 /\ changes_only (s_ctx s2) (s_ctx s') (fun l => l = LErr \/ l = LState)
    /\ peek (s_ctx s') LErr = Some (VErr e) /\ peek (s_ctx s') LLast = Some (VLast (ins_code (code r col)) n col r).
Definition cell1 (r col : nat) : list (nat * nat * nat) := if multi (code r col) then [] else [(n, r, col)].
Lemma is_ok_spec e : is_ok e = true <-> e = E_OK. Proof. destruct e; simpl; split; congruence. Qed.
Lemma last_keep s1 s2 i r col : J WE c0 s1 -> changes_only (s_ctx s1) (s_ctx s2) (wset WE (s_ctx s1) i n r col) ->
  peek (s_ctx s2) LLast = peek (s_ctx s1) LLast /\ peek (s_ctx s2) LState = peek (s_ctx s1) LState.
Proof.
  intros H C. assert (NN : forall l, names (s_ctx s1) i n r col l -> l <> LLast /\ l <> LState).
  { intros l [(j & v & _ & _ & T)|[(_ & v & _ & _ & T)|[(_ & v & _ & _ & T)|(_ & n' & r' & c' & a' & b' & A & ->)]]];
      [apply target_place in T; destruct l; try contradiction; split; discriminate| | |split; discriminate];
      simpl in T; repeat destruct T as [<-|T]; try contradiction; split; discriminate. }
  split; apply C; intros [[K|[[K B]|[(k & _ & K)|K]]]|K]; try discriminate;
    try (apply NN in K; destruct K; congruence); try (now apply (J_banks s1 H)).
  - apply (HW LLast); simpl; auto.
  - apply (HW LState); simpl; auto.
Qed.
Lemma exec_cell_out col r s : (r < rows)%nat -> (col < cols)%nat -> JS s ->
  wp any (exec_cell E n col r) (fun b s' => JX s' /\
    if b : bool then JS s' /\ executes (cell1 r col) s s' else exists e, faulted r col e s s') s.
Proof.
  intros R C H.
  assert (A : wp any (exec_cell E n col r) (fun b s' =>
    if b : bool then peek (s_ctx s') LState = peek (s_ctx s) LState /\ executes (cell1 r col) s s' else exists e, faulted r col e s s') s).
  { destruct (mcell_eq WE c0 n rows cols HL HN HC s r col (proj1 H) R C) as (x & Mx & Cx & Kx & X).
    unfold exec_cell. apply wp_bind. unfold wp at 1. rewrite Mx. cbn [wpr fst snd]. apply wp_bind, wp_modc.
    match goal with |- wp _ _ _ ?st1 => set (s1 := st1) end.
    assert (C1 : changes_only (s_ctx s) (s_ctx s1) glue).
    { intros l L. destruct l; try reflexivity; exfalso; apply L; right; left; simpl; auto. }
    assert (H1 : JX s1).
    { apply (JX_changes WE c0 n s _ (fun l => l = LErr \/ l = LLast)); auto; [apply H| | |].
      - intros l L. destruct l; simpl; auto; exfalso; apply L; auto.
      - intros l [-> | ->]; left; left; simpl; auto.
      - intros [L|L]; discriminate. }
    rewrite is_multi_eq, Cx. unfold cell1. destruct (multi (code r col)) eqn:MU.
    { apply wp_ret. split; [reflexivity|]. now constructor. }
    destruct Kx as [Kx|Kx]; [|rewrite Cx in Kx; rewrite Kx in MU; discriminate]. rewrite Cx in Kx.
    destruct (ladder_function E (code r col)) as [f|] eqn:Hf.
    2:{ exfalso. destruct (code r col); simpl in Kx; try contradiction; discriminate. }
    apply wp_bind.
    pose proof (J_meta WE c0 HL s1 (LNet n) (proj1 H1) I) as N1. destruct HN as [Hq N0]. rewrite N0 in N1.
    assert (FR : wp any (f col r) (fun e s2 => changes_only (s_ctx s1) (s_ctx s2) (wset WE (s_ctx s1) (code r col) n r col)) s1).
    { apply (instr_frame E); auto.
      - destruct H1 as [_ X1]. simpl. simpl in X1. congruence.
      - intros a b Z. congruence.
      - intros k K. apply HS. rewrite <- K. symmetry. apply (J_meta WE c0 HL); auto. apply H1. }
    unfold wp in FR. unfold wp at 1. destruct (f col r s1) as [[e s2]| |] eqn:RUN; auto. cbn [wpr fst snd] in FR |- *.
    assert (EX : executed E n r col s1 e s2).
    { split; [exact (f_equal (fun o => Some (VExec o)) (proj2 H1))|]. exists (c_bar x), (code r col), (c_dq x). split.
      - change (option_map (fun y => VCell (c_bar y) (c_code y) (c_dq y)) (cell_of (s_ctx s) n r col) = Some (VCell (c_bar x) (code r col) (c_dq x))).
        rewrite X. simpl. now rewrite Cx.
      - unfold outcome. rewrite Hf. simpl. now rewrite RUN. }
    destruct (last_keep s1 s2 _ r col (proj1 H1) FR) as [KL KS].
    assert (L1 : peek (s_ctx s1) LLast = Some (VLast (ins_code (code r col)) n col r)).
    { unfold s1, inc. simpl. rewrite Cx. do 2 f_equal. unfold u8. apply Z.mod_small. destruct (code r col); simpl in Kx; try contradiction; simpl; lia. }
    apply wp_bind, wp_modc. match goal with |- wp _ _ _ ?st3 => set (s3 := st3) end.
    assert (C3 : changes_only (s_ctx s2) (s_ctx s3) (fun l => l = LErr)).
    { intros l L. destruct l; try reflexivity; congruence. }
    assert (G3 : changes_only (s_ctx s2) (s_ctx s3) glue).
    { eapply changes_mono; [|exact C3]. intros l ->. right; left; simpl; auto. }
    destruct (is_ok e) eqn:OKE.
    - apply is_ok_spec in OKE as ->. apply wp_bind, wp_getc, wp_bind.
      assert (F : forall s4, changes_only (s_ctx s3) (s_ctx s4) WE ->
        peek (s_ctx s4) LState = peek (s_ctx s) LState /\ executes [(n, r, col)] s s4).
      { intros s4 C4. split.
        - rewrite C4 by (apply HW; simpl; auto). rewrite C3 by discriminate. rewrite KS. reflexivity.
        - econstructor; [exact C1|exact EX|]. constructor. eapply changes_trans; [exact G3|].
          eapply changes_mono; [|exact C4]. intros; now apply glue_we. }
      destruct (h_instr _); [|apply wp_ret, wp_ret, F, changes_refl].
      eapply wp_mono; [|apply emit_g; exact I]. intros [] s4 C4. apply wp_ret, F, C4.
    - apply wp_ret. exists e. split; [exact MU|]. exists s1, s2. split; [exact C1|]. split; [exact EX|].
      split; [intros ->; discriminate|]. split; [reflexivity|]. split; [eapply changes_mono; [|exact C3]; auto|]. split; [reflexivity|].
      change (peek (s_ctx s3) LLast) with (peek (s_ctx s2) LLast). rewrite KL. exact L1. }
  pose proof (JX_exec_cell E WE c0 HE HL HS n rows cols HN col r (fun _ s' => JX s') s R C (proj1 H) (fun _ _ h => h)) as K.
  unfold wp in *. destruct (exec_cell E n col r s) as [[b s']| |]; auto. split; auto. destruct b; auto.
  destruct A as [A1 A2]. split; auto. split; auto. rewrite A1. apply H.
Qed.

Definition cells_of (col : nat) (rs : list nat) : list (nat * nat * nat) := flat_map (fun r => cell1 r col) rs.
Lemma cells_step col rs : step_cells n code (Run col rs) = cells_of col rs.
Proof. unfold cells_of. induction rs as [|r t IH]; simpl; auto. unfold cell1. simpl in IH. destruct (multi (code r col)); simpl; [exact IH|f_equal; exact IH]. Qed.
(** A fault somewhere in the cells [l]. *)
Definition fault_in (l : list (nat * nat * nat)) (s s' : st) : Prop :=
  exists before after r col e s1, l = before ++ (n, r, col) :: after /\ executes before s s1 /\ faulted r col e s1 s'.
Lemma exec_rows_out col rs s : (forall r, In r rs -> (r < rows)%nat) -> (col < cols)%nat -> JS s ->
  wp any (exec_rows E n col rs) (fun b s' => JX s' /\
    if b : bool then JS s' /\ executes (cells_of col rs) s s' else fault_in (cells_of col rs) s s') s.
Proof.
  intros HR C. revert s. induction rs as [|r t IH]; intros s H; simpl.
  - apply wp_ret. split; [apply H|]. split; auto. apply executes_refl.
  - apply wp_bind. eapply wp_mono; [|apply exec_cell_out; auto; apply HR; simpl; auto].
    intros b s1 [H1 K]. destruct b.
    + destruct K as [K1 K2]. eapply wp_mono; [|apply IH; auto; intros; apply HR; simpl; auto].
      intros b s2 [H2 L]. split; auto. destruct b.
      * destruct L as [L1 L2]. split; auto. eapply executes_app; eauto.
      * destruct L as (b4 & af & r' & col' & e & sx & EQ & EX & FA). exists (cell1 r col ++ b4), af, r', col', e, sx.
        split; [change (cell1 r col ++ cells_of col t = (cell1 r col ++ b4) ++ (n, r', col') :: af); rewrite EQ; apply app_assoc|].
        split; [eapply executes_app; eauto|exact FA].
    + apply wp_ret. split; auto. destruct K as [e K]. 
      pose proof (proj1 K) as MU. unfold cell1 at 1. rewrite MU. simpl. exists [], (cells_of col t), r, col, e, s.
      split; [reflexivity|]. split; [apply executes_refl|exact K].
Qed.

Definition step_ok (x : step) : Prop :=
  match x with Run col rs => (col < cols)%nat /\ (forall r, In r rs -> (r < rows)%nat) | _ => True end.
Definition steps_cells (l : list step) : list (nat * nat * nat) := flat_map (step_cells n code) l.
(** How the execution of some steps ends. *)
Definition run_out (l : list step) (cc : Z) (b : bool) (s s' : st) : Prop :=
  if b then JS s' /\ executes (steps_cells l) s s' /\ cc + ticks l <= m
  else (fault_in (steps_cells l) s s' /\ peek (s_ctx s') LState = Some (VState S_INV))
       \/ (m < cc + ticks l /\ exists before after s1, steps_cells l = before ++ after /\ executes before s s1 /\ stopped s1 s').
Lemma fault_app a l s s1 s' : executes a s s1 -> fault_in l s1 s' -> fault_in (a ++ l) s s'.
Proof.
  intros H (b4 & af & r & col & e & sx & EQ & EX & FA). exists (a ++ b4), af, r, col, e, sx.
  split; [rewrite EQ; apply app_assoc|]. split; auto. eapply executes_app; eauto.
Qed.
Lemma run_cons x l cc cc' b s s1 s' : executes (step_cells n code x) s s1 -> cc' + ticks l = cc + ticks (x :: l) ->
  run_out l cc' b s1 s' -> run_out (x :: l) cc b s s'.
Proof.
  intros H T K. unfold run_out in *. destruct b.
  - destruct K as (K1 & K2 & K3). split; auto. split; [|lia]. eapply executes_app; eauto.
  - destruct K as [[K1 K2]|(K1 & b4 & af & sx & EQ & EX & ST)].
    + left. split; auto. eapply fault_app; eauto.
    + right. split; [lia|]. exists (step_cells n code x ++ b4), af, sx.
      split; [unfold steps_cells; simpl; fold (steps_cells l); rewrite EQ; apply app_assoc|]. split; auto. eapply executes_app; eauto.
Qed.
Lemma or_same col rs a s : wp any (or_states col rs a) (fun _ s' => s' = s) s.
Proof. revert a. induction rs as [|r t IH]; intros a; simpl; [now apply wp_ret|]. apply wp_bind, f_mstate. intros b. apply IH. Qed.
Lemma mput_g col k b s : x_exec (s_ctx s) = Some n ->
  wp any (mput col k b) (fun _ s' => x_exec (s_ctx s') = Some n /\ changes_only (s_ctx s) (s_ctx s') (fun l => exists r c, l = LPow n r c)) s.
Proof.
  intros X. unfold mput. apply wp_updc. unfold put_state. rewrite X.
  destruct (cell_of (s_ctx s) n k col) as [x|] eqn:C.
  - rewrite (upd_cell_ok _ _ _ _ _ _ C). pose proof (put_pow_exec n k col b (s_ctx s)) as Y.
    pose proof (put_pow_frame n k col b (s_ctx s)) as Z. unfold put_pow in Y, Z. rewrite C in Y, Z. simpl.
    split; [now rewrite <- X|]. intros l L. apply Z. intros ->. apply L. eauto.
  - unfold upd_cell. apply wpr_bind, any_net. intros nt N. apply wpr_bind, any_cell_in. intros x Z.
    rewrite (cell_of_net _ _ _ _ _ N) in C. congruence.
Qed.
Lemma put_g col rs b s : x_exec (s_ctx s) = Some n -> wp any (put_states col rs b) (fun _ s' => changes_only (s_ctx s) (s_ctx s') (fun l => exists r c, l = LPow n r c)) s.
Proof.
  revert s. induction rs as [|r t IH]; intros s X; simpl; [apply wp_ret, changes_refl|]. apply wp_bind.
  eapply wp_mono; [|apply mput_g; auto]. intros [] s1 [X1 C1]. eapply wp_mono; [|apply IH; auto]. intros [] s2 C2.
  eapply changes_trans; eauto.
Qed.
Lemma run_out_ok l cc s : (forall x, In x l -> step_ok x) -> cc <= m -> JS s ->
  wp any (run_steps E n l cc) (fun b s' => JX s' /\ run_out l cc b s s') s.
Proof.
  revert cc s. induction l as [|x l IH]; intros cc s HX Hcc H.
  - simpl. apply wp_ret. split; [apply H|]. split; auto. split; [apply executes_refl|]. unfold ticks. simpl. lia.
  - assert (HX' : forall x, In x l -> step_ok x) by (intros; apply HX; simpl; auto).
    pose proof (HX x (or_introl eq_refl)) as Hx. destruct x as [|col rs|]; cbn [run_steps].
    + apply wp_bind. eapply wp_mono; [|apply check_out; auto]. intros b s1 [H1 K]. destruct b.
      * destruct K as (K1 & K2 & K3). eapply wp_mono; [|apply IH; auto]. intros b s2 [H2 R]. split; auto.
        eapply run_cons; [|rewrite ticks_tick|exact R]; [now constructor|lia].
      * apply wp_ret. split; auto. destruct K as [K1 K2]. right. rewrite ticks_tick. pose proof (ticks_nonneg l).
        split; [lia|]. exists [], (steps_cells (Tick :: l)), s. split; auto. split; auto. apply executes_refl.
    + destruct Hx as [Hc Hr]. apply wp_bind. eapply wp_mono; [|apply exec_rows_out; auto]. intros b s1 [H1 K]. destruct b.
      * destruct K as [K1 K2]. apply wp_bind. eapply wp_mono; [|apply or_same]. intros b s1' ->. apply wp_bind.
        eapply wp_mono; [|apply (JG _ (fun _ s' => changes_only (s_ctx s1) (s_ctx s') (fun l => exists r c, l = LPow n r c)) _ K1)].
        -- intros [] s2 [K3 C2]. eapply wp_mono; [|apply IH; auto]. intros b2 s3 [H3 R]. split; auto.
           eapply run_cons; [|rewrite ticks_run|exact R]; [|lia]. rewrite cells_step. eapply executes_post; [exact K2|].
           eapply changes_mono; [|exact C2]. intros y (r & c & ->). left; eauto.
        -- intros Q KQ. eapply JX_put; eauto.
        -- apply put_g. apply K1.
        -- intros [] s2 C2. eapply changes_mono; [|exact C2]. intros y (r & c & ->). left; eauto.
      * apply wp_bind, wp_modc, wp_ret. split.
        -- apply (JX_changes WE c0 n s1 _ (eq LState)); auto; try discriminate.
           ++ intros y Y. destruct y; simpl; auto. congruence.
           ++ intros y <-. left; left; simpl; auto.
        -- left. split; [|reflexivity]. unfold steps_cells. simpl flat_map. fold (steps_cells l). 
           destruct K as (b4 & af & r & c & e & sx & EQ & EX & (MU & sa & sb & A1 & A2 & A3 & A4 & A5 & A6 & A7)).
           pose proof (cells_step col rs) as CS. simpl in CS. rewrite CS, EQ. exists b4, (af ++ steps_cells l), r, c, e, sx.
           split; [now rewrite <- app_assoc|]. split; auto. split; auto. exists sa, sb. split; auto. split; auto. split; auto. split; auto.
           split; [|split; auto]. intros y Y. transitivity (peek (s_ctx s1) y); [|apply A5; tauto].
           destruct y; try reflexivity. exfalso; apply Y; auto.
    + apply wp_bind, wp_getc, wp_bind.
      eapply wp_mono; [|apply (JG _ (fun _ s' => changes_only (s_ctx s) (s_ctx s') WE) _ H)].
      * intros [] s1 [H1 C1]. eapply wp_mono; [|apply IH; auto]. intros b s2 [H2 R]. split; auto.
        eapply run_cons; [|rewrite ticks_close|exact R]; [|lia]. constructor. eapply changes_mono; [|exact C1]. intros; now apply glue_we.
      * intros Q KQ. destruct (h_scan_end _); [eapply JX_emit; simpl; eauto; apply H|apply wp_ret, KQ, H].
      * destruct (h_scan_end _); [apply emit_g; exact I|apply wp_ret, changes_refl].
      * intros [] s1 C1. eapply changes_mono; [|exact C1]. intros; now apply glue_we.
Qed.
Lemma joined_le k g col : (joined bar k g col <= k)%nat.
Proof. revert g. induction k as [|k IH]; intros g; simpl; [lia|]. destruct (bar (S g) col); [|lia]. specialize (IH (S g)). lia. Qed.
Lemma plan_ok f g x : In x (net_steps rows cols code bar f g) -> step_ok x.
Proof.
  revert g. induction f as [|f IH]; intros g H; cbn [net_steps] in H; [contradiction|].
  destruct (g <? rows)%nat eqn:G; [|contradiction]. apply Nat.ltb_lt in G. apply in_app_iff in H as [H|H]; [|eauto].
  simpl in H. destruct H as [<-|H]; [exact I|]. destruct (multi (code g 0)); [contradiction|]. apply in_app_iff in H as [H|[<-|[]]]; [|exact I].
  apply in_flat_map in H as (col & C & H). apply in_seq in C. unfold column_steps in H. apply in_app_iff in H as [H|H].
  - apply repeat_spec in H as ->. exact I.
  - destruct (_ || _); [|contradiction]. destruct H as [<-|[]]. split; [lia|]. intros r R. unfold group in R. apply in_seq in R.
    pose proof (joined_le (rows - S g) g col). lia.
Qed.
End N.

(** A whole network. *)
Definition net_out (n : nat) (b : bool) (s s' : st) : Prop :=
  if b then J WE c0 s' /\ peek (s_ctx s') LState = peek c0 LState /\ executes (net_cells c0 n) s s' /\ cost c0 n <= m
  else (fault_in n (net_cells c0 n) s s' /\ peek (s_ctx s') LState = Some (VState S_INV))
       \/ (m < cost c0 n /\ exists before after s1, net_cells c0 n = before ++ after /\ executes before s s1 /\ stopped s1 s').
Lemma network_out n s : 0 <= m -> wf_program c0 -> (n < q_nets (x_q c0))%nat -> J WE c0 s -> peek (s_ctx s) LState = peek c0 LState ->
  wp any (scan_network E n) (fun b s' => net_out n b s s') s.
Proof.
  intros M0 [_ WF] Hn H S. destruct (WF n Hn) as (LR & en & rows & cols & LN & WC).
  unfold scan_network. apply wp_bind, wp_getc, wp_bind, wp_lift, any_net. intros nt N.
  pose proof (J_meta WE c0 HL s (LNet n) H I) as MN. rewrite LN in MN. simpl in MN. rewrite N in MN. simpl in MN. injection MN as M1 M2 M3.
  replace (is_null (n_cells nt)) with false.
  2:{ assert (K : peek (s_ctx s) (LRows n) = peek c0 (LRows n)).
      { apply (J_layout WE c0 HL); auto; try exact I; try discriminate. }
      simpl in K. rewrite N in K. simpl in K. destruct (n_cells nt) eqn:NC; [reflexivity|]. exfalso. apply LR. exact (eq_sym K). }
  rewrite M1. destruct en.
  - destruct (WC eq_refl) as [C0 WCC]. assert (SC : scanned c0 n rows cols) by (split; auto).
    apply wp_bind, wp_modc. match goal with |- wp _ _ _ ?st1 => set (s1 := st1) end.
    assert (C1 : changes_only (s_ctx s) (s_ctx s1) (eq LExec)) by (intros l L; destruct l; simpl; auto; congruence).
    assert (H1 : JX WE c0 n s1).
    { split; [|reflexivity]. apply (J_changes WE c0 s _ (eq LExec)); auto. intros l <-. left; left; simpl; auto. }
    apply wp_bind, wp_updc, any_clear. intros c2 [C2 _]. set (s2 := inc s1 c2).
    assert (H2 : JX WE c0 n s2).
    { apply (JX_changes WE c0 n s1 _ (fun l => exists r col, l = LPow n r col)); auto.
      - intros l (r & col & ->). eapply WS_pow; eauto.
      - intros (r & col & ?). discriminate. }
    assert (G2 : changes_only (s_ctx s) (s_ctx s2) glue).
    { intros l L. transitivity (peek (s_ctx s1) l).
      - apply C2. intros (r & col & ->). apply L. left; eauto.
      - apply C1. intros <-. apply L. right; left; simpl; auto. }
    assert (S2 : JS n s2).
    { split; auto. rewrite <- S. apply G2, glue_state. }
    rewrite M2. unfold wp. rewrite (rows_eq E WE c0 n rows cols HE HL HS SC WCC rows 0 0 s2) by (auto; lia).
    pose proof (run_out_ok n rows cols SC WCC (net_steps rows cols (code_at c0 n) (bar_at c0 n) rows 0) 0 s2 (fun x => plan_ok n rows cols rows 0 x) M0 S2) as K.
    assert (PL : plan c0 n = net_steps rows cols (code_at c0 n) (bar_at c0 n) rows 0) by (unfold plan; now rewrite LN).
    unfold wp in K. destruct (run_steps E n _ 0 s2) as [[b s']| |]; auto. destruct K as [K1 K2]. unfold wpr. simpl fst. simpl snd.
    unfold run_out, net_out, net_cells, cost in *. rewrite PL. fold (steps_cells n (net_steps rows cols (code_at c0 n) (bar_at c0 n) rows 0)).
    change (Z.of_nat (length (filter _ (net_steps rows cols (code_at c0 n) (bar_at c0 n) rows 0)))) with (ticks (net_steps rows cols (code_at c0 n) (bar_at c0 n) rows 0)).
    destruct b.
    + destruct K2 as (K2 & K3 & K4). split; [apply K1|]. split; [apply K2|]. split; [|lia]. eapply executes_pre; eauto.
    + destruct K2 as [[K2 K3]|(K2 & b4 & af & sx & EQ & EX & ST)].
      * left. split; auto. destruct K2 as (b4 & af & r & col & e & sx & EQ & EX & FA). exists b4, af, r, col, e, sx. split; auto. split; auto. eapply executes_pre; eauto.
      * right. split; [lia|]. exists b4, af, sx. split; auto. split; auto. eapply executes_pre; eauto.
  - apply wp_ret. simpl. unfold net_cells, cost, plan. rewrite LN. simpl. repeat split; auto. apply executes_refl.
Qed.
(** Networks from [n] on. *)
Definition rest_cells (n f : nat) : list (nat * nat * nat) := flat_map (net_cells c0) (seq n f).
Definition nets_out (n f : nat) (s s' : st) : Prop :=
  (executes (rest_cells n f) s s' /\ peek (s_ctx s') LState = peek c0 LState /\ (forall k, (n <= k < n + f)%nat -> cost c0 k <= m))
  \/ (exists k, (n <= k < n + f)%nat /\ fault_in k (rest_cells n f) s s' /\ peek (s_ctx s') LState = Some (VState S_INV))
  \/ (exists k, (n <= k < n + f)%nat /\ m < cost c0 k /\ exists before after s1, rest_cells n f = before ++ after /\ executes before s s1 /\ stopped s1 s').
Lemma networks_out f n s : 0 <= m -> wf_program c0 -> (n + f = q_nets (x_q c0))%nat -> J WE c0 s -> peek (s_ctx s) LState = peek c0 LState ->
  wp any (scan_networks E f n) (fun _ s' => nets_out n f s s') s.
Proof.
  intros M0 WF. revert n s. induction f as [|f IH]; intros n s Hf H HST; simpl; apply wp_bind, wp_getc;
    rewrite (peek_qty c0 (s_ctx s)) by (apply (J_meta WE c0 HL); auto; exact I).
  - replace (n <? q_nets (x_q c0))%nat with false by (symmetry; apply Nat.ltb_ge; lia). apply wp_ret. left.
    repeat split; auto; [apply executes_refl|intros; lia].
  - replace (n <? q_nets (x_q c0))%nat with true by (symmetry; apply Nat.ltb_lt; lia).
    apply wp_bind. eapply wp_mono; [|apply network_out; auto; lia]. intros b s1 K. unfold nets_out, rest_cells. simpl. destruct b.
    + destruct K as (K1 & K2 & K3 & K4). eapply wp_mono; [|apply IH; auto; lia]. intros [] s2 L.
      destruct L as [(L1 & L2 & L3)|[(k & L1 & L2 & L3)|(k & L1 & L2 & b4 & af & sx & EQ & EX & ST)]].
      * left. split; [eapply executes_app; eauto|]. split; auto. intros k Hk. destruct (Nat.eq_dec k n) as [->|]; auto. apply L3. lia.
      * right; left. exists k. split; [lia|]. split; auto.
        destruct L2 as (b4 & af & r & col & e & sx & EQ & EX & FA). exists (net_cells c0 n ++ b4), af, r, col, e, sx.
        split; [fold (rest_cells (S n) f); rewrite EQ; apply app_assoc|]. split; auto. eapply executes_app; eauto.
      * right; right. exists k. split; [lia|]. split; auto. exists (net_cells c0 n ++ b4), af, sx.
        split; [fold (rest_cells (S n) f); rewrite EQ; apply app_assoc|]. split; auto. eapply executes_app; eauto.
    + apply wp_ret. destruct K as [[K1 K2]|(K1 & b4 & af & sx & EQ & EX & ST)].
      * right; left. exists n. split; [lia|]. split; auto.
        destruct K1 as (b4 & af & r & col & e & sx & EQ & EX & FA). exists b4, (af ++ rest_cells (S n) f), r, col, e, sx.
        split; [rewrite EQ; now rewrite <- app_assoc|auto].
      * right; right. exists n. split; [lia|]. split; auto. exists b4, (af ++ rest_cells (S n) f), sx.
        split; [rewrite EQ; now rewrite <- app_assoc|auto].
Qed.

(** Cron first. *)
Definition cron_glue (l : loc) : Prop := cron_flag c0 l.
(** What is left to say about the phase once the changes are known. *)
Definition cron_done (s s' : st) : Prop :=
  match x_cron (s_ctx s) with
  | None => s_tr s' = s_tr s
  | Some k => s_tr s' = EvTime :: s_tr s
      /\ let t := wall E (length (s_tr s)) in
         calendar t -> exists js, cr_jobs k = Some js
           /\ forall z, flag_of (s_ctx s') z = after_jobs t (firstn (cr_used k) js) (flag_of (s_ctx s)) z
  end.
Lemma cron_out s : J WE c0 s -> changes_only c0 (s_ctx s) (eq LExec) -> cron_ready c0 ->
  wp any (scan_cron E) (fun b s' => b = true /\ J WE c0 s' /\ changes_only (s_ctx s) (s_ctx s') cron_glue /\ cron_done s s') s.
Proof.
  intros H C0 CR. unfold scan_cron. apply wp_bind, wp_getc.
  assert (XC : Some (VCron (x_cron (s_ctx s))) = peek c0 LCron) by (rewrite <- (C0 LCron ltac:(discriminate)); reflexivity).
  unfold cron_done. destruct (x_cron (s_ctx s)) as [k|] eqn:X; [|apply wp_ret; repeat split; auto; apply changes_refl].
  destruct CR as [CR|(k' & js & CR & JS & CU)]; [rewrite CR in XC; discriminate|]. pose proof CR as CR'. rewrite CR in XC. injection XC as <-.
  assert (KF : forall i j, (0 <= i < 0 + cr_used k)%nat -> elem (cr_jobs k) i = Some j -> j_en j = true -> 0 <= j_flag j ->
             cron_glue (LReg B_M (ix (j_flag j)))).
  { intros i j I1 I2 I3 I4. unfold elem, obind in I2. rewrite JS in I2.
    exists k, js, j. repeat split; auto. eapply firstn_in; eauto. lia. }
  apply wp_bind, wp_updc. rewrite JS in *.
  eapply wpr_mono; [|apply wpr_both; [apply (any_cron_clear _ _ _ _ cron_glue (fun c1 => changes_only (s_ctx s) c1 cron_glue)); auto|intros c1 EC; exact (clear_ok _ _ _ _ _ EC)]].
  intros c1 (C1 & V1). apply wp_bind. unfold cron_eval.
  apply wp_bind, wp_getc. assert (X1 : x_cron (s_ctx (inc s c1)) = Some k).
  { assert (K : peek c1 LCron = peek (s_ctx s) LCron) by (apply C1; intros (? & ? & ? & _ & _ & _ & _ & _ & K); discriminate).
    simpl in K. simpl. congruence. }
  unfold cron_of. rewrite X1. apply wp_bind, wp_lift. simpl. rewrite JS. simpl. replace (cr_used k =? 0)%nat with false by (symmetry; now apply Nat.eqb_neq). simpl.
  apply wp_bind. unfold wp at 1, localtime. simpl. apply wp_bind, wp_updc. set (t := wall E (length (s_tr s))).
  eapply wpr_mono; [|apply (wpr_both _ _ (fun c2 => changes_only c1 c2 cron_glue) (fun c2 => calendar t -> forall y, flag_of c2 y = fold_left (fired t) (firstn (cr_used k) (skipn 0 js)) (flag_of c1) y)); [apply (any_cron_jobs _ _ _ _ _ cron_glue (fun c2 => changes_only c1 c2 cron_glue)); auto|
    intros c2 EV CA; exact (eval_ok t js 0 _ c1 c2 CA EV)]].
  intros c2 (C2 & V2). apply wp_ret. simpl. apply wp_ret. split; auto.
  assert (C3 : changes_only (s_ctx s) c2 cron_glue) by (eapply changes_trans; [exact C1|exact C2]).
  split; [|split; [exact C3|split; [reflexivity|]]].
  - apply (J_step WE c0 s); auto. eapply changes_mono; [|exact C3]. intros l L. left. right; right; right. exact L.
  - intros CA. exists js. split; auto. intros z. unfold after_jobs. etransitivity; [exact (V2 CA z)|]. simpl skipn. apply fold_ext; [|intros y; apply (V1 y)].
    intros a g h EQ y. unfold fired. destruct (_ && _); auto.
Qed.
Lemma scan_out s : s_ctx s = c0 -> 0 <= m -> wf_program c0 -> cron_ready c0 ->
  wp any (ladder_scan E) (fun _ s' => exists s0, cron_step E s s0
     /\ nets_out 0 (q_nets (x_q c0)) s0 s') s.
Proof.
  intros Hs M0 WF CR. unfold ladder_scan. apply wp_bind, wp_modc.
  match goal with |- wp _ _ _ ?st1 => set (s1 := st1) end.
  assert (C1 : changes_only c0 (s_ctx s1) (eq LExec)).
  { intros l L. unfold s1. simpl. rewrite Hs. destruct l; simpl; auto. congruence. }
  assert (H1 : J WE c0 s1).
  { eapply changes_mono; [|exact C1]. intros l <-. left; left; simpl; auto. }
  apply wp_bind. eapply wp_mono; [|apply cron_out; auto]. intros b s2 (-> & H2 & C2 & D2).
  assert (C3 : changes_only (s_ctx s) (s_ctx s2) (fun l => l = LExec \/ cron_flag c0 l)).
  { rewrite Hs. eapply changes_trans; [eapply changes_mono; [|exact C1]; intros l <-; auto|eapply changes_mono; [|exact C2]; intros l K; right; exact K]. }
  apply wp_bind, wp_getc. replace (is_null (x_net (s_ctx s2))) with false.
  2:{ pose proof (J_meta WE c0 HL s2 LNets H2 I) as K. simpl in K. destruct WF as [WF _]. destruct (x_net (s_ctx s2)); [reflexivity|].
      exfalso. apply WF. exact (eq_sym K). }
  rewrite (peek_qty c0 (s_ctx s2)) by (apply (J_meta WE c0 HL); auto; exact I).
  eapply wp_mono; [|apply networks_out; auto].
  - intros [] s3 K. exists s2. split; auto. split; [|exact D2]. rewrite Hs in C3 |- *. exact C3.
  - rewrite <- Hs. apply C3. intros [K|(? & ? & ? & _ & _ & _ & _ & _ & K)]; discriminate.
Qed.
End P.

(** The three ways a scan ends. *)
Lemma scan_ends E W s s' m : scan_ready E W (s_ctx s) m -> scans E s s' ->
  exists s0, cron_step E s s0 /\
   ((scan_complete E W (s_ctx s) s0 s' /\ forall n, (n < q_nets (x_q (s_ctx s)))%nat -> cost (s_ctx s) n <= m)
    \/ (exists n r col e, scan_fault E W (s_ctx s) s0 s' n r col e)
    \/ (exists n, (n < q_nets (x_q (s_ctx s)))%nat /\ m < cost (s_ctx s) n /\ scan_overrun E W (s_ctx s) s0 s' n)).
Proof.
  intros [HE HL HW HS HB HM M0 WF CR] R.
  pose proof (scan_out E W (s_ctx s) m HE HL HW HS HB HM s eq_refl M0 WF CR) as K.
  apply (wp_ok _ _ _ _ _ _ K) in R. destruct R as (s0 & C0 & N). exists s0. split; auto.
  unfold program_cells, scan_complete, scan_fault, scan_overrun. fold (rest_cells (s_ctx s) 0 (q_nets (x_q (s_ctx s)))).
  destruct N as [(N1 & N2 & N3)|[(k & N1 & N2 & N3)|(k & N1 & N2 & b4 & af & sx & EQ & EX & ST)]].
  - left. split; [split; auto|]. intros n Hn. apply N3. lia.
  - right; left. destruct N2 as (b4 & af & r & col & e & sx & EQ & EX & (MU & sa & sb & A1 & A2 & A3 & A4 & A5 & A6 & A7)).
    exists k, r, col, e, b4, af, sa, sb. split; [exact EQ|]. split; [eapply executes_post; eauto|]. split; auto. split; auto.
  - right; right. exists k. split; [lia|]. split; auto. exists b4, af, sx. destruct ST as (S1 & S2 & S3). auto.
Qed.
