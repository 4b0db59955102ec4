(** cron jobs (C43, C44, C46). *)
From Verif Require Import DemoTask.
From Verif Require Export SpecCron P_Cycle.
(*IMPORT DemoTask *)

(** ** C43 *)

Lemma cron_of_peek c k : peek c LCron = Some (VCron (Some k)) -> x_cron c = Some k.
Proof. simpl. intros H. congruence. Qed.

(** C43: a scan asks for the local time once and then, before the first instruction, clears the flags of the auto-reset
    jobs in use and lets the jobs whose expression contains that time copy their enable register to their flag, in the
    order of the jobs; nothing else is changed. The instructions of the program are executed after that. *)
Lemma C43_scan_l : forall E W m s s' k js, scan_ready E W (s_ctx s) m -> scans E s s' ->
  peek (s_ctx s) LCron = Some (VCron (Some k)) -> cr_jobs k = Some js -> calendar (wall E (length (s_tr s))) ->
  exists s0, s_tr s0 = EvTime :: s_tr s
    /\ (forall z, flag_of (s_ctx s0) z = after_jobs (wall E (length (s_tr s))) (firstn (cr_used k) js) (flag_of (s_ctx s)) z)
    /\ changes_only (s_ctx s) (s_ctx s0) (fun l => l = LExec \/ exists j, In j (firstn (cr_used k) js) /\ j_en j = true /\ 0 <= j_flag j /\ l = LReg B_M (ix (j_flag j)))
    /\ (scan_complete E W (s_ctx s) s0 s' \/ (exists n r col e, scan_fault E W (s_ctx s) s0 s' n r col e) \/ (exists n, scan_overrun E W (s_ctx s) s0 s' n)).
Proof.
  intros E W m s s' k js RD R PK JS CA. destruct (scan_ends E W s s' m RD R) as (s0 & [CH CS] & K). exists s0.
  rewrite (cron_of_peek _ _ PK) in CS. destruct CS as [T V]. split; auto. destruct (V CA) as (js' & JS' & V'). rewrite JS in JS'. injection JS' as <-.
  split; auto. split.
  - eapply changes_mono; [|exact CH]. intros l [->|(k' & js' & j & A & B & C & D & F & ->)]; auto. rewrite PK in A. injection A as <-. rewrite JS in B. injection B as <-.
    right. exists j. auto.
  - destruct K as [[K _]|[K|(n & _ & _ & K)]]; eauto.
Qed.

(** C43: a flag that neither the program nor code outside the library sets still has, when the scan ends, the value the
    jobs gave it, however the scan ends. *)
Lemma C43_end_of_scan_l : forall E W m s s' k js z, scan_ready E W (s_ctx s) m -> scans E s s' ->
  peek (s_ctx s) LCron = Some (VCron (Some k)) -> cr_jobs k = Some js -> calendar (wall E (length (s_tr s))) ->
  ~ W (LReg B_M (ix z)) -> (forall n r col i, in_program (s_ctx s) n r col i -> ~ names (s_ctx s) i n r col (LReg B_M (ix z))) ->
  flag_of (s_ctx s') z = after_jobs (wall E (length (s_tr s))) (firstn (cr_used k) js) (flag_of (s_ctx s)) z.
Proof.
  intros E W m s s' k js z RD R PK JS CA NW NN. destruct (scan_ends E W s s' m RD R) as (s0 & CS & K).
  pose proof (cron_J2 E W (s_ctx s) s s0 eq_refl CS) as H0. destruct CS as [_ CS]. rewrite (cron_of_peek _ _ PK) in CS. destruct CS as [_ V].
  destruct (V CA) as (js' & JS' & V'). rewrite JS in JS'. injection JS' as <-. rewrite <- V'. set (p := LReg B_M (ix z)) in *.
  enough (PE : peek (s_ctx s') p = peek (s_ctx s0) p) by (unfold flag_of; fold p; now rewrite PE).
  destruct RD as [HE HL HW HS _ _ _ _ _].
  assert (NP : forall n r col, In (n, r, col) (program_cells (s_ctx s)) -> ~ names (s_ctx s) (code_at (s_ctx s) n r col) n r col p).
  { intros n r col IN. apply program_cells_in in IN as (rows & cols & SC & R0 & CO & MU). unfold code_at in *.
    assert (NOP : ~ names (s_ctx s) I_NOP n r col p) by (intros [(j & v & D & _)|[(T & _)|[(T & _)|(T & _)]]]; [discriminate|elim T|elim T|discriminate]).
    destruct (peek (s_ctx s) (LCell n r col)) as [[]|] eqn:P; auto. apply NN. eexists rows, cols, _, _. eauto. }
  assert (G : ~ glue W p) by (intros [(? & ? & ? & K0)|[K0|K0]]; [discriminate| |auto]; simpl in K0; intuition discriminate).
  assert (PS : p <> LState) by discriminate.
  destruct K as [[[EX _] _]|[(n & r & col & e & b4 & af & s1 & s2 & EQ & EX & X & _ & _ & CH & _)|(n & _ & _ & b4 & af & s1 & EQ & EX & CH & _)]].
  - destruct (J2_executes E W (s_ctx s) HE HL HS (program_cells (s_ctx s)) s0 s') as [_ H1]; auto.
  - destruct (J2_executes E W (s_ctx s) HE HL HS b4 s0 s1) as [H1 H2]; auto. { intros x IN. rewrite EQ. apply in_app_iff; auto. }
    assert (IN : In (n, r, col) (program_cells (s_ctx s))) by (rewrite EQ; apply in_app_iff; right; left; auto).
    destruct (J2_executed E W (s_ctx s) HE HL HS n r col s1 e s2) as (i & b & dq & C0 & C1 & O & CH2 & H3); auto.
    rewrite CH by (intros [K0|K0]; discriminate). rewrite CH2.
    + apply H2; auto. intros n' r' col' IN'. apply NP. rewrite EQ. apply in_app_iff; auto.
    + specialize (NP _ _ _ IN). rewrite (code_names _ _ _ _ _ _ _ C0) in NP.
      intros [[K0|[[K0 _]|[(k0 & _ & K0)|Y]]]|Y]; try discriminate; auto.
  - destruct (J2_executes E W (s_ctx s) HE HL HS b4 s0 s1) as [H1 H2]; auto. { intros x IN. rewrite EQ. apply in_app_iff; auto. }
    rewrite CH by (intros [K0|[K0|K0]]; [discriminate|discriminate|auto]).
    apply H2; auto. intros n' r' col' IN'. apply NP. rewrite EQ. apply in_app_iff; auto.
Qed.

Lemma fired_ext t j f g : (forall z, f z = g z) -> forall z, fired t f j z = fired t g j z.
Proof. intros H z. unfold fired. destruct (_ && _); auto. Qed.
Lemma fold_same {A B C} (f : (B -> C) -> A -> B -> C) l : (forall a g h, (forall y, g y = h y) -> forall y, f g a y = f h a y) ->
  forall g h, (forall y, g y = h y) -> forall y, fold_left f l g y = fold_left f l h y.
Proof. intros K. induction l as [|a l IH]; intros g h E y; simpl; auto. Qed.
(** Jobs whose flag is another register leave a register alone. *)
Lemma fired_other t l f z : (forall j, In j l -> j_en j = true -> j_flag j <> z) -> fold_left (fired t) l f z = f z.
Proof.
  revert f. induction l as [|j l IH]; intros f H; simpl; auto. rewrite IH by (intros; apply H; simpl; auto). unfold fired.
  destruct (j_en j) eqn:EN; auto. destruct (Z.eqb_spec (j_flag j) z) as [X|X]; [|now rewrite andb_false_r]. elim (H j); simpl; auto.
Qed.
Lemma cleared_other l f z : (forall j, In j l -> j_en j = true -> j_flag j <> z) -> flags_cleared l f z = f z.
Proof.
  intros H. unfold flags_cleared. destruct (existsb _ l) eqn:X; auto. apply existsb_exists in X as (j & IN & X).
  apply andb_true_iff in X as [X F]. apply andb_true_iff in X as [X _]. apply Z.eqb_eq in F. elim (H j); auto.
Qed.

(** C43: an M register that is the flag of no job in use is left alone by the jobs. *)
Lemma C43_others_l : forall t js f z, (forall j, In j js -> j_en j = true -> j_flag j <> z) -> after_jobs t js f z = f z.
Proof. intros t js f z H. unfold after_jobs. rewrite fired_other by auto. now apply cleared_other. Qed.

(** C43: one job among others. If no other job has its flag, or has its enable register as flag, then the flag ends with
    the value of the enable register when it is the job's time; otherwise with 0 if the job is an auto-reset job and
    with its old value if not. (If the job's enable register is its own flag, an auto-reset job copies the 0 just
    stored.) *)
Lemma C43_each_job_l : forall t before j after f, j_en j = true ->
  (forall j', In j' (before ++ after) -> j_en j' = true -> j_flag j' <> j_flag j /\ j_flag j' <> j_enreg j) ->
  after_jobs t (before ++ j :: after) f (j_flag j) =
    if matches t (j_map j) then (if j_auto j && (j_enreg j =? j_flag j) then Some 0 else f (j_enreg j))
    else if j_auto j then Some 0 else f (j_flag j).
Proof.
  intros t b4 j af f EN H. unfold after_jobs. rewrite fold_left_app. simpl.
  rewrite fired_other by (intros j' IN E'; apply (H j'); auto; apply in_app_iff; auto). set (f0 := flags_cleared (b4 ++ j :: af) f).
  assert (F1 : f0 (j_flag j) = if j_auto j then Some 0 else f (j_flag j)).
  { unfold f0, flags_cleared. rewrite existsb_app. simpl. rewrite EN, Z.eqb_refl. simpl.
    assert (NO : forall l, (forall j', In j' l -> In j' (b4 ++ af)) -> existsb (fun j0 => j_en j0 && j_auto j0 && (j_flag j0 =? j_flag j)) l = false).
    { intros l IN. destruct (existsb _ l) eqn:X; auto. apply existsb_exists in X as (j' & I' & X). apply andb_true_iff in X as [X F]. apply andb_true_iff in X as [X _].
      apply Z.eqb_eq in F. destruct (H j') as [K _]; auto. contradiction. }
    rewrite !NO by (intros; apply in_app_iff; auto). simpl. rewrite andb_true_r, orb_false_r. now destruct (j_auto j). }
  assert (F2 : j_enreg j <> j_flag j -> f0 (j_enreg j) = f (j_enreg j)).
  { intros NE. unfold f0. apply cleared_other. intros j' IN E'. apply in_app_iff in IN as [IN|[<-|IN]]; [| congruence|]; apply (H j'); auto; apply in_app_iff; auto. }
  unfold fired at 1. rewrite EN, Z.eqb_refl, andb_true_r. simpl. destruct (matches t (j_map j)).
  - rewrite fired_other by (intros j' IN E'; apply (H j'); auto; apply in_app_iff; auto).
    destruct (Z.eqb_spec (j_enreg j) (j_flag j)) as [EQ|NE]; [|rewrite andb_false_r; auto]. rewrite EQ, F1. rewrite andb_true_r. destruct (j_auto j); congruence.
  - rewrite fired_other by (intros j' IN E'; apply (H j'); auto; apply in_app_iff; auto). auto.
Qed.

(** C43: doing the jobs one by one, each first clearing its flag and then firing, gives the same, unless the flag of an
    auto-reset job is also the flag or the enable register of an earlier job. *)
Lemma C43_job_by_job_l : forall t js f z, orderly js -> after_jobs t js f z = job_by_job t js f z.
Proof.
  intros t js f z O. unfold after_jobs, job_by_job. revert f z. induction js as [|j js IH]; intros f z; [reflexivity|]. destruct O as [O1 O2]. cbn [fold_left].
  rewrite <- (IH O2). clear IH. apply fold_ext; [intros; apply fired_ext; auto|]. clear z. intros z.
  assert (NJ : forall z, j_en j = true -> z = j_flag j \/ z = j_enreg j -> existsb (fun j0 => j_en j0 && j_auto j0 && (j_flag j0 =? z)) js = false).
  { intros y EN Y. destruct (existsb _ js) eqn:X; auto. apply existsb_exists in X as (j' & IN & X). rewrite !andb_true_iff in X. destruct X as [[X1 X2] X3]. apply Z.eqb_eq in X3.
    destruct (O1 j' IN X1 X2 EN). destruct Y; congruence. }
  unfold job_done, fired, flags_cleared. cbn [existsb]. destruct (j_en j) eqn:EN; simpl; [|reflexivity].
  destruct (matches t (j_map j)); simpl.
  - destruct (Z.eqb_spec (j_flag j) z) as [<-|NE].
    + rewrite !NJ by auto. now rewrite !orb_false_r.
    + rewrite ?andb_false_r. simpl. destruct (existsb _ js); auto.
  - destruct (j_auto j); simpl; [|destruct (existsb _ js); auto]. destruct (Z.eqb_spec (j_flag j) z) as [<-|NE]; simpl.
    + now rewrite NJ by auto.
    + destruct (existsb _ js); auto.
Qed.

(** C43, finding: without that condition the two readings differ: all flags are cleared before the first job is done, so
    the second of two jobs with one flag does not clear what the first has just set. *)
Lemma C43_shared_flag_actual_l : forall t j1 j2 f v, j_en j1 = true -> j_en j2 = true -> j_auto j2 = true -> j_flag j2 = j_flag j1 -> j_enreg j1 <> j_flag j1 ->
  matches t (j_map j1) = true -> matches t (j_map j2) = false -> f (j_enreg j1) = Some v ->
  after_jobs t [j1; j2] f (j_flag j1) = Some v /\ job_by_job t [j1; j2] f (j_flag j1) = Some 0.
Proof.
  intros t j1 j2 f v E1 E2 A2 FL NE M1 M2 F. unfold after_jobs, job_by_job, job_done, fired, flags_cleared. cbn [fold_left existsb].
  rewrite E1, E2, A2, FL, M1, M2, Z.eqb_refl. simpl. replace (j_flag j1 =? j_enreg j1) with false by (symmetry; apply Z.eqb_neq; congruence).
  rewrite andb_false_r. simpl. auto.
Qed.

(** A bit of a map that is large enough can be read. *)
Lemma bit_read mp p : 0 <= p -> p / 8 < Z.of_nat (length mp) -> p < 2 ^ 32 -> exists b, bit_is_set mp (u32 p) = Ok b.
Proof.
  intros P L B. unfold bit_is_set, u32. rewrite Z.mod_small by lia. rewrite Z.shiftr_div_pow2 by lia. change (2 ^ 3) with 8.
  unfold lget. assert (0 <= p / 8) by (apply Z.div_pos; lia). unfold idx_ok. rewrite (proj2 (Z.leb_le 0 (p / 8))), (proj2 (Z.ltb_lt (p / 8) _)) by lia. simpl.
  destruct (nth_error mp (Z.to_nat (p / 8))) eqn:N; [simpl; eauto|]. apply nth_error_None in N. lia.
Qed.
Lemma bit_small mp p n : length mp = n -> 0 <= p < 8 * Z.of_nat n -> (n < 100)%nat -> exists b, bit_is_set mp (u32 p) = Ok b.
Proof.
  intros L P N. apply bit_read; [lia| |].
  - rewrite L. apply Z.div_lt_upper_bound; lia.
  - assert (2 ^ 32 = 4294967296) by reflexivity. lia.
Qed.
Lemma and_total r k : (exists b, r = Ok b) -> (exists b, k = Ok b) -> exists b, and_bit r k = Ok b.
Proof. intros (b & ->) (b' & ->). unfold and_bit. destruct b; simpl; eauto. Qed.
Lemma valid_total t k : calendar t -> full_map k -> exists b, cron_valid t k = Ok b.
Proof.
  intros (A & B & C & D & F & G & H) (L1 & L2 & L3 & L4 & L5 & L6 & L7). unfold cron_valid.
  repeat apply and_total; (eapply bit_small; [eassumption| |]); lia.
Qed.
Lemma get_total {A} (p : option (list A)) l z : p = Some l -> 0 <= z < Z.of_nat (length l) -> exists v, pget p z = Ok v.
Proof.
  intros -> Z0. unfold pget, lget, idx_ok. rewrite (proj2 (Z.leb_le 0 z)), (proj2 (Z.ltb_lt z _)) by lia. simpl.
  destruct (nth_error l (Z.to_nat z)) eqn:N; eauto. apply nth_error_None in N. lia.
Qed.
Lemma mset_total z v c l : m_M (x_mem c) = Some l -> 0 <= z < Z.of_nat (length l) ->
  exists c' l', bk_put B_M z v c = Ok c' /\ m_M (x_mem c') = Some l' /\ length l' = length l.
Proof.
  intros M Z0. unfold bk_put. change (arr_of B_M c) with (m_M (x_mem c)). rewrite M. unfold pset, idx_ok. rewrite (proj2 (Z.leb_le 0 z)), (proj2 (Z.ltb_lt z _)) by lia. simpl.
  eexists _, _. split; [reflexivity|]. simpl. split; [reflexivity|]. apply lset_length.
Qed.
Lemma clear_total js f m c n l : m_M (x_mem c) = Some l -> (n <= length l)%nat -> (m + f <= length js)%nat -> (forall i j, (i < m + f)%nat -> nth_error js i = Some j -> inside_m n j) ->
  exists c' l', cron_clear f m (Some js) c = Ok c' /\ m_M (x_mem c') = Some l' /\ length l' = length l.
Proof.
  revert m c l. induction f as [|f IH]; intros m c l M L R H; simpl; [eauto|].
  destruct (nth_error js m) as [j|] eqn:N; [|apply nth_error_None in N; lia].
  destruct (get_total (Some js) js (Z.of_nat m) eq_refl ltac:(lia)) as (j' & G). pose proof G as G'. apply pget_ok in G' as [_ G']. unfold elem, obind, ix in G'. rewrite Nat2Z.id, N in G'. injection G' as <-. simpl in G.
  rewrite G. simpl. destruct (H m j ltac:(lia) N) as [_ HF].
  destruct (j_en j && j_auto j); simpl.
  - destruct (mset_total (j_flag j) 0 c l M ltac:(lia)) as (c1 & l1 & P1 & M1 & L1). rewrite P1. simpl. rewrite <- L1. apply (IH (S m) c1 l1); auto; try lia.
    intros i j' I1. apply H. lia.
  - apply IH; auto; try lia. intros i j' I1. apply H. lia.
Qed.
Lemma eval_total t js f m c n l : calendar t -> m_M (x_mem c) = Some l -> (n <= length l)%nat -> (m + f <= length js)%nat ->
  (forall i j, (i < m + f)%nat -> nth_error js i = Some j -> inside_m n j /\ full_map (j_map j)) -> exists c', cron_jobs_eval f m t (Some js) c = Ok c'.
Proof.
  intros CA. revert m c l. induction f as [|f IH]; intros m c l M L R H; simpl; [eauto|].
  destruct (nth_error js m) as [j|] eqn:N; [|apply nth_error_None in N; lia].
  destruct (get_total (Some js) js (Z.of_nat m) eq_refl ltac:(lia)) as (j' & G). pose proof G as G'. apply pget_ok in G' as [_ G']. unfold elem, obind, ix in G'. rewrite Nat2Z.id, N in G'. injection G' as <-. simpl in G.
  rewrite G. simpl. destruct (H m j ltac:(lia) N) as [[HE HF] FM].
  assert (SAME : exists c', cron_jobs_eval f (S m) t (Some js) c = Ok c') by (apply (IH (S m) c l); auto; try lia; intros i j' I1; apply H; lia).
  destruct (j_en j); simpl; auto. destruct (valid_total t (j_map j) CA FM) as (b & V). rewrite V. simpl. destruct b; simpl; auto.
  destruct (get_total (m_M (x_mem c)) l (j_enreg j) M ltac:(lia)) as (v & GV). unfold bk_get. change (arr_of B_M c) with (m_M (x_mem c)). rewrite GV. simpl.
  destruct (mset_total (j_flag j) v c l M ltac:(lia)) as (c1 & l1 & P1 & M1 & L1). rewrite P1. simpl. apply (IH (S m) c1 l1); auto; try lia. intros i j' I1. apply H. lia.
Qed.

(** C43, C46: with a job table as the library sets it up, and the M registers allocated, the jobs are done without any
    access outside the M registers, the job table or the bit maps, on every date of the years 2000 to 2100. *)
Lemma C46_evaluation_safe_l : forall E s k nm, peek (s_ctx s) LCron = Some (VCron (Some k)) -> table_ok (q_m (x_q (s_ctx s))) k ->
  peek (s_ctx s) (LRegLen B_M) = Some (VN nm) -> (q_m (x_q (s_ctx s)) <= nm)%nat -> calendar (wall E (length (s_tr s))) ->
  exists go s', scan_cron E s = Ok (go, s').
Proof.
  intros E s k nm PK [T1 T2 T3 T4] LM QM CA. apply cron_of_peek in PK. unfold scan_cron, bind, getc. rewrite PK.
  simpl in LM. destruct (m_M (x_mem (s_ctx s))) as [l|] eqn:M; [|discriminate]. injection LM as <-. unfold updc. unfold slot in *.
  destruct (cr_jobs k) as [js|] eqn:JS.
  - destruct (clear_total js (cr_used k) 0 (s_ctx s) _ l M QM) as (c1 & l1 & H1 & M1 & L1); [lia|intros i j I0 N; apply (T4 i j); auto|].
    rewrite H1. simpl. assert (X1 : x_cron c1 = x_cron (s_ctx s)).
    { pose proof (any_cron_clear (cr_used k) 0 (Some js) (s_ctx s) (fun l => exists i, l = LReg B_M i) (fun c => x_cron c = x_cron (s_ctx s))) as K. rewrite H1 in K. simpl in K.
      apply K; eauto. intros c' CH. pose proof (CH LCron ltac:(intros (? & K0); discriminate)) as K0. simpl in K0. congruence. }
    unfold cron_eval, bind, getc, lift, cron_of. simpl. rewrite X1, PK. simpl. rewrite JS. simpl. destruct (Nat.eqb_spec (cr_used k) 0) as [U|U].
    + simpl. unfold ret. simpl. eauto.
    + unfold localtime, updc. simpl.
      destruct (eval_total (wall E (length (s_tr s))) js (cr_used k) 0 c1 (q_m (x_q (s_ctx s))) l1) as (c2 & H2); auto; [lia|lia| |].
      * intros i j I0 N. split; [apply (T4 i j)|apply (T3 i j)]; auto.
      * rewrite H2. simpl. unfold ret. simpl. eauto.
  - assert (U : cr_used k = 0%nat) by lia. rewrite U. simpl. unfold cron_eval, bind, getc, lift, cron_of. simpl. rewrite PK. simpl. rewrite JS. simpl. unfold ret. simpl. eauto.
Qed.

(** C43, finding: on a date before the year 2000 the year map is read far outside its bounds as soon as the other six
    fields of a job match. Here for the first job in use. *)
Lemma C43_before_2000_undefined_l : forall t k, 0 <= tm_year t < 100 -> full_map k ->
  bit_is_set (k_sec k) (u32 (tm_sec t)) = Ok true -> bit_is_set (k_min k) (u32 (tm_min t)) = Ok true -> bit_is_set (k_hour k) (u32 (tm_hour t)) = Ok true ->
  bit_is_set (k_mday k) (u32 (tm_mday t)) = Ok true -> bit_is_set (k_mon k) (u32 (tm_mon t + 1)) = Ok true -> bit_is_set (k_wday k) (u32 (tm_wday t)) = Ok true ->
  cron_valid t k = Bad UB_oob.
Proof.
  intros t k Y (_ & _ & _ & _ & _ & _ & L) A B C D F G. unfold cron_valid, and_bit. rewrite A, B, C, D, F, G. simpl.
  unfold bit_is_set, u32. set (p := (tm_year t - 100) mod 2 ^ 32).
  assert (P : 4294967196 <= p < 4294967296).
  { unfold p. assert (Q : (tm_year t - 100) mod 2 ^ 32 = tm_year t - 100 + 4294967296) by (change (2 ^ 32) with 4294967296; symmetry; apply (Z.mod_unique_pos _ _ (-1)); lia). lia. }
  rewrite Z.shiftr_div_pow2 by lia. change (2 ^ 3) with 8. unfold lget, idx_ok.
  replace (p / 8 <? Z.of_nat (length (k_year k))) with false; [now rewrite andb_false_r|]. symmetry. apply Z.ltb_ge. rewrite L. apply Z.div_le_lower_bound; lia.
Qed.

(** Cron expressions as lists of bytes: "* * * * * * *" and "30 15 10 * * 1-5 *". *)
Definition every_second : list Z := [42; 32; 42; 32; 42; 32; 42; 32; 42; 32; 42; 32; 42].
Definition half_past : list Z := [51; 48; 32; 49; 53; 32; 49; 48; 32; 42; 32; 42; 32; 49; 45; 53; 32; 42].
(** The demonstration context with two slots and the two jobs added: M0 enables both, M1 is the flag of the first and M2 the
    flag of the second, an auto-reset job. *)
Definition with_jobs : ctx :=
  let c0 := set_x_cron (Some (mk_cron None 0 0)) (demo [[cellv I_CONN []; cellv I_COIL [V R_M 3]]]) in
  match cron_init true 2 c0 with
  | Ok (_, c1) => match cron_add false 0 1 every_second c1 with
                  | Ok (_, c2) => match cron_add true 0 2 half_past c2 with Ok (_, c3) => c3 | _ => c0 end
                  | _ => c0 end
  | _ => c0 end.
(*EX
(* On 1 January 2020, 00:00:00, the first job sets M1; the second one clears M2, which was 1, and does not fire. *)
Example C43_case :
  let s := start with_jobs in let s' := scan_st quiet_env with_jobs in
  scan_ready quiet_env (fun _ => False) (s_ctx s) 1000 /\ scans quiet_env s s' /\ calendar (wall quiet_env (length (s_tr s)))
  /\ (exists k js, peek (s_ctx s) LCron = Some (VCron (Some k)) /\ cr_jobs k = Some js /\ cr_used k = 2%nat /\ orderly (firstn 2 js)
      /\ map (fun j => matches (wall quiet_env 0) (j_map j)) js = [true; false])
  /\ map (flag_of (s_ctx s)) [0; 1; 2; 3] = [Some 1; Some 0; Some 1; Some 0]
  /\ map (flag_of (s_ctx s')) [0; 1; 2; 3] = [Some 1; Some 1; Some 0; Some 1].
Proof.
  intros s s'. split; [apply (readyb_ok with_jobs (fun k => 10 * Z.of_nat k)); vm_compute; reflexivity|]. split; [vm_compute; reflexivity|].
  split; [vm_compute; repeat split; discriminate|]. split; [|split; vm_compute; reflexivity].
  eexists _, _. split; [vm_compute; reflexivity|]. split; [vm_compute; reflexivity|]. split; [reflexivity|]. split; [|vm_compute; reflexivity].
  vm_compute. repeat split; intros; repeat match goal with H : _ \/ _ |- _ => destruct H end; try contradiction; subst; simpl in *; discriminate.
Qed.
(* The second job alone, at 10:15:30 on a Wednesday: it fires. *)
Example C43_fires_case :
  let t := mk_tm 30 15 10 1 0 3 120 in
  calendar t /\ exists k js, peek with_jobs LCron = Some (VCron (Some k)) /\ cr_jobs k = Some js
    /\ map (after_jobs t js (flag_of with_jobs)) [0; 1; 2; 3] = [Some 1; Some 1; Some 1; Some 0].
Proof. split; [vm_compute; repeat split; discriminate|]. eexists _, _. split; [vm_compute; reflexivity|]. split; vm_compute; reflexivity. Qed.
EX*)

(** ** C44 *)

(** C44: ladder_ctx_init leaves the cron structure allocated and without jobs, and cron_init adds none. *)
Lemma C44_after_init_l : forall alloc a c c', ctx_init alloc a c = (true, c') ->
  jobless c' /\ forall al n e c2, cron_init al n c' = Ok (e, c2) -> jobless c2.
Proof.
  intros alloc a c c' H. unfold ctx_init in H. destruct (args_ok a); [|discriminate]. destruct (forallb _ _); [|discriminate]. injection H as <-. split.
  - eexists. split; reflexivity.
  - intros al n e c2 I0. unfold cron_init in I0. simpl in I0. destruct al; [injection I0 as _ <-; eexists; split; reflexivity|].
    destruct n; [injection I0 as _ <-; eexists; split; reflexivity|discriminate].
Qed.
Lemma scan_jobless E s : jobless (s_ctx s) ->
  exists s', ladder_scan E s = Ok (tt, s') /\ s_tr s' = s_tr s /\ peek (s_ctx s') LState = Some (VState S_INV)
    /\ changes_only (s_ctx s) (s_ctx s') (fun l => l = LExec \/ l = LState).
Proof.
  intros (k & PK & U). apply cron_of_peek in PK. unfold ladder_scan, scan_cron, bind, modc, getc. simpl. rewrite PK. unfold updc. rewrite U. simpl.
  unfold cron_eval, bind, getc, lift, cron_of. simpl. rewrite PK. simpl. rewrite U, orb_true_r. simpl. unfold ret, set_state, modc. simpl.
  eexists. split; [reflexivity|]. split; [reflexivity|]. split; [reflexivity|]. intros l K. destruct l; simpl; auto; [destruct K; auto..].
Qed.

(** C44 is violated: with no job in use every scan stops at once in state INV; no instruction is executed and no function
    is called. *)
Lemma C44_scan_actual_l : forall E s, jobless (s_ctx s) ->
  exists s', scans E s s' /\ calls s s' [] /\ peek (s_ctx s') LState = Some (VState S_INV)
    /\ changes_only (s_ctx s) (s_ctx s') (fun l => l = LExec \/ l = LState).
Proof. intros E s H. destruct (scan_jobless E s H) as (s' & A & B & C & D). exists s'. split; auto. Qed.

(** C44 is violated: so the first cycle is a faulting one, whatever the program, and the task ends with it. *)
Lemma C44_task_actual_l : forall E W s nx s', callbacks E W -> tame W -> task_ready (s_ctx s) -> jobless (s_ctx s) ->
  peek (s_ctx s) LState = Some (VState S_RUNNING) -> cycle E s = Ok (nx, s') ->
  nx = T_exit /\ (forall k, task_loop E (S k) s = Ok (Ended, s'))
  /\ exists a b t0, begins W s a t0 /\ scans E a b /\ calls a b [] /\ peek (s_ctx b) LState = Some (VState S_INV).
Proof.
  intros E W s nx s' CB TA TR JL RU CY. destruct (cycle_split E W CB s nx s' TR CY) as (t0 & s1 & s2 & s3 & s4 & s5 & s6 & OP & SC & CF & K).
  destruct (begins_split E W CB TA _ _ _ _ _ _ _ OP) as (BE & SP & _).
  assert (JA : jobless (s_ctx s5)).
  { destruct JL as (k & PK & U). exists k. split; auto. rewrite SP; auto; [exact I|discriminate|intros; discriminate]. }
  destruct (scan_jobless E s5 JA) as (b & S1 & S2 & S3 & S4). unfold scans in SC. rewrite S1 in SC. injection SC as <-.
  assert (nx = T_exit) as -> by (destruct K as [(_ & K & _)|(K & _)]; [auto|contradiction]). split; auto. split.
  - intros k. now apply C28_ends_l.
  - exists s5, b, t0. auto.
Qed.

(** A freshly initialised context with clock and delay functions, one enabled network and the state set to RUNNING. *)
Definition C44_args : init_args := mk_init_args 2 1 1 4 2 2 2 2 10 0 true false 1000 0.
Definition C44_ctx : ctx :=
  let c := snd (ctx_init (fun _ => true) C44_args (demo [])) in
  set_x_state S_RUNNING (set_x_h (set_h_delay true (set_h_millis true (x_h c)))
    (set_x_net (Some [net_on true [[cellv I_CONN []; cellv I_COIL [V R_M 1]]]]) c)).
(** C44 is violated: a concrete fresh context whose task ends in its first cycle, although the program is just a
    connected coil and every function works. *)
Lemma C44_refuted_l : exists E W s s', callbacks E W /\ tame W /\ task_ready (s_ctx s) /\ wf_program (s_ctx s) /\ jobless (s_ctx s)
  /\ peek (s_ctx s) LState = Some (VState S_RUNNING)
  /\ ladder_task E 1 s = Ok (Ended, s') /\ peek (s_ctx s') (LReg B_M 1) = Some (VZ 0).
Proof.
  exists (task_env (fun k => 5 * Z.of_nat k) (fun _ _ => 0) (fun _ => None)), task_w, (start C44_ctx). eexists.
  split; [apply task_callbacks|]. split; [apply task_tame|]. split; [apply task_readyb_ok; vm_compute; reflexivity|].
  split; [exact (sr_prog _ _ _ _ (readyb_ok (set_x_cron None C44_ctx) (fun k => 10 * Z.of_nat k) ltac:(vm_compute; reflexivity)))|].
  split; [eexists; split; vm_compute; reflexivity|]. split; [reflexivity|]. split; vm_compute; reflexivity.
Qed.
(*EX
(* The same context without the cron structure: the cycle completes and the coil is set. *)
Example C44_case :
  let c := set_x_cron None C44_ctx in
  let E := task_env (fun k => 5 * Z.of_nat k) (fun _ _ => 0) (fun _ => None) in
  exists s', ladder_task E 1 (start c) = Ok (Running, s') /\ peek (s_ctx s') (LReg B_M 1) = Some (VZ 1).
Proof. intros c E. eexists. split; vm_compute; reflexivity. Qed.
EX*)

(** ** C46 *)

Lemma bit_set_length mp p m' : bit_set mp p = Ok m' -> length m' = length mp.
Proof. unfold bit_set. intros H. apply rbind_ok in H as (b & _ & H). injection H as <-. apply lset_length. Qed.
Lemma set_bits_length f mp b last step r : set_bits f mp b last step = Ok r -> length (fst r) = length mp.
Proof.
  revert mp b. induction f as [|f IH]; intros mp b H; simpl in H; (destruct (b <=? last); [|injection H as <-; reflexivity]); [discriminate|].
  apply rbind_ok in H as (m1 & B & H). rewrite (IH _ _ H). now apply bit_set_length in B.
Qed.
Lemma apply_item_length mp mn mx b e step opp r m' : apply_item mp mn mx b e step opp = Ok (r, m') -> length m' = length mp.
Proof.
  unfold apply_item. destruct (b <? mn); [intros H; injection H as _ <-; auto|]. destruct (_ && _); [intros H; injection H as _ <-; auto|].
  destruct opp; intros H.
  - apply rbind_ok in H as ([m1 bit] & H1 & H). destruct (step =? 0); [discriminate|]. apply rbind_ok in H as (r2 & H2 & H). injection H as _ <-.
    apply set_bits_length in H1, H2. simpl in H1. congruence.
  - apply rbind_ok in H as (r1 & H1 & H). injection H as _ <-. now apply set_bits_length in H1.
Qed.
Lemma parse_items_length f mp tok len idx mn mx r m' : parse_items f mp tok len idx mn mx = Ok (r, m') -> length m' = length mp.
Proof.
  revert mp idx. induction f as [|f IH]; intros mp idx H; simpl in H; [discriminate|]. destruct (idx <? len)%nat; [|injection H as _ <-; auto].
  destruct (parse_item tok len idx mn mx) as [x|[[[[b e] step] opp] i]]; [injection H as _ <-; auto|].
  apply rbind_ok in H as ([r1 m1] & H1 & H). apply apply_item_length in H1. destruct (lok r1); [|injection H as _ <-; auto].
  destruct (i =? len)%nat; [injection H as _ <-; auto|]. destruct (_ =? _); [|injection H as _ <-; auto]. apply IH in H. congruence.
Qed.
Lemma parse_field_length mp mn mx s r m' rest : parse_field mp mn mx s = Ok (r, m', rest) -> length m' = length mp.
Proof.
  unfold parse_field. destruct (next_token s) as [[[tok len] rs]|]; [|intros H; injection H as _ <- _; auto]. intros H. apply rbind_ok in H as ([r1 m1] & H1 & H).
  injection H as _ <- _. now apply parse_items_length in H1.
Qed.
Lemma parse_full mp s r k : cron_parse mp s = Ok (r, k) -> full_map mp -> full_map k.
Proof.
  unfold cron_parse. destruct s as [|ch s]; [intros H; injection H as _ <-; auto|]. intros H _. cbv zeta in H.
  do 7 (let HP := fresh "HP" in apply rbind_ok in H as ([[? ?] ?] & HP & H); apply parse_field_length in HP; simpl in HP; first [destruct (negb _); [injection H as _ <-; repeat split; simpl; assumption|]|injection H as _ <-; repeat split; simpl; assumption]).
Qed.

Lemma u32_pred n : (0 < n)%nat -> Z.of_nat n <= 2 ^ 32 -> u32 (Z.of_nat n - 1) = Z.of_nat n - 1.
Proof. intros A B. unfold u32. apply Z.mod_small. lia. Qed.
Lemma cron_changes k c : changes_only c (set_x_cron k c) (fun l => l = LCron).
Proof. intros l L. destruct l; try reflexivity. contradiction. Qed.

(** The two things cron_add can do to the job table. *)
Lemma add_cases auto en fl str c c' k e : (0 < q_m (x_q c))%nat -> Z.of_nat (q_m (x_q c)) <= 2 ^ 32 ->
  x_cron c = Some k -> cron_add auto en fl str c = Ok (e, c') ->
  (e = E_FAIL /\ c' = c)
  \/ exists js old r mp, cr_jobs k = Some js /\ nth_error js (cr_used k) = Some old /\ cron_parse (j_map old) str = Ok (r, mp)
     /\ cr_used k <> cr_qty k /\ en < Z.of_nat (q_m (x_q c)) /\ fl < Z.of_nat (q_m (x_q c))
     /\ ((r = L_OK /\ e = E_OK /\ c' = set_x_cron (Some (mk_cron (Some (lset js (cr_used k) (mk_job true auto en fl mp))) (cr_qty k) (S (cr_used k)))) c)
         \/ (e = E_FAIL /\ c' = set_x_cron (Some (mk_cron (Some (lset js (cr_used k) (set_j_map mp old))) (cr_qty k) (cr_used k))) c)).
Proof.
  intros QM QB XC H. unfold cron_add, cron_of in H. rewrite XC in H. cbn [rbind] in H.
  rewrite u32_pred in H by auto. destruct (is_null (cr_jobs k) || _ || _ || _) eqn:G; [left; injection H as <- <-; auto|]. right. rewrite !orb_false_iff in G. destruct G as [[[G1 G2] G3] G4].
  apply Z.ltb_ge in G3, G4. apply Nat.eqb_neq in G2. apply rbind_ok in H as (j & GJ & H). apply rbind_ok in H as ([r mp] & PJ & H).
  pose proof GJ as GJ'. apply pget_ok in GJ' as [_ GJ']. unfold elem, obind, ix in GJ'. rewrite Nat2Z.id in GJ'. destruct (cr_jobs k) as [js|]; [|discriminate].
  exists js, j, r, mp. repeat (split; [auto; lia|]).
  destruct (lok r) eqn:LR; apply rbind_ok in H as (js' & SJ & H); injection H as <- <-; unfold pset in SJ; (destruct (idx_ok js (Z.of_nat (cr_used k))); [|discriminate]); injection SJ as <-; rewrite Nat2Z.id.
  - left. destruct r; try discriminate. auto.
  - right. auto.
Qed.

(** C46: a call of cron_add that succeeds found a free slot and both registers inside M, and the expression is well formed.
    The job is in the next slot, enabled, with the given registers and the parsed map; all other slots are as before,
    one more slot is in use, and nothing but the job table is changed. *)
Lemma C46_stored_l : forall auto en fl str c c' k, 0 <= en -> 0 <= fl -> (0 < q_m (x_q c))%nat -> Z.of_nat (q_m (x_q c)) <= 2 ^ 32 ->
  peek c LCron = Some (VCron (Some k)) -> cron_add auto en fl str c = Ok (E_OK, c') ->
  en < Z.of_nat (q_m (x_q c)) /\ fl < Z.of_nat (q_m (x_q c)) /\ cr_used k <> cr_qty k
  /\ exists k' old map, peek c' LCron = Some (VCron (Some k')) /\ slot k (cr_used k) = Some old /\ cron_parse (j_map old) str = Ok (L_OK, map)
    /\ slot k' (cr_used k) = Some (mk_job true auto en fl map) /\ (forall i, i <> cr_used k -> slot k' i = slot k i)
    /\ cr_used k' = S (cr_used k) /\ cr_qty k' = cr_qty k /\ changes_only c c' (fun l => l = LCron).
Proof.
  intros auto en fl str c c' k E0 F0 QM QB PK H. apply cron_of_peek in PK.
  destruct (add_cases _ _ _ _ _ _ _ _ QM QB PK H) as [[K _]|(js & old & r & mp & JS & NO & PA & U & A & B & [(-> & _ & ->)|[K _]])]; try discriminate.
  split; auto. split; auto. split; auto. eexists. exists old, mp. split; [reflexivity|]. split; [unfold slot; now rewrite JS|]. split; auto.
  assert (LT : (cr_used k < length js)%nat) by (apply nth_error_Some; congruence).
  split; [unfold slot; simpl; now apply nth_lset_same|]. split; [intros i NE; unfold slot; simpl; rewrite JS; apply nth_lset_other; auto|].
  split; [reflexivity|]. split; [reflexivity|]. apply cron_changes.
Qed.

(** C46: a well formed expression is accepted exactly if a slot is free and both registers are inside M. *)
Lemma C46_accepts_l : forall auto en fl str c k, 0 <= en < 2 ^ 32 -> 0 <= fl < 2 ^ 32 -> (0 < q_m (x_q c))%nat -> Z.of_nat (q_m (x_q c)) <= 2 ^ 32 ->
  peek c LCron = Some (VCron (Some k)) -> table_ok (q_m (x_q c)) k -> (forall mp, exists map, cron_parse mp str = Ok (L_OK, map)) ->
  (exists c', cron_add auto en fl str c = Ok (E_OK, c')) <->
  (cr_used k < cr_qty k)%nat /\ en < Z.of_nat (q_m (x_q c)) /\ fl < Z.of_nat (q_m (x_q c)).
Proof.
  intros auto en fl str c k E0 F0 QM QB PK TB PA. split.
  - intros (c' & H). destruct (C46_stored_l auto en fl str c c' k) as (A & B & C & _); auto; try lia. destruct TB as [_ T2 _ _]. split; [lia|auto].
  - intros (U & A & B). apply cron_of_peek in PK. unfold cron_add, cron_of. rewrite PK. cbn [rbind]. rewrite u32_pred by auto. destruct TB as [T1 T2 _ _].
    destruct (cr_jobs k) as [js|] eqn:JS; [|lia]. simpl is_null. rewrite (proj2 (Nat.eqb_neq (cr_used k) (cr_qty k))) by lia.
    replace (Z.of_nat (q_m (x_q c)) - 1 <? en) with false by (symmetry; apply Z.ltb_ge; lia). replace (Z.of_nat (q_m (x_q c)) - 1 <? fl) with false by (symmetry; apply Z.ltb_ge; lia).
    cbn [orb]. destruct (get_total (Some js) js (Z.of_nat (cr_used k)) eq_refl ltac:(lia)) as (j & GJ). rewrite GJ. cbn [rbind].
    destruct (PA (j_map j)) as (mp & PM). rewrite PM. cbn [rbind lok]. unfold pset, idx_ok. rewrite (proj2 (Z.leb_le 0 _)), (proj2 (Z.ltb_lt (Z.of_nat (cr_used k)) _)) by lia. simpl. eauto.
Qed.

(** C46: a call that is refused keeps all jobs in use as they are and changes nothing but the job table. *)
Lemma C46_refused_l : forall auto en fl str c c' k e, (0 < q_m (x_q c))%nat -> Z.of_nat (q_m (x_q c)) <= 2 ^ 32 ->
  peek c LCron = Some (VCron (Some k)) -> cron_add auto en fl str c = Ok (e, c') -> e <> E_OK ->
  exists k', peek c' LCron = Some (VCron (Some k')) /\ cr_used k' = cr_used k /\ cr_qty k' = cr_qty k
    /\ (forall i, i <> cr_used k -> slot k' i = slot k i) /\ changes_only c c' (fun l => l = LCron).
Proof.
  intros auto en fl str c c' k e QM QB PK H NE. pose proof (cron_of_peek _ _ PK) as XC.
  destruct (add_cases _ _ _ _ _ _ _ _ QM QB XC H) as [[_ ->]|(js & old & r & mp & JS & NO & PA & U & A & B & [(_ & K & _)|[_ ->]])].
  - exists k. repeat split; auto.
  - congruence.
  - eexists. split; [reflexivity|]. split; [reflexivity|]. split; [reflexivity|]. split; [|apply cron_changes].
    intros i I0. unfold slot. simpl. rewrite JS. apply nth_lset_other; auto.
Qed.

Lemma map0_full : full_map map0.
Proof. repeat split. Qed.
Lemma setup_keeps x c e c' k : u32_call x -> (0 < q_m (x_q c))%nat -> Z.of_nat (q_m (x_q c)) <= 2 ^ 32 ->
  peek c LCron = Some (VCron (Some k)) -> table_ok (q_m (x_q c)) k -> setup x c = Ok (e, c') ->
  changes_only c c' (fun l => l = LCron) /\ exists k', peek c' LCron = Some (VCron (Some k')) /\ table_ok (q_m (x_q c)) k'
    /\ (cr_used k <= cr_used k')%nat /\ forall i j, (i < cr_used k)%nat -> slot k i = Some j -> slot k' i = Some j.
Proof.
  intros U QM QB PK TB H. pose proof (cron_of_peek _ _ PK) as XC. destruct x as [al n|auto en fl str]; simpl in H.
  - unfold cron_init, cron_of in H. rewrite XC in H. cbn [rbind] in H. destruct TB as [T1 T2 T3 T4]. destruct (cr_jobs k) as [js|] eqn:JS; simpl in H.
    + injection H as _ <-. split; [apply changes_refl|]. exists k. split; auto. split; auto. constructor; auto. now rewrite JS.
    + assert (SN : forall i, slot k i = None) by (intros i; unfold slot; now rewrite JS). assert (U0 : cr_used k = 0%nat) by lia.
      destruct al.
      * injection H as _ <-. split; [apply cron_changes|]. eexists. split; [reflexivity|]. split; [|split].
        -- constructor; simpl; [now rewrite repeat_length|lia| |lia]. intros i j S. unfold slot in S. simpl in S. apply nth_error_In in S. apply repeat_spec in S. subst j. apply map0_full.
        -- simpl. lia.
        -- intros i j _ S. now rewrite SN in S.
      * destruct n; [|discriminate]. injection H as _ <-. split; [apply cron_changes|]. eexists. split; [reflexivity|]. split; [|split].
        -- constructor; simpl; auto; [|lia]. intros i j S. discriminate.
        -- simpl. lia.
        -- intros i j _ S. now rewrite SN in S.
  - destruct U as [UE UF]. destruct (add_cases _ _ _ _ _ _ _ _ QM QB XC H) as [[_ ->]|(js & old & r & mp & JS & NO & PA & U & A & B & K)].
    { split; [apply changes_refl|]. exists k. auto. }
    destruct TB as [T1 T2 T3 T4]. rewrite JS in T1. assert (LT : (cr_used k < length js)%nat) by (apply nth_error_Some; congruence).
    assert (FM : full_map mp) by (eapply parse_full; [exact PA|]; apply (T3 (cr_used k)); unfold slot; now rewrite JS).
    assert (SL : forall i j, slot k i = Some j <-> nth_error js i = Some j) by (intros i j; unfold slot; rewrite JS; tauto).
    destruct K as [(_ & _ & ->)|(_ & ->)]; (split; [apply cron_changes|]); eexists; (split; [reflexivity|]); (split; [constructor|split]); simpl.
    + now rewrite lset_length.
    + lia.
    + intros i j S. unfold slot in S. simpl in S. destruct (Nat.eq_dec i (cr_used k)) as [->|NI]; [rewrite nth_lset_same in S by auto; now injection S as <-|].
      rewrite nth_lset_other in S by auto. apply (T3 i). now apply SL.
    + intros i j I0 S. unfold slot in S. simpl in S. destruct (Nat.eq_dec i (cr_used k)) as [->|NI]; [rewrite nth_lset_same in S by auto; injection S as <-; split; simpl; lia|].
      rewrite nth_lset_other in S by auto. apply (T4 i); [lia|]. now apply SL.
    + lia.
    + intros i j I0 S. unfold slot. simpl. rewrite nth_lset_other by lia. now apply SL.
    + now rewrite lset_length.
    + lia.
    + intros i j S. unfold slot in S. simpl in S. destruct (Nat.eq_dec i (cr_used k)) as [->|NI]; [rewrite nth_lset_same in S by auto; now injection S as <-|].
      rewrite nth_lset_other in S by auto. apply (T3 i). now apply SL.
    + intros i j I0 S. unfold slot in S. simpl in S. rewrite nth_lset_other in S by lia. apply (T4 i); [lia|]. now apply SL.
    + lia.
    + intros i j I0 S. unfold slot. simpl. rewrite nth_lset_other by lia. now apply SL.
Qed.

(** C46: so after any series of calls of cron_init and cron_add on a fresh context, in any order and with any arguments, the
    job table is as [table_ok] says: in particular every job in use names M registers that exist. Jobs once added stay. *)
Lemma C46_invariant_l : forall xs c c' k, set_up xs c c' -> (0 < q_m (x_q c))%nat -> Z.of_nat (q_m (x_q c)) <= 2 ^ 32 ->
  peek c LCron = Some (VCron (Some k)) -> table_ok (q_m (x_q c)) k ->
  changes_only c c' (fun l => l = LCron) /\ exists k', peek c' LCron = Some (VCron (Some k')) /\ table_ok (q_m (x_q c)) k'
    /\ (cr_used k <= cr_used k')%nat /\ forall i j, (i < cr_used k)%nat -> slot k i = Some j -> slot k' i = Some j.
Proof.
  intros xs c c' k H. revert k. induction H as [c|x xs c e c1 c2 U S H IH]; intros k QM QB PK TB.
  - split; [apply changes_refl|]. exists k. auto.
  - destruct (setup_keeps x c e c1 k U QM QB PK TB S) as (C1 & k1 & P1 & T1 & L1 & K1).
    assert (Q : x_q c1 = x_q c) by (pose proof (C1 LQty ltac:(discriminate)) as K; simpl in K; congruence). rewrite Q in IH.
    destruct (IH k1 QM QB P1 T1) as (C2 & k2 & P2 & T2 & L2 & K2). split; [eapply changes_trans; eauto|]. exists k2. split; auto. split; auto. split; [lia|].
    intros i j I0 SJ. apply K2; [lia|]. now apply K1.
Qed.
Lemma C46_fresh_l : forall alloc a c c', ctx_init alloc a c = (true, c') -> exists k, peek c' LCron = Some (VCron (Some k)) /\ table_ok (q_m (x_q c')) k.
Proof.
  intros alloc a c c' H. unfold ctx_init in H. destruct (args_ok a); [|discriminate]. destruct (forallb _ _); [|discriminate]. injection H as <-.
  eexists. split; [reflexivity|]. constructor; simpl; auto; [|lia]. intros i j K. discriminate.
Qed.

(** C46: the first call of cron_init on such a context allocates the slots; a second one is refused. *)
Lemma C46_init_l : forall n c k, peek c LCron = Some (VCron (Some k)) ->
  (cr_jobs k = None -> exists c' k', cron_init true n c = Ok (E_OK, c') /\ peek c' LCron = Some (VCron (Some k')) /\ cr_qty k' = n /\ cr_used k' = 0%nat
     /\ (forall i, (i < n)%nat -> slot k' i <> None) /\ changes_only c c' (fun l => l = LCron))
  /\ (cr_jobs k <> None -> forall al, cron_init al n c = Ok (E_FAIL, c)).
Proof.
  intros n c k PK. apply cron_of_peek in PK. split.
  - intros JN. unfold cron_init, cron_of. rewrite PK. simpl. rewrite JN. simpl. eexists _, _. split; [reflexivity|]. split; [reflexivity|]. split; [reflexivity|]. split; [reflexivity|].
    split; [|apply cron_changes]. intros i I0. unfold slot. simpl. apply nth_error_Some. now rewrite repeat_length.
  - intros JN al. unfold cron_init, cron_of. rewrite PK. simpl. destruct (cr_jobs k); [reflexivity|contradiction].
Qed.

(** C46, finding: in a context without M registers (which ladder_ctx_init does not make) the test of the registers lets every
    number through: quantity.m - 1 wraps to 2^32 - 1. *)
Lemma C46_no_flags_actual_l : forall auto en fl str c k old map, q_m (x_q c) = 0%nat -> 0 <= en < 2 ^ 32 -> 0 <= fl < 2 ^ 32 ->
  peek c LCron = Some (VCron (Some k)) -> slot k (cr_used k) = Some old -> cr_used k <> cr_qty k -> cron_parse (j_map old) str = Ok (L_OK, map) ->
  exists c', cron_add auto en fl str c = Ok (E_OK, c').
Proof.
  intros auto en fl str c k old map Q0 E0 F0 PK SO UQ PA. apply cron_of_peek in PK. unfold cron_add, cron_of. rewrite PK, Q0. cbn [rbind].
  change (u32 (Z.of_nat 0 - 1)) with 4294967295. assert (2 ^ 32 = 4294967296) by reflexivity.
  replace (4294967295 <? en) with false by (symmetry; apply Z.ltb_ge; lia). replace (4294967295 <? fl) with false by (symmetry; apply Z.ltb_ge; lia).
  unfold slot in SO. destruct (cr_jobs k) as [js|]; [|discriminate]. rewrite (proj2 (Nat.eqb_neq (cr_used k) (cr_qty k))) by auto. cbn [orb is_null].
  assert (LT : (cr_used k < length js)%nat) by (apply nth_error_Some; congruence).
  destruct (get_total (Some js) js (Z.of_nat (cr_used k)) eq_refl ltac:(lia)) as (j & GJ). rewrite GJ. cbn [rbind].
  apply pget_ok in GJ as [_ GJ]. unfold elem, obind, ix in GJ. rewrite Nat2Z.id, SO in GJ. injection GJ as <-. rewrite PA. cbn [rbind lok].
  unfold pset, idx_ok. rewrite (proj2 (Z.leb_le 0 _)), (proj2 (Z.ltb_lt (Z.of_nat (cr_used k)) _)) by lia. simpl. eauto.
Qed.
(*EX
(* Three calls: two slots, a job with both registers inside M, one with a register outside, which is refused. *)
Example C46_case :
  let c0 := set_x_cron (Some (mk_cron None 0 0)) (demo []) in
  let xs := [InitJobs true 2; AddJob false 0 1 every_second; AddJob false 0 4 every_second] in
  exists c1 c2 c3 k, setup (InitJobs true 2) c0 = Ok (E_OK, c1) /\ setup (AddJob false 0 1 every_second) c1 = Ok (E_OK, c2)
    /\ setup (AddJob false 0 4 every_second) c2 = Ok (E_FAIL, c3) /\ set_up xs c0 c3 /\ (0 < q_m (x_q c0))%nat
    /\ peek c3 LCron = Some (VCron (Some k)) /\ cr_used k = 1%nat /\ option_map j_flag (slot k 0) = Some 1.
Proof.
  eexists _, _, _, _. split; [vm_compute; reflexivity|]. split; [vm_compute; reflexivity|]. split; [vm_compute; reflexivity|]. split.
  { eapply su_call; [exact I|vm_compute; reflexivity|]. eapply su_call; [simpl; lia|vm_compute; reflexivity|]. eapply su_call; [simpl; lia|vm_compute; reflexivity|]. apply su_none. }
  split; [vm_compute; lia|]. split; [vm_compute; reflexivity|]. split; reflexivity.
Qed.
EX*)
