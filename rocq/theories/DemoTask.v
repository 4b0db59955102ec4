(** Concrete task contexts and environments for the examples, with procedures deciding the hypotheses. *)
From Verif Require Export DemoScan SpecTask.

(** ** An environment with inputs that change *)

Fixpoint nth_map {A} (f : A -> A) (n : nat) (l : list A) : list A :=
  match l, n with [], _ => [] | x :: t, O => f x :: t | x :: t, S k => x :: nth_map f k t end.
Definition feed_in (z : nat -> Z) (m : inmod) : inmod := set_i_I (option_map (fun l => map z (seq 0 (length l))) (i_I m)) m.
(** The read function of module [n] called as call number [k] sets digital input [i] of the module to [ins k i]; the delay
    function or the hook before a cycle called as call number [k] sets the state to [req k] if there is one. *)
Definition task_act (ins : nat -> nat -> Z) (req : nat -> option lstate) (k : nat) (ev : event) (c : ctx) : ctx :=
  match ev with
  | EvRead n => set_x_in (option_map (nth_map (feed_in (ins k)) n) (x_in c)) c
  | EvDelay _ | EvBefore => match req k with Some u => set_x_state u c | None => c end
  | _ => c
  end.
Definition task_env (clock : nat -> Z) (ins : nat -> nat -> Z) (req : nat -> option lstate) : env :=
  mk_env clock (task_act ins req) (fun _ _ _ _ c => (E_OK, c)) (fun _ => mk_tm 0 0 0 1 0 0 120) (fun _ => true) (fun _ d => (true, d)).
Definition task_w (ev : event) (l : loc) : Prop :=
  match ev with EvRead n => exists i, l = LIn n K_I i | EvDelay _ | EvBefore => l = LState | _ => False end.

Lemma nth_map_nth {A} (f : A -> A) n l m : nth_error (nth_map f n l) m = if Nat.eqb m n then option_map f (nth_error l m) else nth_error l m.
Proof. revert n m. induction l as [|x l IH]; intros [|n] [|m]; simpl; auto. now destruct (Nat.eqb _ _). Qed.
Lemma nth_map_length {A} (f : A -> A) n l : length (nth_map f n l) = length l.
Proof. revert n. induction l; intros [|n]; simpl; auto. Qed.
Lemma feed_changes z n c : changes_only c (set_x_in (option_map (nth_map (feed_in z) n) (x_in c)) c) (fun l => exists i, l = LIn n K_I i).
Proof.
  intros l K. destruct l; try reflexivity; unfold peek; cbn [x_in set_x_in].
  all: destruct (x_in c) as [l|]; simpl; auto; try (now rewrite nth_map_length).
  all: rewrite nth_map_nth; destruct (Nat.eqb_spec m n) as [->|]; auto.
  all: destruct (nth_error l n) as [x|]; simpl; auto.
  all: destruct k; simpl; auto.
  - destruct K. eauto.
  - unfold feed_in. simpl. destruct (i_I x); simpl; auto. now rewrite map_length, seq_length.
Qed.
Lemma state_changes u c : changes_only c (set_x_state u c) (fun l => l = LState).
Proof. intros p K. destruct p; try reflexivity. now destruct K. Qed.
Lemma task_callbacks clock ins req : callbacks (task_env clock ins req) task_w.
Proof.
  constructor.
  - intros k ev c. destruct ev; simpl; try apply changes_refl.
    + destruct (req k) as [u|]; [|apply changes_refl]. apply state_changes.
    + destruct (req k) as [u|]; [|apply changes_refl]. apply state_changes.
    + apply feed_changes.
  - intros. simpl. apply changes_refl.
  - intros ev l K. destruct ev; simpl in K; try contradiction; [subst l|subst l|destruct K as (i & ->)]; simpl; auto.
Qed.
Lemma task_tame : tame task_w.
Proof.
  constructor.
  - intros ev h (l & P) K. destruct ev; simpl in K; try contradiction; [subst h|subst h|destruct K as (i & ->)];
    destruct l; simpl in P; repeat match type of P with match ?x with _ => _ end = _ => destruct x end; discriminate.
  - intros ev K. destruct ev; simpl in K; try contradiction; [| |destruct K as (i & K)]; discriminate.
  - intros ev l P K. destruct ev; simpl in K; try contradiction; [subst l; contradiction|subst l; contradiction|destruct K as (i & ->)]. left. eauto.
Qed.

(** ** Deciding [task_ready] and [cycle_ready] *)

Definition sizedb (n : nat) (p : arr) : bool := match p with Some l => (n <=? length l)%nat | None => true end.
Definition filledb (n : nat) (p : option (list bool)) : bool :=
  forallb (fun i => match elem p i with Some true => true | _ => false end) (seq 0 n).
Definition outsb (c : ctx) : bool :=
  match x_out c with
  | None => true
  | Some l => forallb (fun m => match nth_error l m with
      | Some x => sizedb (o_qq x) (o_Q x) && sizedb (o_qq x) (o_Qh x) && sizedb (o_qwq x) (o_QW x) && sizedb (o_qwq x) (o_QWh x)
      | None => false end) (seq 0 (io_wq (x_io c)))
  end.
Definition insb (c : ctx) : bool :=
  match x_in c with
  | None => true
  | Some l => forallb (fun m => match nth_error l m with
      | Some x => sizedb (i_iq x) (i_I x) && sizedb (i_iq x) (i_Ih x) && sizedb (i_iwq x) (i_IW x) && sizedb (i_iwq x) (i_IWh x)
      | None => false end) (seq 0 (io_rq (x_io c)))
  end.
Definition task_readyb (c : ctx) : bool :=
  h_millis (x_h c) && h_delay (x_h c)
  && forallb (fun b => arr_okb (bank_arr b c) (bank_qty b (x_q c))) banks
  && (match x_tm c with Some l => (q_t (x_q c) <=? length l)%nat | None => false end)
  && outsb c && insb c && filledb (io_rq (x_io c)) (io_rd (x_io c)) && filledb (io_wq (x_io c)) (io_wr (x_io c))
  && ((io_rq (x_io c) =? 0)%nat || negb (is_null (x_in c))) && ((io_wq (x_io c) =? 0)%nat || negb (is_null (x_out c)))
  && (match x_net c with Some l => Z.of_nat (length l) <=? 2 ^ 32 | None => true end).
Lemma sizedb_ok n (p : arr) : sizedb n p = true -> option_map (fun l => VN (length l)) p = None \/ exists k, option_map (fun l => VN (length l)) p = Some (VN k) /\ (n <= k)%nat.
Proof. unfold sizedb. destruct p as [l|]; simpl; [|auto]. right. exists (length l). split; auto. now apply Nat.leb_le. Qed.
Lemma filledb_ok n p : filledb n p = true -> filled n p.
Proof.
  intros H i L. unfold filledb in H. rewrite forallb_forall in H. specialize (H i). rewrite in_seq in H. specialize (H ltac:(lia)).
  destruct (elem p i) as [[]|]; auto; discriminate.
Qed.
Lemma task_readyb_ok c : task_readyb c = true -> task_ready c.
Proof.
  unfold task_readyb. rewrite !andb_true_iff. intros ((((((((((A & A') & B) & C) & D) & F) & G) & G') & K) & K') & L).
  assert (L' : forall k, peek c LNets = Some (VN k) -> Z.of_nat k <= 2 ^ 32).
  { unfold peek. intros k P. destruct (x_net c) as [l|]; [|discriminate]. injection P as <-. now apply Z.leb_le. }
  constructor; [..|exact L']; clear L L'.
  - exists (x_h c). auto.
  - split.
    + intros b. rewrite forallb_forall in B. specialize (B b). assert (I : In b banks) by (destruct b; simpl; auto 20). specialize (B I). unfold arr_okb in B.
      unfold peek. destruct (bank_arr b c) as [l|]; [|discriminate]. exists (length l). split; auto. now apply Nat.leb_le.
    + unfold peek. destruct (x_tm c) as [l|]; [|discriminate]. exists (length l). split; auto. now apply Nat.leb_le.
  - unfold outs_sized, outsb in *. unfold peek at 1. destruct (x_out c) as [l|] eqn:X; [right|left; auto]. intros m M. rewrite forallb_forall in D. specialize (D m).
    rewrite in_seq in D. specialize (D ltac:(simpl; clear - M; lia)). unfold peek. rewrite X. simpl. destruct (nth_error l m) as [x|]; [|discriminate].
    rewrite !andb_true_iff in D. destruct D as (((D1 & D2) & D3) & D4). do 3 eexists. split; [reflexivity|]. intros k. destruct k; simpl; apply sizedb_ok; assumption.
  - unfold ins_sized, insb in *. unfold peek at 1. destruct (x_in c) as [l|] eqn:X; [right|left; auto]. intros m M. rewrite forallb_forall in F. specialize (F m).
    rewrite in_seq in F. specialize (F ltac:(simpl; clear - M; lia)). unfold peek. rewrite X. simpl. destruct (nth_error l m) as [x|]; [|discriminate].
    rewrite !andb_true_iff in F. destruct F as (((D1 & D2) & D3) & D4). do 3 eexists. split; [reflexivity|]. intros k. destruct k; simpl; apply sizedb_ok; assumption.
  - exists (x_io c). split; auto. split; [now apply filledb_ok|]. split; [now apply filledb_ok|]. unfold peek. split; intros Q.
    + destruct (x_in c); [discriminate|]. apply orb_prop in K as [K|K]; [|discriminate]. apply Nat.eqb_eq in K. clear - K Q. lia.
    + destruct (x_out c); [discriminate|]. apply orb_prop in K' as [K'|K']; [|discriminate]. apply Nat.eqb_eq in K'. clear - K' Q. lia.
Qed.
Lemma task_scan_ready clock ins req c : readyb c = true -> scan_ready (task_env clock ins req) (during_scan task_w) c (si_maxcyc (x_si c)).
Proof.
  intros R. destruct (readyb_ok c clock R) as [_ _ _ B C D F G H]. constructor; auto.
  - split; [|intros; simpl; apply changes_refl]. intros k ev x S. destruct ev; simpl in S; try contradiction; simpl; apply changes_refl.
  - intros l (ev & S & K). apply (cb_layout _ _ (task_callbacks clock ins req) ev l K).
  - intros l I (ev & S & K). destruct ev; simpl in S, K; try contradiction.
Qed.
Lemma cycle_readyb_ok clock ins req c : readyb c = true -> task_readyb c = true -> cycle_ready (task_env clock ins req) task_w c (si_maxcyc (x_si c)).
Proof. intros A B. constructor; [apply task_callbacks|apply task_tame|now apply task_readyb_ok|now apply task_scan_ready]. Qed.
Ltac decide_cycle := apply cycle_readyb_ok; vm_compute; reflexivity.

(** ** Contexts *)

Definition all_hooks : hooks := mk_hooks true true true true true true true true.
Definition demo_task (rows : list (list cell)) : ctx :=
  set_x_exec None (set_x_h all_hooks (demo rows)).
(** Histories equal to the current values. *)
Definition synced (c : ctx) : ctx :=
  set_x_prev (let m := x_mem c in mk_prev (m_M m) (m_Cr m) (m_Cd m) (m_Tr m) (m_Td m))
  (set_x_out (option_map (map (fun x => set_o_Qh (o_Q x) (set_o_QWh (o_QW x) x))) (x_out c)) c).
Definition one_cycle (E : env) (c : ctx) : option (tnext * st) := match cycle E (start c) with Ok r => Some r | _ => None end.

(** ** An environment in which the hook before each cycle requests a stop *)
Definition stop_env (clock : nat -> Z) : env :=
  mk_env clock (fun _ ev c => match ev with EvBefore => set_x_state S_EXIT_TSK c | _ => c end) (fun _ _ _ _ c => (E_OK, c))
    (fun _ => mk_tm 0 0 0 1 0 0 120) (fun _ => true) (fun _ d => (true, d)).
Definition stop_w (ev : event) (l : loc) : Prop := match ev with EvBefore => l = LState | _ => False end.
Lemma stop_ready clock c : readyb c = true -> task_readyb c = true -> cycle_ready (stop_env clock) stop_w c (si_maxcyc (x_si c)).
Proof.
  intros R T. constructor.
  - constructor.
    + intros k ev x. destruct ev; simpl; try apply changes_refl. apply state_changes.
    + intros. simpl. apply changes_refl.
    + intros ev l K. destruct ev; simpl in K; try contradiction. subst l; simpl; auto.
  - constructor.
    + intros ev h (l & P) K. destruct ev; simpl in K; try contradiction. subst h. destruct l; simpl in P; repeat match type of P with match ?x with _ => _ end = _ => destruct x end; discriminate.
    + intros ev K. destruct ev; simpl in K; try contradiction. discriminate.
    + intros ev l P K. destruct ev; simpl in K; try contradiction. subst l. now destruct P.
  - now apply task_readyb_ok.
  - destruct (readyb_ok c clock R) as [_ _ _ B C D F G H]. constructor; auto.
    + split; [|intros; simpl; apply changes_refl]. intros k ev x S. destruct ev; simpl in S; try contradiction; simpl; apply changes_refl.
    + intros l (ev & S & K). destruct ev; simpl in S, K; contradiction.
    + intros l I (ev & S & K). destruct ev; simpl in S, K; try contradiction.
Qed.

(** ** Runs and conditions of the examples about runs *)
Fixpoint cycles (E : env) (k : nat) (s : st) : option st :=
  match k with
  | O => Some s
  | S j => if lstate_eqb (x_state (s_ctx s)) S_RUNNING then match cycle E s with Ok (T_continue, s') => cycles E j s' | _ => None end else None
  end.
Lemma cycles_goes E W k s s' : cycles E k s = Some s' -> goes E W k s s'.
Proof.
  revert s. induction k as [|k IH]; intros s H; simpl in H.
  - injection H as ->. constructor.
  - destruct (lstate_eqb (x_state (s_ctx s)) S_RUNNING) eqn:R; [|discriminate]. destruct (cycle E s) as [[[] s1]| |] eqn:C; try discriminate.
    apply (go_cycle E W 0 k s s s1 s'); auto; [constructor|lia|]. unfold peek. destruct (x_state (s_ctx s)); try discriminate; reflexivity.
Qed.
(** The run of [k] cycles from [c]. *)
Definition ran (E : env) (k : nat) (c : ctx) : st := match cycles E k (start c) with Some s => s | None => start c end.
Definition in_timeb (c : ctx) (m : Z) : bool := forallb (fun n => cost c n <=? m) (seq 0 (q_nets (x_q c))).
Lemma in_timeb_ok c m : in_timeb c m = true -> in_time c m.
Proof. unfold in_timeb. rewrite forallb_forall. intros H n L. apply Z.leb_le, H. apply in_seq. lia. Qed.
Lemma synced_remembers rows : remembers (synced (demo_task rows)).
Proof.
  intros l h [(b & i & B & L & ->)|(m & id & qd & qa & i & M & MT & K)] P.
  - simpl in B. destruct b; simpl in P; try discriminate; injection P as <-; reflexivity.
  - destruct m as [|m]; [|vm_compute in M; lia]. destruct K as [(-> & _)|(-> & _)]; simpl in P; injection P as <-; reflexivity.
Qed.
(** No instruction of the program addresses input [k] of any module with a destination operand. *)
Definition input_unnamed (c : ctx) (n r col : nat) : bool :=
  match dest_operand (code_at c n r col) with
  | Some j => match peek c (LData n r col j) with
      | Some (VVal v) => match v_type v with R_I | R_IW => false | _ => true end
      | _ => true end
  | None => true
  end.
Lemma input_alone c m k i : on_cells c (input_unnamed c) = true -> ~ scan_writes c (LIn m k i).
Proof.
  intros OC [K|[(n & r & col & rows & cols & _ & K)|[(n & r & col & u & (rows & cols & bar & dq & SC & R & C & CE) & K)|K]]].
  - simpl in K. intuition discriminate.
  - discriminate.
  - destruct K as [(j & v & D & P & K)|[(_ & v & _ & _ & K)|[(_ & v & _ & _ & K)|(_ & n' & r' & col' & rows' & cols' & _ & K)]]]; try discriminate.
    + pose proof (on_cells_ok _ _ OC n rows cols r col SC R C) as U. unfold input_unnamed, code_at in U. rewrite CE, D, P in U.
      unfold target in K. destruct (v_type v); try discriminate; repeat match type of K with (if ?b then _ else _) = _ => destruct b | match ?b with _ => _ end = _ => destruct b end; discriminate.
    + simpl in K. intuition discriminate.
    + simpl in K. intuition discriminate.
  - unfold cron_flag in K. decompose [ex and] K. discriminate.
Qed.
