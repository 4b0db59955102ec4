(** freedom from undefined behaviour (C41). *)
From Verif Require Import DemoSafe.
From Verif Require Export SafeTask SafeApi.
(*IMPORT DemoSafe *)

Lemma L_start s : typed (s_ctx s) -> L (s_ctx s) s. Proof. intros T. split; auto. intros l _ _ _. reflexivity. Qed.
Lemma L_program c s : L c s -> same_program c (s_ctx s).
Proof. intros [A _] l P Q R. apply A; auto. Qed.
Lemma m_scans (U : ub -> Prop) E W c0 n : polite E W -> well_formed_ctx c0 -> (exact_program c0 \/ forall u, arithmetic u -> U u) -> (forall i, calendar (wall E i)) ->
  forall (Q : unit -> st -> Prop) s, L c0 s -> (forall s', L c0 s' -> Q tt s') -> wp U (many_scans E n) Q s.
Proof.
  intros HP H0 HX HC. induction n as [|n IH]; intros Q s F H; simpl; [apply wp_ret; auto|]. apply wp_bind.
  apply (l_scan U E W c0 HP H0 HX); auto.
Qed.
Lemma wp_result {A} U (m : M A) P s : wp U m P s -> (exists a s', m s = Ok (a, s') /\ P a s') \/ exists u, m s = Bad u /\ U u.
Proof. unfold wp, wpr. destruct (m s) as [[a s']| |]; intros H; [left|right|contradiction]; eauto. Qed.

(** ** C41 *)

(** C41: on a well-formed machine, any number of scans runs without null pointers, accesses outside arrays, traps or endless
    loops, and leaves the machine well formed with the same program. The only undefined behaviour left is arithmetic:
    overflow, division by zero, shift count, float conversion. *)
Lemma C41_scans_l : forall E W n s, polite E W -> (forall k, calendar (wall E k)) -> well_formed_ctx (s_ctx s) ->
  (exists s', many_scans E n s = Ok (tt, s') /\ well_formed_ctx (s_ctx s') /\ same_program (s_ctx s) (s_ctx s'))
  \/ exists u, many_scans E n s = Bad u /\ arithmetic u.
Proof.
  intros E W n s HP HC H0. destruct (wp_result arithmetic (many_scans E n) (fun _ s' => L (s_ctx s) s') s) as [([] & s' & A & B)|B]; auto.
  - apply (m_scans arithmetic E W (s_ctx s)); auto. apply L_start, wc_typed; auto.
  - left. exists s'. split; auto. split; [exact (W_wf _ _ H0 B)|now apply L_program].
Qed.
(** C41: if moreover the program's arithmetic is defined for all numbers its operands can have, nothing at all is undefined. *)
Lemma C41_scans_exact_l : forall E W n s, polite E W -> (forall k, calendar (wall E k)) -> well_formed_ctx (s_ctx s) -> exact_program (s_ctx s) ->
  exists s', many_scans E n s = Ok (tt, s') /\ well_formed_ctx (s_ctx s') /\ exact_program (s_ctx s') /\ same_program (s_ctx s) (s_ctx s').
Proof.
  intros E W n s HP HC H0 HX. destruct (wp_result (fun _ => False) (many_scans E n) (fun _ s' => L (s_ctx s) s') s) as [([] & s' & A & B)|(u & _ & [])]; auto.
  - apply (m_scans _ E W (s_ctx s)); auto. apply L_start, wc_typed; auto.
  - exists s'. split; auto. split; [exact (W_wf _ _ H0 B)|]. split; [exact (W_exact_all _ _ B HX)|now apply L_program].
Qed.
(** C41: the same for the task, however long it runs and however it ends. *)
Lemma C41_task_l : forall E W n s, behaved E W -> well_formed_ctx (s_ctx s) -> tables_ok (s_ctx s) ->
  (exists r s', ladder_task E n s = Ok (r, s') /\ well_formed_ctx (s_ctx s') /\ tables_ok (s_ctx s') /\ same_program (s_ctx s) (s_ctx s'))
  \/ exists u, ladder_task E n s = Bad u /\ arithmetic u.
Proof.
  intros E W n s HB H0 HT. assert (AD : arithmetic UB_div) by (unfold arithmetic; simpl; auto).
  destruct (wp_result arithmetic (ladder_task E n) (fun _ s' => G arithmetic (s_ctx s) 0 s') s) as [(r & s' & A & B)|B]; auto.
  - apply (t_task arithmetic E W (s_ctx s) HB H0 HT) with (k := 0); auto.
    + intros x s' [F1 F2]. split; auto.
    + split; [apply L_start, wc_typed; auto|auto].
  - left. exists r, s'. split; auto. split; [exact (G_wf _ _ H0 _ _ B)|]. split; [|apply L_program, B].
    unfold tables_ok in *. rewrite (L_meta (s_ctx s) s'); [exact HT|apply B|exact I].
Qed.
(** C41: with exact arithmetic the task runs without any undefined behaviour until the 32-bit counter of cycles wraps; then the
    average scan time is a division by zero. *)
Lemma C41_task_exact_l : forall E W n s, behaved E W -> (forall ev, ~ W ev LStats) -> well_formed_ctx (s_ctx s) -> exact_program (s_ctx s) -> tables_ok (s_ctx s) ->
  0 <= measured (s_ctx s) ->
  (exists r s', ladder_task E n s = Ok (r, s') /\ well_formed_ctx (s_ctx s') /\ exact_program (s_ctx s') /\ same_program (s_ctx s) (s_ctx s'))
  \/ (ladder_task E n s = Bad UB_div /\ 2 ^ 32 <= measured (s_ctx s) + Z.of_nat n).
Proof.
  intros E W n s HB HS H0 HX HT HM. set (U := fun u => u = UB_div /\ 2 ^ 32 <= measured (s_ctx s) + Z.of_nat n).
  assert (KK : U UB_div \/ measured (s_ctx s) + Z.of_nat n < 2 ^ 32) by (unfold U; destruct (Z_lt_ge_dec (measured (s_ctx s) + Z.of_nat n) (2 ^ 32)); [right; lia|left; split; auto; lia]).
  destruct (wp_result U (ladder_task E n) (fun _ s' => L (s_ctx s) s') s) as [(r & s' & A & B)|(u & A & B & C)].
  - eapply (t_task U E W (s_ctx s) HB H0 HT); auto.
    + exact KK.
    + intros x s' [F1 F2]. exact F1.
    + split; [apply L_start, wc_typed; auto|]. right. unfold cnt, measured in *. simpl in *. lia.
  - left. exists r, s'. split; auto. split; [exact (W_wf _ _ H0 B)|]. split; [exact (W_exact_all _ _ B HX)|now apply L_program].
  - right. subst u. auto.
Qed.
(*EX
(** A machine with contacts, a timer, a counter, arithmetic, an edge contact, coils and a real that is moved. *)
Definition safe_rows : list (list cell) :=
  [[cellv I_NO [V R_I 0]; cellv I_TON [V R_T 1; V R_M 5]; cellv I_COIL [V R_Q 0]];
   [cellv I_RE [V R_I 256]; cellv I_MULTI []; cellv I_NOP []];
   [cellv I_NC [V R_M 1]; cellv I_ADD [V R_M 0; V R_NONE 7; V R_D 2]; cellv I_COILL [V R_M 3]];
   [cellv I_NOP []; cellv I_CTU [V R_C 2; V R_NONE 3]; cellv I_NOP []];
   [cellv I_NOP []; cellv I_MULTI []; cellv I_MOVE [V R_R 0; V R_R 1]]].
Definition safe_machine : ctx := demo_task safe_rows.
Definition busy : env := task_env (fun k => Z.of_nat k) (fun k i => Z.of_nat (Nat.modulo (k + i) 2)) (fun _ => None).
Lemma busy_behaved : behaved busy task_w.
Proof.
  apply task_behaved. intros k i. pose proof (Nat.mod_upper_bound (k + i) 2 ltac:(lia)). lia.
Qed.
Example C41_example_hypotheses :
  behaved busy task_w /\ (forall ev, ~ task_w ev LStats) /\ well_formed_ctx safe_machine /\ exact_program safe_machine /\ tables_ok safe_machine /\ measured safe_machine = 0.
Proof.
  split; [apply busy_behaved|]. split; [apply task_tame|]. split; [apply wfb_ok; vm_compute; reflexivity|]. split; [apply exactb_ok; vm_compute; reflexivity|].
  split; [apply tablesb_ok; vm_compute; reflexivity|reflexivity].
Qed.
Example C41_example_run : exists s', ladder_task busy 5 (start safe_machine) = Ok (Running, s') /\ length (s_tr s') = 120%nat.
Proof. eexists. split; [vm_compute; reflexivity|]. vm_compute. reflexivity. Qed.
(** The condition on arithmetic is needed: the sum of two data registers can overflow. *)
Definition overflowing : ctx := demo_task [[cellv I_NO [V R_M 0]; cellv I_ADD [V R_D 2; V R_D 0; V R_D 3]]].
Example C41_example_overflow : well_formed_ctx overflowing /\ ladder_scan busy (start overflowing) = Bad UB_overflow.
Proof. split; [apply wfb_ok; vm_compute; reflexivity|vm_compute; reflexivity]. Qed.
(** The counter of cycles wraps. *)
Definition old_machine : ctx := set_x_si (mk_scanint 0 0 1000 0 0 0 0 0 (2 ^ 32 - 1) false) safe_machine.
Example C41_example_wrap : well_formed_ctx old_machine /\ exact_program old_machine /\ ladder_task busy 1 (start old_machine) = Bad UB_div.
Proof. split; [apply wfb_ok; vm_compute; reflexivity|]. split; [apply exactb_ok; vm_compute; reflexivity|vm_compute; reflexivity]. Qed.
EX*)

(** C41, machines built with the library: after a successful initialisation and any sequence of calls that register modules,
    foreign functions and cron jobs, place instructions, or clear memory or program, whatever their outcome, the machine is
    well formed; it stays so when operands are entered, networks enabled, and hooks and state set, provided the program is in order. Then the task
    runs any number of cycles as above. *)
Lemma C41_built_l : forall alloc a c0 c1 E s c' E' W n tr, ctx_init alloc a c0 = (true, c1) -> a_init a = true ->
  Z.of_nat (a_nets a) <= 2 ^ 32 -> Z.of_nat (a_m a) <= 2 ^ 32 -> sound_init E -> polite_foreign E -> built E (start c1) s ->
  entered (s_ctx s) c' -> program_ok c' -> behaved E' W ->
  well_formed_ctx (s_ctx s) /\ all_disabled (s_ctx s) /\ well_formed_ctx c' /\ tables_ok c'
  /\ ((exists r s', ladder_task E' n (mk_st c' tr) = Ok (r, s') /\ well_formed_ctx (s_ctx s') /\ same_program c' (s_ctx s'))
      \/ exists u, ladder_task E' n (mk_st c' tr) = Bad u /\ arithmetic u).
Proof.
  intros alloc a c0 c1 E s c' E' W n tr HI AI NQ MQ SI PF B EN PO BE. pose proof (conf_init _ _ _ _ HI AI NQ MQ) as K.
  pose proof (conf_built E _ _ SI PF B K) as K2. destruct (conf_entered _ _ K2 EN PO) as [W1 T1].
  split; [now apply conf_wf|]. split; [apply K2|]. split; auto. split; auto.
  destruct (C41_task_l E' W n (mk_st c' tr) BE W1 T1) as [(r & s' & A & A1 & _ & A2)|A]; [left; eauto|auto].
Qed.
(*EX
(* One network of 2 x 2 cells; the initialisation function of modules makes two digital ports and one analog port. *)
Definition build_args : init_args := mk_init_args 2 2 1 4 2 2 2 2 1 500 true false 1000 20.
Definition port_in : inmod := mk_inmod 7 2 1 (Some [0; 0]) (Some [0]) (Some [0; 0]) (Some [0]).
Definition port_out : outmod := mk_outmod 8 2 1 (Some [0; 0]) (Some [0]) (Some [0; 0]) (Some [0]).
Definition init_act (ev : event) (c : ctx) : ctx :=
  match ev with
  | EvInitRead m true => set_x_in (option_map (fun l => lset l m port_in) (x_in c)) c
  | EvInitWrite m true => set_x_out (option_map (fun l => lset l m port_out) (x_out c)) c
  | _ => c
  end.
Definition init_env : env := mk_env (clk quiet_env) (fun _ => init_act) (fexec quiet_env) (wall quiet_env) (fun _ => true) (fun _ d => (true, d)).
Lemma elem_lset {A} (p : option (list A)) m x k : elem (option_map (fun l => lset l m x) p) k = if Nat.eq_dec k m then option_map (fun _ => x) (elem p m) else elem p k.
Proof.
  destruct p as [l|]; simpl; [|now destruct (Nat.eq_dec k m)]. destruct (Nat.eq_dec k m) as [->|D]; [|apply nth_lset_other; auto].
  destruct (nth_error l m) as [y|] eqn:Y; simpl; [apply nth_lset_same; apply nth_error_Some; congruence|]. apply nth_error_None in Y. apply nth_error_None. rewrite lset_length. auto.
Qed.
Lemma size_lset {A} (p : option (list A)) m x : size (option_map (fun l => lset l m x) p) = size p.
Proof. destruct p; simpl; auto. now rewrite lset_length. Qed.
Lemma init_sound : sound_init init_env.
Proof.
  constructor.
  - split; intros k m b c l L; destruct b; try reflexivity.
    + destruct l; try reflexivity; simpl; rewrite ?elem_lset, ?size_lset; auto; destruct (Nat.eq_dec _ m) as [->|]; auto; exfalso; apply L; unfold in_place; eauto.
    + destruct l; try reflexivity; simpl; rewrite ?elem_lset, ?size_lset; auto; destruct (Nat.eq_dec _ m) as [->|]; auto; exfalso; apply L; unfold out_place; eauto.
  - intros k m b c T. destruct b; [|split; exact T]. split; intros l z Z; destruct l; try (apply T; exact Z); try exact I; unfold holds in Z; simpl in Z; rewrite elem_lset in Z;
      (destruct (Nat.eq_dec _ m) as [->|D]; [|apply T; exact Z]).
    + destruct (elem (x_in c) m); [|discriminate]. simpl in Z. destruct k0; destruct i as [|[|i]]; simpl in Z; try destruct i; try discriminate; injection Z as <-; unfold typed_at, fits; lia.
    + destruct (elem (x_out c) m); [|discriminate]. simpl in Z. destruct k0; destruct i as [|[|i]]; simpl in Z; try destruct i; try discriminate; injection Z as <-; unfold typed_at, fits; lia.
  - intros k m c _ [P _] c'. exists 7, 2%nat, 1%nat. subst c'. simpl in P. destruct (elem (x_in c) m) as [y|] eqn:Y; [|simpl in P; congruence].
    assert (K : elem (x_in (act init_env k (EvInitRead m true) c)) m = Some port_in)
      by (simpl x_in; rewrite elem_lset; destruct (Nat.eq_dec m m); [now rewrite Y|congruence]).
    split; [unfold peek; rewrite K; reflexivity|]. intros q. right. unfold peek. rewrite K. destruct q; eexists; (split; [reflexivity|simpl; lia]).
  - intros k m c _ [P _] c'. exists 8, 2%nat, 1%nat. subst c'. simpl in P. destruct (elem (x_out c) m) as [y|] eqn:Y; [|simpl in P; congruence].
    assert (K : elem (x_out (act init_env k (EvInitWrite m true) c)) m = Some port_out)
      by (simpl x_out; rewrite elem_lset; destruct (Nat.eq_dec m m); [now rewrite Y|congruence]).
    split; [unfold peek; rewrite K; reflexivity|]. intros q. right. unfold peek. rewrite K. destruct q; eexists; (split; [reflexivity|simpl; lia]).
Qed.
Definition c_init : ctx := snd (ctx_init (fun _ => true) build_args garbage).
Definition after {A} (m : M A) (s : st) : st := match m s with Ok (_, s') => s' | _ => s end.
Definition placing (n r col : nat) (f : ins) (s : st) : st := match fn_cell true n r col f 0 (s_ctx s) with Ok (_, c) => mk_st c (s_tr s) | _ => s end.
Definition b1 := after (add_read_fn init_env (fun _ => true) true true) (start c_init).
Definition b2 := after (add_write_fn init_env (fun _ => true) true true) b1.
Definition b3 := placing 0 0 0 I_NO b2.
Definition b4 := placing 0 0 1 I_COIL b3.
Definition b5 := placing 0 1 0 I_TON b4.     (* refused: there is no row for its second cell *)
Definition calling (x : setup_call) (s : st) : st := match setup x (s_ctx s) with Ok (_, c) => mk_st c (s_tr s) | _ => s end.
Definition b6 := calling (InitJobs true 1) b5.
Definition b7 := calling (AddJob true 0 1 [42; 32; 42; 32; 42; 32; 42; 32; 42; 32; 42; 32; 42]) b6.     (* "* * * * * * *" *)
Lemma step_cell E alloc n r col f b s s' : f <> I_FOREIGN -> fn_cell alloc n r col f 0 (s_ctx s) = Ok (b, s_ctx s') -> s_tr s' = s_tr s -> build_call E s s'.
Proof. intros F H K. destruct s' as [c' t']. simpl in *. subst t'. eapply bc_cell; eauto. congruence. Qed.
Lemma step_cron E x e s s' : u32_call x -> setup x (s_ctx s) = Ok (e, s_ctx s') -> s_tr s' = s_tr s -> build_call E s s'.
Proof. intros F H K. destruct s' as [c' t']. simpl in *. subst t'. eapply bc_cron; eauto. Qed.
Example C41_building : built init_env (start c_init) b7.
Proof.
  refine (bt_call _ _ b1 _ _ _); [refine (bc_read init_env (fun _ => true) true true true _ _ _); vm_compute; reflexivity|].
  refine (bt_call _ _ b2 _ _ _); [refine (bc_write init_env (fun _ => true) true true true _ _ _); vm_compute; reflexivity|].
  refine (bt_call _ _ b3 _ _ _); [apply (step_cell init_env true 0 0 0 I_NO true); [discriminate|vm_compute; reflexivity|vm_compute; reflexivity]|].
  refine (bt_call _ _ b4 _ _ _); [apply (step_cell init_env true 0 0 1 I_COIL true); [discriminate|vm_compute; reflexivity|vm_compute; reflexivity]|].
  refine (bt_call _ _ b5 _ _ _); [apply (step_cell init_env true 0 1 0 I_TON false); [discriminate|vm_compute; reflexivity|vm_compute; reflexivity]|].
  refine (bt_call _ _ b6 _ _ _); [apply (step_cron init_env (InitJobs true 1) E_OK); [exact I|vm_compute; reflexivity|vm_compute; reflexivity]|].
  refine (bt_call _ _ b7 _ _ _); [apply (step_cron init_env (AddJob true 0 1 [42; 32; 42; 32; 42; 32; 42; 32; 42; 32; 42; 32; 42]) E_OK); [simpl; lia|vm_compute; reflexivity|vm_compute; reflexivity]|].
  apply bt_none.
Qed.
(* Input port 1 of module 0 drives output port 0. *)
Definition entered_nets : option (list network) :=
  Some [mk_network true 2 2 (Some [[cellv I_NO [V R_I 256]; cellv I_COIL [V R_Q 0]]; [cell0; cell0]])].
Definition ready_machine : ctx :=
  set_x_state S_RUNNING (set_x_h (mk_hooks true true true true true true true true) (set_x_net entered_nets (s_ctx b7))).
Definition same_cell (x y : cell) : Prop := c_state y = c_state x /\ c_bar y = c_bar x /\ c_code y = c_code x /\ c_dq y = c_dq x /\ size (c_data y) = size (c_data x).
Definition same_net (a b : network) : Prop := n_rows b = n_rows a /\ n_cols b = n_cols a /\
  match n_cells a, n_cells b with Some l, Some l' => Forall2 (Forall2 same_cell) l l' | None, None => True | _, _ => False end.
Lemma two_length {A} (R : A -> A -> Prop) l l' : Forall2 R l l' -> length l = length l'.
Proof. induction 1; simpl; auto. Qed.
Lemma nth_two {A} (R : A -> A -> Prop) l l' i : Forall2 R l l' ->
  match nth_error l i, nth_error l' i with Some x, Some y => R x y | None, None => True | _, _ => False end.
Proof. intros F. revert i. induction F; intros i; destruct i; simpl; auto. apply IHF. Qed.
Lemma enter_ok c l l' : x_net c = Some l -> Forall2 same_net l l' -> entered c (set_x_net (Some l') c).
Proof.
  intros X F. assert (NT : forall n, match net_of c n, net_of (set_x_net (Some l') c) n with Some a, Some b => same_net a b | None, None => True | _, _ => False end).
  { intros n. unfold net_of. rewrite X. simpl. apply (nth_two _ _ _ n F). }
  assert (RW : forall n r, match row_of c n r, row_of (set_x_net (Some l') c) n r with Some a, Some b => Forall2 same_cell a b | None, None => True | _, _ => False end).
  { intros n r. specialize (NT n). unfold row_of. destruct (net_of c n) as [a|], (net_of (set_x_net (Some l') c) n) as [b|]; simpl; try contradiction; auto.
    destruct NT as (_ & _ & K). unfold elem. destruct (n_cells a), (n_cells b); simpl; try contradiction; auto. apply (nth_two _ _ _ r K). }
  assert (CL : forall n r col, match cell_of c n r col, cell_of (set_x_net (Some l') c) n r col with Some a, Some b => same_cell a b | None, None => True | _, _ => False end).
  { intros n r col. specialize (RW n r). unfold cell_of. destruct (row_of c n r), (row_of (set_x_net (Some l') c) n r); simpl; try contradiction; auto. apply (nth_two _ _ _ col RW). }
  split.
  - intros p L. destruct p; try reflexivity; try (destruct L; exact I); unfold peek.
    + specialize (CL n r col). destruct (cell_of c n r col), (cell_of (set_x_net _ _) n r col); try contradiction; auto. destruct CL as (A & _). simpl. now rewrite A.
    + specialize (CL n r col). destruct (cell_of c n r col), (cell_of (set_x_net _ _) n r col); try contradiction; auto. destruct CL as (_ & A & B & C & _). simpl. now rewrite A, B, C.
    + specialize (CL n r col). destruct (cell_of c n r col), (cell_of (set_x_net _ _) n r col); try contradiction; auto. destruct CL as (_ & _ & _ & _ & A). simpl. now rewrite A.
    + specialize (RW n r). destruct (row_of c n r), (row_of (set_x_net _ _) n r); try contradiction; auto. simpl. apply two_length in RW. now rewrite RW.
    + specialize (NT n). destruct (net_of c n) as [a|], (net_of (set_x_net _ _) n) as [b|]; try contradiction; auto. destruct NT as (_ & _ & A). simpl.
      destruct (n_cells a), (n_cells b); try contradiction; auto. simpl. apply two_length in A. now rewrite A.
    + rewrite X. simpl. apply two_length in F. now rewrite F.
  - intros n en rows cols. unfold peek. specialize (NT n). destruct (net_of c n) as [a|], (net_of (set_x_net _ _) n) as [b|]; try contradiction; try discriminate.
    destruct NT as (A & B & _). simpl. intros [= <- <- <-]. rewrite A, B. eauto.
Qed.
Lemma entered_more c c1 h x : entered c c1 -> entered c (set_x_state x (set_x_h h c1)).
Proof.
  assert (K : forall l, l <> LHooks -> l <> LState -> peek (set_x_state x (set_x_h h c1)) l = peek c1 l) by (intros l N1 N2; destruct l; try reflexivity; congruence).
  intros [A B]. split.
  - intros l L. rewrite K; [now apply A|intros ->|intros ->]; apply L; exact I.
  - intros n en rows cols H. rewrite K by discriminate. eauto.
Qed.
Lemma ready_net : exists l, x_net (s_ctx b7) = Some l /\ Forall2 same_net l
   [mk_network true 2 2 (Some [[cellv I_NO [V R_I 256]; cellv I_COIL [V R_Q 0]]; [cell0; cell0]])].
Proof. eexists. split; [vm_compute; reflexivity|]. unfold same_net, same_cell. repeat (constructor; simpl). Qed.
Example C41_entering : entered (s_ctx b7) ready_machine /\ program_ok ready_machine.
Proof.
  split.
  - destruct ready_net as (l & A & B). exact (entered_more _ _ _ _ (enter_ok _ _ _ A B)).
  - intros n rows cols r col SC R L. split; [|apply cell_safeb_ok; exact (each_cell_ok (cell_safeb ready_machine) ready_machine _ _ _ _ _ ltac:(vm_compute; reflexivity) SC R L)].
    destruct (cellsb_ok ready_machine ltac:(vm_compute; reflexivity) n (proj1 SC)) as (en & rows' & cols' & A & _ & B). rewrite (proj2 SC) in A. injection A as <- <- <-.
    destruct (B r col R L) as (br & i & dq & C & D & _). unfold code_at. rewrite C. auto.
Qed.
Example C41_built_run : exists s', ladder_task busy 3 (start ready_machine) = Ok (Running, s') /\ well_formed_ctx (s_ctx s').
Proof.
  destruct C41_entering as [A B].
  destruct (C41_built_l (fun _ => true) build_args garbage c_init init_env b7 ready_machine busy task_w 3 []) as (_ & _ & _ & _ & [(r & s' & K & W & _)|(u & K & _)]); auto.
  - simpl. lia.
  - simpl. lia.
  - exact init_sound.
  - intros k ev c H. destruct ev; try contradiction; reflexivity.
  - exact C41_building.
  - exact busy_behaved.
  - exists s'. split; auto. unfold start. rewrite K. f_equal. f_equal. assert (Q : match ladder_task busy 3 (start ready_machine) with Ok (q, _) => Some q | _ => None end = Some Running) by (vm_compute; reflexivity).
    unfold start in Q. rewrite K in Q. congruence.
  - exfalso. assert (Q : match ladder_task busy 3 (start ready_machine) with Ok (q, _) => true | _ => false end = true) by (vm_compute; reflexivity).
    unfold start in Q. rewrite K in Q. discriminate.
Qed.
EX*)
