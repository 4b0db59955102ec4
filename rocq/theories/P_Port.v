(** the example port and the example foreign function (C62, C63). *)
From Verif Require Import DemoTask DemoSafe.
From Verif Require Export PortFacts P_Safe P_Call.
From Coq Require Import String.
Open Scope list_scope.
Open Scope Z_scope.
(*IMPORT DemoSafe *)
(*IMPORT DemoTask *)

(** ** C62 *)

(** A machine that is well formed and large enough runs safely with the port, without the panic handler: whatever the port would do where it
    is undefined in C does not matter, because no such call is made, and the task runs any number of cycles with the machine
    staying well formed, or ends in undefined arithmetic of the program. Missing: the panic handler, see C62_panic_refuted. *)
Lemma C62_task_partial_l : forall cron keys al tv now E n s, follows cron keys al tv now E -> (forall k, real_time (tv k)) -> (forall k, calendar (now k)) ->
  well_formed_ctx (s_ctx s) -> tables_ok (s_ctx s) -> port_fits cron (s_ctx s) -> h_panic (x_h (s_ctx s)) = false ->
  (exists r s', ladder_task E n s = Ok (r, s') /\ well_formed_ctx (s_ctx s') /\ same_program (s_ctx s) (s_ctx s'))
  \/ exists u, ladder_task E n s = Bad u /\ arithmetic u.
Proof.
  intros cron keys al tv now E n s F RT CA W0 T0 F0 PN.
  rewrite <- (C61_same_task_l (running cron keys al tv now) E n s (running_alike _ _ _ _ _ _ W0 F0 PN E F RT) (running_keeps _ _ _ _ _ _ W0 F0 PN)).
  destruct (C41_task_l _ _ n s (running_behaved cron keys al tv now CA) W0 T0) as [(r & s' & A & B & _ & D)|A]; [left; eauto|auto].
Qed.
(** What is undefined in C has no influence: two environments that follow the port run alike. *)
Lemma C62_same_partial_l : forall cron keys al tv now E E' n s, follows cron keys al tv now E -> follows cron keys al tv now E' -> (forall k, real_time (tv k)) ->
  well_formed_ctx (s_ctx s) -> port_fits cron (s_ctx s) -> h_panic (x_h (s_ctx s)) = false -> ladder_task E n s = ladder_task E' n s.
Proof.
  intros cron keys al tv now E E' n s F F' RT W0 F0 PN. transitivity (ladder_task (running cron keys al tv now) n s); [symmetry|];
    apply C61_same_task_l; eauto using running_keeps, running_alike.
Qed.
(** A machine made with ctx_init and built with the library, modules with the initialisation functions of the port, is well formed, and
    runs safely. *)
Lemma C62_built_partial_l : forall alloc a c0 c1 cron keys al tv now s c' keys' al' tv' E n tr, ctx_init alloc a c0 = (true, c1) -> a_init a = true ->
  Z.of_nat (a_nets a) <= 2 ^ 32 -> Z.of_nat (a_m a) <= 2 ^ 32 -> built (port_env cron keys al tv now) (start c1) s -> entered (s_ctx s) c' -> program_ok c' ->
  port_fits cron c' -> h_panic (x_h c') = false -> follows cron keys' al' tv' now E -> (forall k, real_time (tv' k)) -> (forall k, calendar (now k)) ->
  well_formed_ctx c' /\ ((exists r s', ladder_task E n (mk_st c' tr) = Ok (r, s') /\ well_formed_ctx (s_ctx s') /\ same_program c' (s_ctx s'))
                         \/ exists u, ladder_task E n (mk_st c' tr) = Bad u /\ arithmetic u).
Proof.
  intros alloc a c0 c1 cron keys al tv now s c' keys' al' tv' E n tr CI AI NQ MQ B EN PO PF PN F RT CA.
  destruct (C41_built_l alloc a c0 c1 _ s c' (running cron keys' al' tv' now) port_places n tr CI AI NQ MQ (port_sound cron keys al tv now) (port_foreign cron keys al tv now) B EN PO
    (running_behaved cron keys' al' tv' now CA)) as (_ & _ & W1 & T1 & _).
  split; auto. apply (C62_task_partial_l cron keys' al' tv' now E n (mk_st c' tr) F RT CA W1 T1 PF PN).
Qed.
(** A module added with the initialisation function of the port has eight digital and eight analog ports, all 0, and no history
    of its analog ports. *)
Lemma C62_adds_input_l : forall cron keys al tv now alloc fn s s', reads_wf (s_ctx s) -> let n := io_rq (x_io (s_ctx s)) in
  add_read_fn (port_env cron keys al tv now) alloc fn true s = Ok (true, s') ->
  peek (s_ctx s') (LInMeta n) = Some (VMeta 0 8 8) /\ peek (s_ctx s') (LInLen n K_IWh) = None
  /\ forall k, k <> K_IWh -> peek (s_ctx s') (LInLen n k) = Some (VN 8) /\ forall i, (i < 8)%nat -> holds (s_ctx s') (LIn n k i) 0.
Proof.
  intros cron keys al tv now alloc fn s s' W n H. destruct s as [c tr]. cbn [s_ctx] in *. destruct W as (W1 & _). subst n. set (n := io_rq (x_io c)) in *.
  unfold add_read_fn in H. destruct fn; cbn [negb] in H; [|discriminate]. unfold bind at 1, getc in H. cbn [s_ctx] in H. fold n in H.
  destruct (255 <=? n)%nat; [discriminate|]. destruct (alloc 0%nat); cbn [negb] in H; [|discriminate]. destruct (alloc 1%nat); cbn [negb] in H; [|discriminate].
  destruct (alloc 2%nat); cbn [negb] in H; [|discriminate]. unfold bind at 1, modc at 1 in H. cbn [s_ctx s_tr] in H.
  match type of H with _ (mk_st ?x _) = _ => set (c1 := x) in H end.
  assert (IM : elem (x_in c1) n = Some inmod0) by (change (x_in c1) with (grow n (x_in c) inmod0); now rewrite elem_grow_eq by auto).
  unfold bind at 1, call_init in H. cbn [s_tr] in H. unfold bind at 1, emit in H. cbn [s_ctx s_tr] in H. unfold ret at 1 in H.
  destruct (ext_ok (port_env cron keys al tv now) (List.length tr)) eqn:OK; [|unfold bind, modc, emit, set_err, ret in H; cbn [s_ctx s_tr] in H; discriminate].
  unfold bind, modc, ret in H. cbn [s_ctx s_tr] in H. injection H as <-. cbn [s_ctx]. cbn [ext_ok port_env] in OK. cbn [act port_env port_call].
  destruct (init_read_ok (al (List.length tr)) n true c1 _ IM) as (r & R). rewrite R. cbn [rbind]. destruct (init_read_inv _ _ _ _ _ R) as (im' & IM' & _ & ->). assert (im' = inmod0) by congruence. subst im'.
  rewrite OK. cbn [andb]. set (c2 := set_x_io _ _).
  assert (EL : elem (x_in c2) n = Some (mk_inmod 0 8 8 zeros8 zeros8 zeros8 None)) by (subst c2; cbn [x_in set_x_io set_x_in]; rewrite elem_put; destruct (Nat.eq_dec n n); [now rewrite IM|congruence]).
  clearbody c2. cbn [peek]. rewrite EL. split; [reflexivity|]. split; [reflexivity|]. intros k K. split; [destruct k; try reflexivity; congruence|].
  intros i L. unfold holds. cbn [peek]. rewrite EL. cbn [obind]. destruct i as [|[|[|[|[|[|[|[|i]]]]]]]]; [..|lia]; destruct k; try reflexivity; congruence.
Qed.
Lemma C62_adds_output_l : forall cron keys al tv now alloc fn s s', writes_wf (s_ctx s) -> let n := io_wq (x_io (s_ctx s)) in
  add_write_fn (port_env cron keys al tv now) alloc fn true s = Ok (true, s') ->
  peek (s_ctx s') (LOutMeta n) = Some (VMeta 0 8 8) /\ peek (s_ctx s') (LOutLen n K_QWh) = None
  /\ forall k, k <> K_QWh -> peek (s_ctx s') (LOutLen n k) = Some (VN 8) /\ forall i, (i < 8)%nat -> holds (s_ctx s') (LOut n k i) 0.
Proof.
  intros cron keys al tv now alloc fn s s' W n H. destruct s as [c tr]. cbn [s_ctx] in *. destruct W as (W1 & _). subst n. set (n := io_wq (x_io c)) in *.
  unfold add_write_fn in H. destruct fn; cbn [negb] in H; [|discriminate]. unfold bind at 1, getc in H. cbn [s_ctx] in H. fold n in H.
  destruct (255 <=? n)%nat; [discriminate|]. destruct (alloc 0%nat); cbn [negb] in H; [|discriminate]. destruct (alloc 1%nat); cbn [negb] in H; [|discriminate].
  destruct (alloc 2%nat); cbn [negb] in H; [|discriminate]. unfold bind at 1, modc at 1 in H. cbn [s_ctx s_tr] in H.
  match type of H with _ (mk_st ?x _) = _ => set (c1 := x) in H end.
  assert (IM : elem (x_out c1) n = Some outmod0) by (change (x_out c1) with (grow n (x_out c) outmod0); now rewrite elem_grow_eq by auto).
  unfold bind at 1, call_init in H. cbn [s_tr] in H. unfold bind at 1, emit in H. cbn [s_ctx s_tr] in H. unfold ret at 1 in H.
  destruct (ext_ok (port_env cron keys al tv now) (List.length tr)) eqn:OK; [|unfold bind, modc, emit, set_err, ret in H; cbn [s_ctx s_tr] in H; discriminate].
  unfold bind, modc, ret in H. cbn [s_ctx s_tr] in H. injection H as <-. cbn [s_ctx]. cbn [ext_ok port_env] in OK. cbn [act port_env port_call].
  destruct (init_write_ok (al (List.length tr)) n true c1 _ IM) as (r & R). rewrite R. cbn [rbind]. destruct (init_write_inv _ _ _ _ _ R) as (im' & IM' & _ & ->). assert (im' = outmod0) by congruence. subst im'.
  rewrite OK. cbn [andb]. set (c2 := set_x_io _ _).
  assert (EL : elem (x_out c2) n = Some (mk_outmod 0 8 8 zeros8 zeros8 zeros8 None)) by (subst c2; cbn [x_out set_x_io set_x_out]; rewrite elem_put; destruct (Nat.eq_dec n n); [now rewrite IM|congruence]).
  clearbody c2. cbn [peek]. rewrite EL. split; [reflexivity|]. split; [reflexivity|]. intros k K. split; [destruct k; try reflexivity; congruence|].
  intros i L. unfold holds. cbn [peek]. rewrite EL. cbn [obind]. destruct i as [|[|[|[|[|[|[|[|i]]]]]]]]; [..|lia]; destruct k; try reflexivity; congruence.
Qed.
(** The read function: of the characters waiting the last one counts; q ends the task, a digit switches that input of the module,
    and nothing else changes. *)
Lemma C62_keys_l : forall typed key m c c', pressed typed key -> dummy_read typed m c = Ok c' ->
  changes_only c c' (fun l => (l = LState /\ quits key) \/ exists i, toggles key i /\ l = LIn m K_I i)
  /\ (quits key -> peek c' LState = Some (VState S_EXIT_TSK))
  /\ forall i, toggles key i -> exists v, holds c (LIn m K_I i) v /\ (0 < v -> holds c' (LIn m K_I i) 0) /\ (v <= 0 -> holds c' (LIn m K_I i) 1).
Proof.
  intros typed key m c c' P R. apply key_pressed in P. destruct (read_inv _ _ _ _ R) as (A & B & D). rewrite P in *. split; [exact A|]. split; [exact B|].
  intros i T. destruct (D i T) as (v & H & H'). exists v. split; auto. split; intros L; destruct (Z.ltb_spec 0 v); auto; lia.
Qed.
Lemma C62_no_key_l : forall m c c', dummy_read [] m c = Ok c' -> unchanged c c'.
Proof.
  intros m c c' R l. destruct (read_inv _ _ _ _ R) as (A & _). apply A. unfold key_places, quits, toggles, dummy_key. cbn [last]. intros [[_ K]|(i & K & _)]; lia.
Qed.
(** The write function changes nothing; it needs everything it shows. *)
Lemma C62_display_l : forall cron m c c', dummy_write cron m c = Ok c' -> unchanged c c' /\ h_delay (x_h c) = true
  /\ (forall i, (i < 8)%nat -> peek c (LReg B_M i) <> None) /\ (cron = true -> forall i, (10 <= i < 18)%nat -> peek c (LReg B_M i) <> None)
  /\ (forall i, (i < 8)%nat -> peek c (LOut m K_Q i) <> None)
  /\ (forall i, (i < 7)%nat -> peek c (LReg B_Td i) <> None /\ peek c (LReg B_Tr i) <> None /\ peek c (LAcc i) <> None
                               /\ peek c (LReg B_Cd i) <> None /\ peek c (LReg B_Cr i) <> None /\ peek c (LReg B_C i) <> None)
  /\ forall n, (n < q_nets (x_q c))%nat -> exists en rows cols, peek c (LNet n) = Some (VNet en rows cols)
       /\ forall r col, (r < rows)%nat -> (col < cols)%nat -> peek c (LPow n r col) <> None.
Proof.
  assert (TI : forall A (p : option (list A)) k n u, touch p n k = Ok u -> forall i, (n <= i < n + k)%nat -> elem p i <> None).
  { intros A p. induction k as [|k IH]; intros n u K i L; [lia|]. cbn [touch] in K. bind1 K x X. apply pget_at in X. rewrite Nat2Z.id in X. destruct (Nat.eq_dec i n) as [->|]; [congruence|]. eapply IH; eauto. lia. }
  assert (TC : forall nt r k col u, touch_cols nt r col k = Ok u -> forall i, (col <= i < col + k)%nat -> ncell nt r i <> None).
  { intros nt r. induction k as [|k IH]; intros col u K i L; [lia|]. cbn [touch_cols] in K. bind1 K x X. apply cell_in_inv in X. destruct (Nat.eq_dec i col) as [->|]; [congruence|]. eapply IH; eauto. lia. }
  assert (TR : forall nt k r u, touch_rows nt r k = Ok u -> forall i col, (r <= i < r + k)%nat -> (col < n_cols nt)%nat -> ncell nt i col <> None).
  { intros nt. induction k as [|k IH]; intros r u K i col L C; [lia|]. cbn [touch_rows] in K. bind1 K x X. destruct (Nat.eq_dec i r) as [->|]; [eapply TC; eauto; lia|]. eapply IH; eauto. lia. }
  assert (TN : forall c k n u, touch_nets c n k = Ok u -> forall i, (n <= i < n + k)%nat -> exists en rows cols, peek c (LNet i) = Some (VNet en rows cols)
       /\ forall r col, (r < rows)%nat -> (col < cols)%nat -> peek c (LPow i r col) <> None).
  { intros c. induction k as [|k IH]; intros n u K i L; [lia|]. cbn [touch_nets] in K. bind1 K nt PN. bind1 K x X. apply net_at_inv in PN. destruct (Nat.eq_dec i n) as [->|]; [|eapply IH; eauto; lia].
    exists (n_en nt), (n_rows nt), (n_cols nt). cbn [peek]. rewrite PN. split; auto. intros r col R C. rewrite (cell_of_net _ _ _ _ _ PN). pose proof (TR _ _ _ _ X r col ltac:(lia) C) as Q. destruct (ncell nt r col); [discriminate|congruence]. }
  intros cron m c c' K. unfold dummy_write in K. bind1 K x1 X1. bind1 K x2 X2. bind1 K om X3. bind1 K x4 X4. bind1 K x5 X5. bind1 K x6 X6. bind1 K x7 X7. bind1 K x8 X8. bind1 K x9 X9. bind1 K x10 X10. bind1 K x11 X11.
  destruct (h_delay (x_h c)); [|discriminate]. injection K as <-. apply pget_at in X3. rewrite Nat2Z.id in X3.
  assert (SM : forall A (o : option A) (g : A -> val), o <> None -> option_map g o <> None) by (intros A [a|] g H; [discriminate|congruence]).
  split; [intros l; reflexivity|]. split; auto. split; [|split; [|split; [|split]]].
  - intros i L. apply SM. apply (TI _ _ _ _ _ X1). lia.
  - intros -> i L. apply SM. apply (TI _ _ _ _ _ X2). lia.
  - intros i L. cbn [peek]. rewrite X3. cbn [obind]. apply SM. apply (TI _ _ _ _ _ X4). lia.
  - intros i L. repeat (split; [apply SM; (apply (TI _ _ _ _ _ X5) || apply (TI _ _ _ _ _ X6) || apply (TI _ _ _ _ _ X7) || apply (TI _ _ _ _ _ X8) || apply (TI _ _ _ _ _ X9)); lia|]).
    apply SM. apply (TI _ _ _ _ _ X10). lia.
  - intros n N. apply (TN _ _ _ _ X11). lia.
Qed.
(** The example foreign function hands on the power on the left of its cell. *)
Lemma C62_foreign_l : forall n col row c, peek c LExec = Some (VExec (Some n)) -> peek c (LCell n row col) <> None ->
  exists b c', dummy_exec col row c = Ok (E_OK, c') /\ left_powered c n row col b /\ powered c' n row col b /\ changes_only c c' (fun l => l = LPow n row col).
Proof.
  intros n col row c X C. cbn [peek] in X. assert (XE : x_exec c = Some n) by congruence. destruct (exec_ok n col row c XE C) as (b & L & R). exists b, (put_pow n row col b c). split; auto. split; auto. split.
  - cbn [peek] in C. destruct (cell_of c n row col) as [x|] eqn:CX; [|simpl in C; congruence]. eapply put_pow_here; eauto.
  - intros l H. now apply put_pow_frame.
Qed.
(** With the panic handler set the claim is false: there is a well-formed machine, large enough, in which the task reaches the cycle limit; what
    it does then depends on what lies behind the table of error names. *)
Lemma C62_panic_refuted_l : exists cron keys al tv now E E' n s, follows cron keys al tv now E /\ follows cron keys al tv now E' /\ (forall k, real_time (tv k)) /\ (forall k, calendar (now k))
  /\ well_formed_ctx (s_ctx s) /\ tables_ok (s_ctx s) /\ port_fits cron (s_ctx s) /\ ladder_task E n s <> ladder_task E' n s.
Proof.
  set (port_clk := fun k : nat => (Z.of_nat k mod 1000, 0)). set (pnow := fun _ : nat => mk_tm 0 0 0 1 0 0 120). set (nk := fun _ : nat => @nil Z). set (al := fun _ _ : nat => true).
  set (E := port_env false nk al port_clk pnow).
  set (E' := mk_env (clk E) (fun k ev c => match port_call false nk al k ev c with Ok c' => c' | _ => set_x_state S_STOPPED c end) (fexec E) (wall E) (ext_ok E) (finit E)).
  set (a := mk_init_args 2 1 1 8 8 8 8 8 1 500 true false 0 20). set (c1 := snd (ctx_init (fun _ => true) a garbage)).
  set (c := set_x_state S_RUNNING (set_x_h (mk_hooks true true true true true true true true) (set_x_cron None (set_x_net (Some [mk_network true 1 2 (Some [[cellv I_CONN []; cellv I_CONN []]])]) c1)))).
  exists false, nk, al, port_clk, pnow, E, E', 1%nat, (start c).
  assert (RT : forall k, real_time (port_clk k)) by (intros k; unfold real_time, port_clk; cbn [fst snd]; pose proof (Z.mod_pos_bound (Z.of_nat k) 1000 ltac:(lia)); lia).
  assert (F : forall E0, clk E0 = clk E -> fexec E0 = fexec E -> wall E0 = wall E -> (forall k ev c c', port_call false nk al k ev c = Ok c' -> act E0 k ev c = c') -> follows false nk al port_clk pnow E0).
  { intros E0 H1 H2 H3 H4. constructor; auto.
    - intros k t M. rewrite H1. cbn [clk E port_env]. unfold port_clock. now rewrite M.
    - intros k. now rewrite H3.
    - intros k id col row c2 r M. rewrite H2. cbn [fexec E port_env]. now rewrite M. }
  split; [apply F; auto; intros k ev c2 c' M; cbn [act E port_env]; now rewrite M|]. split; [apply F; auto; intros k ev c2 c' M; cbn [act E']; now rewrite M|].
  split; [exact RT|]. split; [intros k; unfold calendar; cbn; lia|].
  split; [apply wfb_ok; vm_compute; reflexivity|]. split; [apply tablesb_ok; vm_compute; reflexivity|].
  split; [constructor; try (vm_compute; lia); try reflexivity; intros m M; vm_compute in M; lia|].
  intros K. apply (f_equal (fun x => match x with Ok (_, s') => lstate_eqb (x_state (s_ctx s')) S_STOPPED | _ => true end)) in K. vm_compute in K. discriminate.
Qed.
(*EX
(** One network of a contact and a coil, a foreign function below; one module of inputs and one of outputs, added with the
    initialisation functions of the port. *)
Definition pt_clock (k : nat) : Z * Z := (Z.of_nat k mod 1000, 250000).
Definition pt_now (_ : nat) : tm := mk_tm 0 0 0 1 0 0 120.
Definition pt_keys (k : nat) : list Z := if Nat.eqb k 2 then [120; 51] else if (20 <? k)%nat then [113] else [].
Definition pt_al (_ _ : nat) : bool := true.
Definition pt : env := port_env true pt_keys pt_al pt_clock pt_now.
(** Another environment following the port: what is undefined wrecks the machine. *)
Definition pt_wild : env :=
  mk_env (clk pt) (fun k ev c => match port_call true pt_keys pt_al k ev c with Ok c' => c' | _ => set_x_net None (set_x_in None c) end)
    (fun _ _ col row c => match dummy_exec col row c with Ok r => r | _ => (E_FAIL, set_x_net None c) end) (wall pt) (ext_ok pt) (finit pt).
Definition pt_args : init_args := mk_init_args 2 2 1 18 8 8 8 8 1 500 true false 1000 20.
Definition pt_init : ctx := snd (ctx_init (fun _ => true) pt_args garbage).
Definition pt_after {A} (m : M A) (s : st) : st := match m s with Ok (_, s') => s' | _ => s end.
Definition pt1 : st := pt_after (add_read_fn pt (fun _ => true) true true) (mk_st pt_init []).
Definition pt2 : st := pt_after (add_write_fn pt (fun _ => true) true true) pt1.
Definition pt3 : st := pt_after (add_foreign pt true true 1) pt2.
(** Input 3 drives output 0; the foreign function hands power on to a coil for M0. *)
Definition pt_net : network :=
  mk_network true 2 2 (Some [[cellv I_NO [V R_I 768]; cellv I_COIL [V R_Q 0]]; [cellv I_FOREIGN [V R_NONE 0]; cellv I_COIL [V R_M 0]]]).
Definition pt_hooks : hooks := mk_hooks true true true true true true false true.
Definition pt_machine : ctx := set_x_cron None (set_x_state S_RUNNING (set_x_h pt_hooks (set_x_net (Some [pt_net]) (s_ctx pt3)))).
Lemma pt_follows : follows true pt_keys pt_al pt_clock pt_now pt /\ follows true pt_keys pt_al pt_clock pt_now pt_wild.
Proof.
  split; constructor; auto.
  - intros k t H. cbn [clk pt port_env]. unfold port_clock. now rewrite H.
  - intros k ev c c' H. cbn [act pt port_env]. now rewrite H.
  - intros k id col row c r H. cbn [fexec pt port_env]. now rewrite H.
  - intros k t H. cbn [clk pt_wild pt port_env]. unfold port_clock. now rewrite H.
  - intros k ev c c' H. cbn [act pt_wild]. now rewrite H.
  - intros k id col row c r H. cbn [fexec pt_wild]. now rewrite H.
Qed.
Lemma pt_times : (forall k, real_time (pt_clock k)) /\ (forall k, calendar (pt_now k)).
Proof. split; intros k; [unfold real_time, pt_clock; cbn [fst snd]; pose proof (Z.mod_pos_bound (Z.of_nat k) 1000 ltac:(lia)); lia|unfold calendar; cbn; lia]. Qed.
Lemma pt_fits : well_formed_ctx pt_machine /\ tables_ok pt_machine /\ port_fits true pt_machine.
Proof.
  split; [apply wfb_ok; vm_compute; reflexivity|]. split; [apply tablesb_ok; vm_compute; reflexivity|].
  constructor; try (vm_compute; lia); try reflexivity; intros m M; (assert (m = 0%nat) by (vm_compute in M; lia)); subst m; exists 0, 8%nat, 8%nat; (split; [vm_compute; reflexivity|lia]).
Qed.
(** Key 3 switches input 3 on, which switches output 0 on; q ends the task. *)
Example C62_example : exists s', ladder_task pt 9 (mk_st pt_machine []) = Ok (Ended, s') /\ ladder_task pt_wild 9 (mk_st pt_machine []) = Ok (Ended, s')
  /\ well_formed_ctx (s_ctx s') /\ holds (s_ctx s') (LIn 0 K_I 3) 1 /\ holds (s_ctx s') (LOut 0 K_Q 0) 1 /\ holds (s_ctx s') (LReg B_M 0) 1.
Proof.
  destruct pt_follows as [F1 F2]. destruct pt_times as [T1 T2]. destruct pt_fits as (W & T & F).
  assert (K : exists s', ladder_task pt 9 (mk_st pt_machine []) = Ok (Ended, s') /\ holds (s_ctx s') (LIn 0 K_I 3) 1 /\ holds (s_ctx s') (LOut 0 K_Q 0) 1 /\ holds (s_ctx s') (LReg B_M 0) 1)
    by (eexists; split; [vm_compute; reflexivity|split; [|split]; vm_compute; reflexivity]).
  destruct K as (s' & K & K1). exists s'. split; [exact K|]. split.
  - rewrite <- K. symmetry. exact (C62_same_partial _ _ _ _ _ _ _ 9 (mk_st pt_machine []) F1 F2 T1 W F eq_refl).
  - split; auto. destruct (C62_task_partial _ _ _ _ _ _ 9 (mk_st pt_machine []) F1 T1 T2 W T F eq_refl) as [(r & s2 & A & B & _)|(u & A & _)]; rewrite K in A; [|discriminate].
    injection A as _ <-. exact B.
Qed.
Example C62_added : let n := io_rq (x_io pt_init) in add_read_fn pt (fun _ => true) true true (mk_st pt_init []) = Ok (true, pt1) /\ reads_wf pt_init
  /\ peek (s_ctx pt1) (LInMeta n) = Some (VMeta 0 8 8).
Proof. intros n. split; [vm_compute; reflexivity|]. split; [|vm_compute; reflexivity]. repeat split; try discriminate; try reflexivity; vm_compute; auto; lia. Qed.
Example C62_foreign_example : let c := set_x_exec (Some 0%nat) pt_machine in peek c LExec = Some (VExec (Some 0%nat)) /\ peek c (LCell 0 1 0) <> None
  /\ match dummy_exec 0 1 c with Ok (_, c') => peek c' (LPow 0 1 0) | _ => None end = Some (VB true).
Proof. intros c. split; [reflexivity|]. split; [discriminate|vm_compute; reflexivity]. Qed.
(** A machine of four timers is too small for the display. *)
Example C62_example_small : dummy_write true 0 (set_x_tm (option_map (firstn 4) (x_tm pt_machine)) pt_machine) = Bad UB_oob /\ dummy_write true 0 pt_machine = Ok pt_machine.
Proof. split; vm_compute; reflexivity. Qed.
EX*)

(** ** C63 *)

(** The report names state, last instruction and last error, for the instructions and the errors up to division by zero. Missing:
    the other errors, see below. *)
Lemma C63_report_partial_l : forall c i b, l_instr (x_last c) = ins_code i -> instr_name i = Some b ->
  In (l_err (x_last c)) [E_OK; E_GETPREVVAL; E_GETDATAVAL; E_SETDATAVAL; E_NOFOREIGN; E_NOTABLE; E_OUTOFRANGE; E_DIVBYZERO] ->
  dummy_on_panic c = Ok (state_name (x_state c), b, error_name (l_err (x_last c))).
Proof.
  intros c i b L N H. unfold dummy_on_panic. rewrite L.
  assert (A : lget status_str (status_code (x_state c)) = Ok (state_name (x_state c))) by (destruct (x_state c); reflexivity). rewrite A. cbn [rbind].
  assert (B : lget fn_str (ins_code i) = Ok b) by (destruct i; try discriminate; cbn [instr_name] in N; injection N as <-; reflexivity). rewrite B. cbn [rbind].
  assert (D : lget fn_err_str (err_code (l_err (x_last c))) = Ok (error_name (l_err (x_last c)))) by (cbn [In] in H; decompose [or] H; try contradiction; match goal with K : _ = l_err _ |- _ => rewrite <- K; reflexivity end).
  now rewrite D.
Qed.
(** A type mismatch is reported as FAIL. *)
Lemma C63_mismatch_l : forall c i b, l_instr (x_last c) = ins_code i -> instr_name i = Some b -> l_err (x_last c) = E_TYPEMISMATCH ->
  dummy_on_panic c = Ok (state_name (x_state c), b, "FAIL"%string).
Proof.
  intros c i b L N H. unfold dummy_on_panic. rewrite L, H.
  assert (A : lget status_str (status_code (x_state c)) = Ok (state_name (x_state c))) by (destruct (x_state c); reflexivity). rewrite A. cbn [rbind].
  assert (B : lget fn_str (ins_code i) = Ok b) by (destruct i; try discriminate; cbn [instr_name] in N; injection N as <-; reflexivity). rewrite B. reflexivity.
Qed.
(** For overflow, null pointer and failure the handler reads behind its table, and for instruction codes without a name too. *)
Lemma C63_outside_l : forall c, In (l_err (x_last c)) [E_OVERFLOW; E_NULL; E_FAIL] \/ ~ (0 <= l_instr (x_last c) <= 36) -> dummy_on_panic c = Bad UB_oob.
Proof.
  intros c H. unfold dummy_on_panic. assert (A : exists a, lget status_str (status_code (x_state c)) = Ok a) by (destruct (x_state c); eexists; reflexivity). destruct A as (a & ->). cbn [rbind].
  assert (B : (exists b, lget fn_str (l_instr (x_last c)) = Ok b /\ 0 <= l_instr (x_last c) <= 36) \/ lget fn_str (l_instr (x_last c)) = Bad UB_oob).
  { unfold lget, idx_ok. change (List.length fn_str) with 37%nat. destruct (Z.leb_spec 0 (l_instr (x_last c))); cbn [andb]; auto. destruct (Z.ltb_spec (l_instr (x_last c)) (Z.of_nat 37)); auto.
    destruct (nth_error fn_str (Z.to_nat (l_instr (x_last c)))) as [b|] eqn:N; [left; exists b; split; auto; lia|]. apply nth_error_None in N. change (List.length fn_str) with 37%nat in N. lia. }
  destruct B as [(b & -> & L)| ->]; [|reflexivity]. cbn [rbind]. destruct H as [H|H]; [|lia].
  cbn [In] in H. decompose [or] H; try contradiction; match goal with K : _ = l_err _ |- _ => rewrite <- K; reflexivity end.
Qed.
(** The cycle limit: the handler called by the library when a network exceeds the limit finds the error overflow, so that its call is undefined
    whenever the handler is set. *)
Lemma C63_limit_l : forall cron keys al tv now n s, h_panic (x_h (s_ctx s)) = true -> si_maxcyc (x_si (s_ctx s)) < n -> 0 <= si_maxcyc (x_si (s_ctx s)) ->
  exists s1 c, check_cycles (port_env cron keys al tv now) n s = Ok (false, s1) /\ hd_error (s_tr s1) = Some EvPanic
    /\ l_err (x_last c) = E_OVERFLOW /\ x_state c = S_ERROR /\ port_call cron keys al (List.length (tl (s_tr s1))) EvPanic c = Bad UB_oob
    /\ s_ctx s1 = act (port_env cron keys al tv now) (List.length (tl (s_tr s1))) EvPanic c.
Proof.
  intros cron keys al tv now n s HP H H0. destruct s as [c tr]. cbn [s_ctx] in *. set (E := port_env cron keys al tv now).
  assert (AP : forall k x, act E k EvPanic x = x) by (intros k x; cbn [act E port_env port_call]; destruct (dummy_on_panic x); reflexivity).
  set (c2 := set_x_last (set_l_err E_OVERFLOW (x_last (set_x_state S_ERROR c))) (set_x_state S_ERROR c)).
  assert (PC : forall k, port_call cron keys al k EvPanic c2 = Bad UB_oob) by (intros k; cbn [port_call]; rewrite C63_outside_l; [reflexivity|left; subst c2; cbn [In]; auto]).
  assert (W : 4 * si_maxcyc (x_si c) <? 5 * n = true) by (apply Z.ltb_lt; lia).
  assert (K : check_cycles E n (mk_st c tr) = Ok (false, mk_st c2 (EvPanic :: EvPanic :: tr))).
  { unfold check_cycles. unfold bind at 1, getc at 1. cbn [s_ctx]. rewrite W. unfold bind at 1, panic at 1, bind at 1, getc at 1. cbn [s_ctx]. rewrite HP. unfold emit at 1. cbn [s_ctx s_tr]. rewrite AP.
    unfold bind at 1, getc at 1. cbn [s_ctx]. destruct (Z.ltb_spec (si_maxcyc (x_si c)) n); [|lia]. unfold bind, set_state, set_err, modc, panic, getc, bind, ret. cbn [s_ctx s_tr].
    change (h_panic (x_h _)) with (h_panic (x_h c)). rewrite HP. unfold emit. cbn [s_ctx s_tr]. rewrite AP. reflexivity. }
  exists (mk_st c2 (EvPanic :: EvPanic :: tr)), c2. split; [exact K|]. cbn [s_tr s_ctx hd_error tl]. split; [reflexivity|]. split; [reflexivity|]. split; [reflexivity|]. split; [apply PC|]. symmetry. apply AP.
Qed.
(** The clock of the port: whole milliseconds of the time of day, never running backwards if that does not. *)
Lemma C63_clock_l : forall tv, real_time tv -> exists t, dummy_millis (fst tv) (snd tv) = Ok t /\ t = 1000 * fst tv + snd tv / 1000.
Proof.
  intros [s u] [H1 H2]. cbn [fst snd] in *. unfold dummy_millis. destruct (Z.leb_spec (- 2 ^ 63) (s * 1000000 + u)); [|lia]. destruct (Z.ltb_spec (s * 1000000 + u) (2 ^ 63)); [|lia]. cbn [andb].
  eexists. split; [reflexivity|]. unfold u64. rewrite Z.quot_div_nonneg by lia. assert (D : (s * 1000000 + u) / 1000 = 1000 * s + u / 1000) by (replace (s * 1000000 + u) with (u + (1000 * s) * 1000) by ring; rewrite Z.div_add by lia; lia).
  rewrite D. apply Z.mod_small. assert (0 <= u / 1000 < 1000) by (Z.to_euclidean_division_equations; lia). lia.
Qed.
Lemma C63_clock_monotone_l : forall tv tv' t t', real_time tv -> real_time tv' -> fst tv * 1000000 + snd tv <= fst tv' * 1000000 + snd tv' ->
  dummy_millis (fst tv) (snd tv) = Ok t -> dummy_millis (fst tv') (snd tv') = Ok t' -> t <= t'.
Proof.
  intros tv tv' t t' R R' L K K'. destruct (C63_clock_l tv R) as (x & X & XE). destruct (C63_clock_l tv' R') as (y & Y & YE). rewrite K in X. rewrite K' in Y. injection X as <-. injection Y as <-. subst.
  destruct R as [R1 R2], R' as [R3 R4]. Z.to_euclidean_division_equations. lia.
Qed.
(** A delay of so many milliseconds sleeps exactly that long, in a form nanosleep accepts; negative ones do not sleep. *)
Lemma C63_delay_l : forall ms, (ms < 0 -> dummy_delay ms = None)
  /\ (0 <= ms -> exists s ns, dummy_delay ms = Some (s, ns) /\ 0 <= s /\ 0 <= ns < 1000000000 /\ s * 1000000000 + ns = ms * 1000000).
Proof.
  intros ms. unfold dummy_delay. destruct (Z.ltb_spec ms 0); split; intros L; auto; try (exfalso; lia). exists (Z.quot ms 1000), (Z.rem ms 1000 * 1000000). split; auto.
  rewrite Z.quot_div_nonneg, Z.rem_mod_nonneg by lia. Z.to_euclidean_division_equations. lia.
Qed.
(*EX
Definition pt_faulty (i : ins) (e : err) : ctx := set_x_last (mk_lastinfo (ins_code i) 0 0 0 e) pt_machine.
Example C63_example : dummy_on_panic (pt_faulty I_DIV E_DIVBYZERO) = Ok ("RUNNING", "DIV", "DIVBYZERO")%string
  /\ dummy_on_panic (pt_faulty I_ADD E_TYPEMISMATCH) = Ok ("RUNNING", "ADD", "FAIL")%string
  /\ dummy_on_panic (pt_faulty I_ADD E_FAIL) = Bad UB_oob /\ dummy_on_panic (pt_faulty I_MULTI E_OK) = Bad UB_oob.
Proof. repeat split; reflexivity. Qed.
Example C63_example_time : dummy_millis 1700000000 123456 = Ok 1700000000123 /\ dummy_delay 1250 = Some (1, 250000000) /\ real_time (1700000000, 123456).
Proof. repeat split; try reflexivity; cbn; lia. Qed.
Example C63_example_limit : exists s, h_panic (x_h (s_ctx s)) = true /\ 0 <= si_maxcyc (x_si (s_ctx s)) < 1001.
Proof. exists (mk_st (set_x_h (mk_hooks true true true true true true true true) pt_machine) []). split; [reflexivity|vm_compute; split; congruence]. Qed.
EX*)
