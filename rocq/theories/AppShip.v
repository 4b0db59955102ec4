(** The example application: what it reports before the task, and the program that comes with it. *)
From Coq Require Import String.
From Verif Require Export AppRun P_Shipped DemoCheck DemoCalm.
From Verif Require Import Demo.
Open Scope list_scope.
Open Scope Z_scope.

(** ** Events *)

(** A computation that emits only events of a kind. *)
Definition only {A} (P : event -> Prop) (m : M A) : Prop := forall s a s', m s = Ok (a, s') -> exists l, s_tr s' = l ++ s_tr s /\ Forall P l.
Lemma only_ret {A} P (a : A) : only P (ret a). Proof. intros s x s' H. injection H as _ <-. exists []. auto. Qed.
Lemma only_modc P f : only P (modc f). Proof. intros s x s' H. injection H as _ <-. exists []. auto. Qed.
Lemma only_getc P : only P getc. Proof. intros s x s' H. injection H as _ <-. exists []. auto. Qed.
Lemma only_lift {A} P (r : res A) : only P (lift r). Proof. intros s x s' H. unfold lift in H. destruct r; try discriminate. injection H as _ <-. exists []. auto. Qed.
Lemma only_updc P f : only P (updc f). Proof. intros s x s' H. unfold updc in H. destruct (f (s_ctx s)); try discriminate. injection H as _ <-. exists []. auto. Qed.
Lemma only_call {A} P (f : ctx -> res (A * ctx)) : only P (call_with f).
Proof. intros s x s' H. unfold call_with in H. destruct (f (s_ctx s)); try discriminate. injection H as _ <-. exists []. auto. Qed.
Lemma only_emit (P : event -> Prop) E ev : P ev -> only P (emit E ev). Proof. intros K s x s' H. injection H as _ <-. exists [ev]. auto. Qed.
Lemma only_bind {A B} P (m : M A) (k : A -> M B) : only P m -> (forall a, only P (k a)) -> only P (bind m k).
Proof.
  intros H K s b s' R. apply Lib.bind_inv in R as (a & s1 & R1 & R2). destruct (H _ _ _ R1) as (l1 & L1 & F1). destruct (K _ _ _ _ R2) as (l2 & L2 & F2).
  exists (l2 ++ l1). rewrite L2, L1, app_assoc. split; auto. apply Forall_app. auto.
Qed.
Lemma only_call_init (P : event -> Prop) E ev : P ev -> only P (call_init E ev).
Proof. intros K s x s' H. unfold call_init, bind, emit, ret in H. injection H as _ <-. exists [ev]. auto. Qed.
Lemma only_set_err P e : only P (set_err e). Proof. apply only_modc. Qed.
Ltac only_tac := repeat first [apply only_bind; [|intros] | apply only_ret | apply only_modc | apply only_getc | apply only_lift | apply only_updc | apply only_call | apply only_call_init; exact I | apply only_emit; exact I | apply only_set_err | progress cbv zeta | match goal with |- only _ (if ?b then _ else _) => destruct b end].
Lemma only_read E al f i : only service_event (add_read_fn E al f i). Proof. unfold add_read_fn. only_tac. Qed.
Lemma only_write E al f i : only service_event (add_write_fn E al f i). Proof. unfold add_write_fn. only_tac. Qed.
Lemma only_foreign E al f n : only service_event (add_foreign E al f n).
Proof.
  unfold add_foreign. only_tac.
  - intros s x s' H. cbv zeta in H. unfold bind, emit, ret in H. injection H as _ <-. exists [EvForeignInit n]. split; auto. repeat constructor.
  - match goal with |- only _ (let (_, _) := ?x in _) => destruct x end. only_tac.
Qed.
Lemma only_setup E H : only service_event (app_setup E H).
Proof.
  unfold app_setup, app_job, set_state.
  repeat first [apply only_read|apply only_write|apply only_foreign|match goal with |- only _ (bind _ _) => apply only_bind; [|intros] | |- only _ (if ?b then _ else _) => destruct b end|apply only_ret|apply only_modc|apply only_call].
Qed.
Lemma only_deinit_foreign E : forall fuel n, only service_event (deinit_foreign E fuel n).
Proof.
  induction fuel as [|fuel IH]; intros n; cbn [deinit_foreign]; only_tac; try apply IH. intros s x s' H; discriminate.
Qed.
Lemma only_deinit_io E rd : forall fuel n, only service_event (deinit_io E rd fuel n).
Proof.
  induction fuel as [|fuel IH]; intros n; cbn [deinit_io]; only_tac; try apply IH; [intros s x s' H; discriminate|]. apply only_emit. destruct rd; exact I.
Qed.
Lemma only_deinit E : only service_event (ctx_deinit E).
Proof. unfold ctx_deinit. only_tac; try apply only_deinit_foreign; try apply only_deinit_io. Qed.

(** ** Loading with enough memory *)

Lemma load_operands_ext L i a b : (forall d, a d = b d) -> forall js d, load_operands L a i d js = load_operands L b i d js.
Proof. intros X. induction js as [|j js IH]; intros d; cbn [load_operands]; auto. now rewrite X, IH. Qed.
Lemma load_cell_ext L x a b j : (forall d, a d = b d) -> load_cell L x a j = load_cell L x b j.
Proof.
  intros X. unfold load_cell. destruct (member (txt "symbol") j) as [[| | |s| |]|]; auto. cbv zeta. pose proof (fun i => load_operands_ext L i a b X) as Y. generalize (get_instruction_code s). intros i.
  destruct i; auto; destruct (member (txt "bar") j) as [[| | | | |]|]; auto; destruct (member (txt "data") j) as [[| | | |ds|]|]; auto; now rewrite Y.
Qed.
Lemma load_cells_ext f g : (forall c j, f c j = g c j) -> forall js c, load_cells f c js = load_cells g c js.
Proof. intros X. induction js as [|j js IH]; intros c; cbn [load_cells]; auto. now rewrite X, IH. Qed.
Lemma load_rows_ext L a b i cols : (forall s, a s = b s) -> forall js r, load_rows L a i cols r js = load_rows L b i cols r js.
Proof.
  intros X. induction js as [|j js IH]; intros r; cbn [load_rows]; auto. destruct j; auto. destruct (_ =? _); auto.
  rewrite (load_cells_ext _ (fun c => load_cell L (b (A_data i r c)) (fun d => b (A_str i r c d)))), IH; auto. intros c j. rewrite X. apply load_cell_ext. auto.
Qed.
Lemma load_network_ext L a b i j : (forall s, a s = b s) -> load_network L a i j = load_network L b i j.
Proof.
  intros X. unfold load_network. destruct (member (txt "rows") j) as [[| |d| | |]|]; auto. destruct (dbl_trunc d 0 (2 ^ 32 - 1)) as [rows| |]; auto. cbn [rbind].
  destruct (member (txt "cols") j) as [[| |d2| | |]|]; auto. destruct (dbl_trunc d2 0 (2 ^ 32 - 1)) as [cols| |]; auto. cbn [rbind]. cbv zeta.
  destruct (member (txt "networkData") j) as [[| | | |rs|]|]; auto. rewrite X, (load_rows_ext L a b) by auto.
  assert (FE : forallb (fun r => a (A_row i r)) (seq 0 (Z.to_nat rows)) = forallb (fun r => b (A_row i r)) (seq 0 (Z.to_nat rows))) by (induction (seq 0 (Z.to_nat rows)) as [|k l IH]; cbn [forallb]; [auto|now rewrite X, IH]).
  now rewrite FE.
Qed.
Lemma load_elements_ext L a b : (forall s, a s = b s) -> forall js i c, load_elements L a i js c = load_elements L b i js c.
Proof.
  intros X. induction js as [|j js IH]; intros i c; cbn [load_elements]; auto. assert (EQ : load_element L a i j c = load_element L b i j c).
  { unfold load_element. now rewrite (load_network_ext L a b) by auto. }
  rewrite EQ. destruct (load_element L b i j c) as [[c1 ok]| |]; auto. cbn [rbind]. destruct ok; auto.
Qed.
Lemma load_ext L a b f c : (forall s, a s = b s) -> json_to_program L a f c = json_to_program L b f c.
Proof.
  intros X. unfold json_to_program. destruct f as [| |j]; auto. destruct j; auto. destruct (clear_program c) as [c1| |]; auto. cbn [rbind]. now rewrite (load_elements_ext L a b).
Qed.

(** ** The program that comes with the application *)

Definition demo_ctx : ctx := match json_to_program (mk_outside (fun _ => []) (fun _ => 0) (Ok 0%nat)) (fun _ => true) (F_doc demo_json) app_ctx with Ok (J_OK, c) => c | _ => app_ctx end.
Definition demo_list : list json := match demo_json with JArr js => js | _ => [] end.
Lemma demo_is_list : demo_json = JArr demo_list. Proof. reflexivity. Qed.
Lemma demo_loads L al : Json.beyond L = Ok 0%nat -> (forall s, al s = true) -> json_to_program L al (F_doc (JArr demo_list)) app_ctx = Ok (J_OK, demo_ctx).
Proof. intros B A. rewrite <- demo_is_list, (load_ext L al (fun _ => true) _ _ A). destruct L as [pf rf b]. cbn [Json.beyond] in B. subst b. vm_compute. reflexivity. Qed.
Lemma demo_fails L al u : Json.beyond L = Bad u -> (forall s, al s = true) -> json_to_program L al (F_doc (JArr demo_list)) app_ctx = Bad u.
Proof. intros B A. rewrite <- demo_is_list, (load_ext L al (fun _ => true) _ _ A). destruct L as [pf rf b]. cbn [Json.beyond] in B. subst b. vm_compute. reflexivity. Qed.

Definition each_cellb (c : ctx) (f : cell -> bool) : bool :=
  forallb (fun n => match net_of c n with
    | Some nt => forallb (fun r => forallb (fun col => match cell_of c n r col with Some x => f x | None => false end) (seq 0 (n_cols nt))) (seq 0 (n_rows nt))
    | None => false end) (seq 0 (q_nets (x_q c))).
Lemma each_cellb_ok c f n r col : each_cellb c f = true -> program_cell c n r col -> exists x, cell_of c n r col = Some x /\ f x = true.
Proof.
  intros H (N & en & rows & cols & K & R & C). assert (A := forallb_seq _ _ H n N). cbv beta in A. cbn [peek] in K. destruct (net_of c n) as [nt|]; [|discriminate]. injection K as <- <- <-.
  assert (B := forallb_seq _ _ A r R). cbv beta in B. assert (D := forallb_seq _ _ B col C). cbv beta in D. destruct (cell_of c n r col) as [x|]; [eauto|discriminate].
Qed.
Definition plain_value (c : ctx) (v : value) : bool :=
  match v_type v with
  | R_R | R_S => false
  | R_I | R_IW => negb (v_module v =? Z.of_nat (io_rq (x_io c)))
  | R_Q | R_QW => negb (v_module v =? Z.of_nat (io_wq (x_io c)))
  | _ => true
  end.
Definition plain_cell (c : ctx) (x : cell) : bool :=
  (match c_code x with I_FOREIGN | I_TMOVE => false | _ => true end) && listb (plain_value c) (c_data x).
Lemma plain_ok c n r col : each_cellb c (plain_cell c) = true -> program_cell c n r col ->
  code_at c n r col <> I_FOREIGN /\ code_at c n r col <> I_TMOVE /\ forall d v, operand_at c n r col d v -> plain_value c v = true.
Proof.
  intros H PC. destruct (each_cellb_ok _ _ _ _ _ H PC) as (x & X & F). unfold plain_cell in F. apply andb_true_iff in F as [F1 F2]. rewrite (code_of _ _ _ _ _ X).
  split; [intros Y; rewrite Y in F1; discriminate|]. split; [intros Y; rewrite Y in F1; discriminate|]. intros d v [A _]. cbn [peek] in A. rewrite X in A. cbn [obind] in A.
  destruct (elem (c_data x) d) as [w|] eqn:W; [|discriminate]. injection A as <-. exact (listb_ok _ _ _ _ F2 W).
Qed.
Definition plainb (c : ctx) : bool :=
  each_cellb c (plain_cell c) && match net_of c 0 with Some nt => (0 <? n_rows nt)%nat && (0 <? n_cols nt)%nat && (0 <? q_nets (x_q c))%nat | None => false end
  && forallb (fun n => match peek c (LRows n) with None => false | Some _ => true end) (seq 0 (q_nets (x_q c))).
Lemma plainb_ok R C c : plainb c = true -> roomyb R C c = true -> handled c.
Proof.
  unfold plainb. rewrite !andb_true_iff. intros [[A B] D] RM. constructor.
  - intros n r col PC. apply (plain_ok c n r col A PC).
  - intros n r col d v PC O1 T. destruct (plain_ok c n r col A PC) as (_ & _ & K). specialize (K d v O1). unfold plain_value in K. now rewrite T in K.
  - intros n r col b i dq d v PC _ O1 _ T. destruct (plain_ok c n r col A PC) as (_ & _ & K). specialize (K d v O1). unfold plain_value in K. now rewrite T in K.
  - intros (n & r & col & d & v & PC & O1 & T). destruct (plain_ok c n r col A PC) as (_ & _ & K). specialize (K d v O1). unfold plain_value in K.
    destruct (v_type v); try contradiction; rewrite T, Z.eqb_refl in K; discriminate.
  - intros n rows cols r col [N SC] R1 C1 T. exfalso. destruct (plain_ok c n r col A) as (_ & K & _); [|now apply K]. split; auto. exists true, rows, cols. auto.
  - destruct (net_of c 0) as [nt|] eqn:NT; [|discriminate]. rewrite !andb_true_iff, !Nat.ltb_lt in B. destruct B as [[B1 B2] B3]. exists 0%nat, 0%nat, 0%nat. split; auto.
    exists (n_en nt), (n_rows nt), (n_cols nt). split; [now apply net_peek|auto].
  - intros n N. assert (K := forallb_seq _ _ D n N). cbv beta in K. destruct (peek c (LRows n)); [discriminate|discriminate K].
  - exact (roomyb_ok R C c RM).
Qed.
Lemma demo_handled : handled demo_ctx.
Proof. apply (plainb_ok 7 6); vm_compute; reflexivity. Qed.

(** The port, a program whose arithmetic is exact, and no key that ends the task. *)
Lemma exact_port keys al tv now E n s : follows true keys al tv now E -> (forall k, real_time (tv k)) -> (forall k, calendar (now k)) ->
  (forall k, dummy_key (keys k) <> 81 /\ dummy_key (keys k) <> 113) ->
  well_formed_ctx (s_ctx s) -> tables_ok (s_ctx s) -> port_fits true (s_ctx s) -> equipped (s_ctx s) -> roomy (s_ctx s) -> has_previous (s_ctx s) ->
  sure (s_ctx s) -> cron_ready (s_ctx s) -> peek (s_ctx s) LState = Some (VState S_RUNNING) -> exact_program (s_ctx s) -> 0 <= measured (s_ctx s) -> measured (s_ctx s) + Z.of_nat n < 2 ^ 32 ->
  exists s', ladder_task E n s = Ok (Running, s') /\ peek (s_ctx s') LState = Some (VState S_RUNNING) /\ SpecTask.same_program (s_ctx s) (s_ctx s').
Proof.
  intros F RT CA NQ W0 T0 F0 Q RM HP SU CR ST EX M0 M1. pose proof (running_calm true keys al tv now _ W0 F0) as KS.
  assert (G : going (s_ctx s)) by (cbn [peek] in ST; left; congruence).
  rewrite <- (C64_same_l (running true keys al tv now) E n s Q RM KS (running_alike_but _ _ _ _ _ _ W0 F0 E F RT) G).
  assert (NS : forall ev, ~ port_places ev LStats).
  { intros ev K. destruct ev; try contradiction; [destruct K as (ch & K); unfold key_places in K; destruct K as [[K _]|(i & _ & K)]; discriminate|destruct K as (k & K); discriminate]. }
  destruct (C41_task_exact_l _ _ n s (running_behaved true keys al tv now CA) NS W0 EX T0 M0) as [(r & s' & A & B & _ & D)|[_ A]]; [|lia].
  destruct (C65_task_l _ n s r s' Q RM KS (running_firm true keys al tv now _ W0 F0 NQ) SU CR ST HP A) as (-> & K & _). exists s'. auto.
Qed.
Lemma demo_same : demo_ctx = set_x_net (x_net demo_ctx) app_ctx. Proof. vm_compute. reflexivity. Qed.
Lemma demo_accepted : accepts demo_ctx. Proof. apply acceptsb_ok. vm_compute. reflexivity. Qed.
Lemma demo_complete : complete demo_ctx. Proof. apply completeb_ok. vm_compute. reflexivity. Qed.

(** ** The document that comes with the project *)

(** An element whose numbers are whole and fit, with its rows. *)
Definition tameb (j : json) : bool :=
  match member (txt "id") j, member (txt "rows") j, member (txt "cols") j, member (txt "networkData") j with
  | Some (JNum (Fin a 0)), Some (JNum (Fin r 0)), Some (JNum (Fin k 0)), Some (JArr rs) =>
      (0 <=? a) && (a <? 2 ^ 32) && (0 <=? r) && (r <? 2 ^ 31) && (0 <? k) && (k <? 2 ^ 32) && (Z.of_nat (List.length rs) =? r)
  | _, _, _, _ => false
  end.
Lemma tameb_ok L j : (exists q, Json.beyond L = Ok q) -> tameb j = true -> tame_element L j /\ ~ natural_is j "cols" 0.
Proof.
  intros BY H. unfold tameb in H.
  assert (tame : forall k z, member (txt k) j = Some (int_num z) -> 0 <= z < 2 ^ 32 -> tame_number j k).
  { intros k z M B d D. apply member_iff in D. rewrite M in D. injection D as <-. exists z. split; auto. exists 0. simpl. lia. }
  assert (nat_of : forall k z, member (txt k) j = Some (int_num z) -> 0 <= z < 2 ^ 32 -> natural_is j k (Z.to_nat z)).
  { intros k z M B. exists (Fin z 0). split; [apply member_iff; exact M|]. split; [exists 0; simpl; lia|lia]. }
  assert (is_nat : forall k z n, member (txt k) j = Some (int_num z) -> natural_is j k n -> z = Z.of_nat n).
  { intros k z n M (d & D & T & _). apply member_iff in D. rewrite M in D. injection D as <-. destruct T as (f & T1 & T2 & _). simpl in T1, T2. lia. }
  destruct (member (txt "id") j) as [[| |[a [|e|e]|]| | |]|] eqn:MI; try discriminate. destruct (member (txt "rows") j) as [[| |[r [|e|e]|]| | |]|] eqn:MR; try discriminate.
  destruct (member (txt "cols") j) as [[| |[k [|e|e]|]| | |]|] eqn:MC; try discriminate. destruct (member (txt "networkData") j) as [[| | | |rs|]|] eqn:MD; try discriminate.
  rewrite !andb_true_iff, !Z.leb_le, !Z.ltb_lt, Z.eqb_eq in H. destruct H as ((((((A1 & A2) & A3) & A4) & A5) & A6) & A7). split.
  - split; [exact (tame _ _ MI (conj A1 A2))|]. split; [apply (tame _ _ MR); lia|]. split; [apply (tame _ _ MC); lia|]. split.
    + intros q N _. apply (is_nat _ _ _ MR) in N. split; [lia|]. exists (Z.to_nat k), rs. split; [apply (nat_of _ _ MC); lia|]. split; [now apply member_iff|lia].
    + intros q _. now left.
  - intros N. apply (is_nat _ _ _ MC) in N. lia.
Qed.
Lemma demo_suitable L al : Json.beyond L = Ok 0%nat -> (forall s, al s = true) -> suitable L al demo_list app_ctx.
Proof.
  intros BY AL. assert (T : forall j, In j demo_list -> tame_element L j /\ ~ natural_is j "cols" 0).
  { assert (F := proj1 (forallb_forall tameb demo_list)). intros j I1. apply tameb_ok; [eauto|]. apply F; auto; vm_compute; reflexivity. }
  constructor.
  - apply Forall_forall. intros j I1. apply T; auto.
  - auto.
  - intros j I1. apply T; auto.
  - intros c' K. assert (Q := eq_trans (eq_sym (demo_loads L al BY AL)) K). assert (Q1 : demo_ctx = c') by exact (f_equal (fun x => match x with Ok (_, c) => c | _ => demo_ctx end) Q). exact (eq_ind _ handled demo_handled _ Q1).
Qed.
Lemma demo_testable : testable shipped demo_json. Proof. apply testableb_ok. vm_compute. reflexivity. Qed.
Lemma demo_valid cmp : (forall x t, cmp x (JStr t) = true <-> x = JStr t) -> validate_file cmp (F_doc demo_json) (F_doc shipped) = Ok true.
Proof.
  intros CT. destruct (C56_answer_l cmp demo_json CT demo_testable) as (b & V & B). destruct (C56_answer_l cmp_text demo_json cmp_text_ok demo_testable) as (b' & V' & B').
  assert (R : validate_file cmp_text (F_doc demo_json) (F_doc shipped) = Ok true) by (vm_compute; reflexivity). rewrite R in V'. injection V' as <-. assert (b = true) as -> by tauto. exact V.
Qed.

Lemma demo_runs keys al tv now E n tr : follows true keys al tv now E -> (forall k, real_time (tv k)) -> (forall k, calendar (now k)) ->
  (forall k, dummy_key (keys k) <> 81 /\ dummy_key (keys k) <> 113) -> Z.of_nat n < 2 ^ 32 ->
  exists s', ladder_task E n (mk_st demo_ctx tr) = Ok (Running, s') /\ peek (s_ctx s') LState = Some (VState S_RUNNING) /\ SpecTask.same_program demo_ctx (s_ctx s').
Proof.
  intros F RT CA NQ N.
  assert (LO : SpecCheck.laid_out demo_ctx) by exact (C57_laid_out_l _ _ _ _ _ app_laid_out app_releasable (demo_loads (mk_outside (fun _ => []) (fun _ => 0) (Ok 0%nat)) (fun _ => true) eq_refl (fun _ => eq_refl)) (st_columns _ _ _ _ (demo_suitable (mk_outside (fun _ => []) (fun _ => 0) (Ok 0%nat)) (fun _ => true) eq_refl (fun _ => eq_refl)))).
  assert (A1 := accepted_wf demo_ctx LO demo_accepted demo_complete).
  assert (A2 : tables_ok demo_ctx) by (apply tablesb_ok; vm_compute; reflexivity).
  assert (A3 : port_fits true demo_ctx) by exact (eq_ind_r (port_fits true) (loaded_fits app_ctx (x_net demo_ctx) app_fits) demo_same).
  assert (A4 : equipped demo_ctx) by (apply equippedb_ok; vm_compute; reflexivity).
  assert (A5 : has_previous demo_ctx) by (vm_compute; repeat split; discriminate).
  assert (A6 : sure demo_ctx) by (apply sureb_ok; vm_compute; reflexivity).
  assert (A7 : cron_ready demo_ctx) by (right; eexists _, _; split; [vm_compute; reflexivity|]; split; [reflexivity|discriminate]).
  assert (A8 : exact_program demo_ctx) by (apply exactb_ok; vm_compute; reflexivity).
  assert (A9 : peek demo_ctx LState = Some (VState S_RUNNING)) by (vm_compute; reflexivity).
  assert (B1 : measured demo_ctx = 0) by (vm_compute; reflexivity).
  assert (B2 : 0 <= measured demo_ctx) by (rewrite B1; reflexivity). assert (B3 : measured demo_ctx + Z.of_nat n < 2 ^ 32) by (rewrite B1; exact N).
  assert (B4 := hd_room _ demo_handled). generalize dependent demo_ctx. intros c LO A1 A2 A3 A4 A5 A6 A7 A8 A9 B1 B2 B3 B4.
  exact (exact_port keys al tv now E n (mk_st c tr) F RT CA NQ A1 A2 A3 A4 B4 A5 A6 A7 A9 A8 B2 B3).
Qed.
Definition demo_loaded := demo_loads (mk_outside (fun _ => []) (fun _ => 0) (Ok 0%nat)) (fun _ => true) eq_refl (fun _ => eq_refl).
Lemma demo_saves L : exists j, program_to_json L demo_ctx = Ok j.
Proof.
  assert (RL : releasable demo_ctx) by (apply releasableb_ok; vm_compute; reflexivity). assert (OP : has_operands demo_ctx) by exact (loaded_operands _ _ _ _ _ (lo_checkable _ app_laid_out) app_releasable demo_loaded).
  exact (proj1 (C54_saves_l L demo_ctx RL OP) (hd_strings _ demo_handled)).
Qed.
Lemma demo_prints fn al : exists t, ladder_print fn al demo_ctx = Ok t.
Proof. exact (C58_loaded_partial_l _ _ _ _ _ fn al (lo_checkable _ app_laid_out) app_releasable demo_loaded (hd_foreign _ demo_handled) (hd_reals _ demo_handled)). Qed.
