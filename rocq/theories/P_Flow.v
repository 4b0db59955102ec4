(** programs loaded, checked and run (C57). *)
From Coq Require Import String.
From Verif Require Import DemoTask.
From Verif Require Export FlowFacts DemoJson.
Open Scope list_scope.
Open Scope Z_scope.
(*IMPORT DemoTask *)

(** The machine of the demonstration with room for several networks. *)
Definition wide (l : list network) : ctx := set_x_q (set_q_nets (length l) (x_q (demo []))) (set_x_net (Some l) (demo [])).
Definition empty_net : network := net_on true [[mk_cell false false I_NOP 0 None]].

(** ** C57 *)

(** C57: loading a document in which no network has zero columns leaves the memory of the machine laid out as configured. *)
Lemma C57_laid_out_l : forall L al js c c', laid_out c -> releasable c -> json_to_program L al (F_doc (JArr js)) c = Ok (J_OK, c') ->
  columns_given js -> laid_out c'.
Proof.
  intros L al js c c' H1 H2 H3 H4. apply (loaded_laid_out L al (F_doc (JArr js)) c c'); auto. intros js' E. injection E as <-. auto.
Qed.
(** C57: if the document has no network with zero columns, the checker accepts the loaded program and the tables of its TMOVE
    instructions are networks of the program, no scan and no number of scans has undefined behaviour other than that of the
    arithmetic of the program.  Missing: zero columns and tables outside the program (refuted below), and the arithmetic. *)
Lemma C57_safe_partial_l : forall L al js c c' E W n s, laid_out c -> releasable c -> json_to_program L al (F_doc (JArr js)) c = Ok (J_OK, c') ->
  columns_given js -> accepts c' -> tables_known c' -> polite E W -> (forall k, calendar (wall E k)) -> s_ctx s = c' ->
  (exists s', many_scans E n s = Ok (tt, s')) \/ exists u, many_scans E n s = Bad u /\ arithmetic u.
Proof.
  intros L al js c c' E W n s H1 H2 H3 H4 H5 H6 HP HC HS. subst c'. apply (C40_safe_partial_l E W); auto.
  - eapply C57_laid_out_l; eauto.
  - eapply loaded_complete; eauto. apply H1.
Qed.
(** C57: nor has the task, however long it runs. *)
Lemma C57_task_partial_l : forall L al js c c' E W n s, laid_out c -> releasable c -> json_to_program L al (F_doc (JArr js)) c = Ok (J_OK, c') ->
  columns_given js -> accepts c' -> tables_known c' -> tables_ok c' -> behaved E W -> s_ctx s = c' ->
  (exists r s', ladder_task E n s = Ok (r, s')) \/ exists u, ladder_task E n s = Bad u /\ arithmetic u.
Proof.
  intros L al js c c' E W n s H1 H2 H3 H4 H5 H6 H7 HB HS. subst c'. apply (C40_task_partial_l E W); auto.
  - eapply C57_laid_out_l; eauto.
  - eapply loaded_complete; eauto. apply H1.
Qed.
(** C57: an accepted program with an instruction of more than one row comes from a file only if the loader, which reads past
    the end of its table of operand counts for the rows below, finds 0 there. *)
Lemma C57_rows_actual_l : forall L al js c c' n r col h k, checkable c -> releasable c -> json_to_program L al (F_doc (JArr js)) c = Ok (J_OK, c') ->
  checkable c' -> accepts c' -> program_cell c' n r col -> documented (code_at c' n r col) = Some (h, k) -> (1 < h)%nat -> beyond L = Ok 0%nat.
Proof.
  intros L al js c c' n r col h k K R H K' A (N & en & rows & cols & P & R1 & C1) D HH. apply C40_accepts_l in A as [_ A]; auto.
  destruct (A n en rows cols r col N P R1 C1) as [[A1 _] _]. destruct A1 as (h' & T & B & CT).
  { intros E. rewrite E in D. discriminate. }
  assert (h' = h) as -> by (unfold takes in T; destruct (code_at c' n r col); try discriminate D; try contradiction; destruct T as (k' & T); rewrite T in D; injection D; auto).
  destruct (CT (S r)) as (bar & M & _); [lia|]. destruct (loaded_networks L al _ c c' R H) as (js' & _ & F & _ & NS).
  assert (Q : x_q c' = x_q c) by (apply same_machine in F; rewrite F; destruct c; reflexivity). rewrite Q in N.
  cbn [peek] in M. destruct (NS n N) as [(j & nt & _ & T2 & O1)|(nt0 & nt & O0 & MC & O1)]; rewrite (net_peek _ _ _ O1) in P; injection P as E1 E2 E3; rewrite (cell_of_net _ _ _ _ _ O1) in M.
  - destruct (network_cell L j nt (S r) col T2) as (jc & x & X & CX); [lia|lia|]. rewrite X in M. injection M as _ M1 M2.
    destruct CX as (s & i & b & ds & vs & _ & _ & _ & _ & OP & _ & _ & ->). cbn [c_code c_dq] in M1, M2. subst i. rewrite M2 in OP. exact OP.
  - exfalso. apply map_cells_spec in MC as MS. destruct MS as (_ & RR & CC & _ & _ & MS). rewrite RR in E2. rewrite CC in E3.
    assert (X := map_cells_exist _ _ _ (S r) col MC ltac:(lia) ltac:(lia)). destruct (ncell nt0 (S r) col) as [x|] eqn:X1; [|congruence]. specialize (MS _ _ _ X1).
    rewrite (proj2 (in_rect_lt nt0 (S r) col)) in MS by lia. destruct MS as (y & Y & Y2). rewrite Y2 in M. injection M as _ M1 _. unfold clear_cell in Y. destruct (c_data x); [destruct (_ <=? _)%nat in Y|]; try discriminate; injection Y as <-; discriminate.
Qed.

(** One network of no columns behind a contact, and a table outside the program. *)
Definition flat_doc : list json := [net_j 0 1 [[cell_j "NO" false [op_j "v" "M" "0"]]]; net_j 1 0 [[]]]%string.
Definition table_doc : list json :=
  [net_j 0 1 [[cell_j "TMOV" false [op_j "a" "NONE" "7"; op_j "b" "NONE" "0"; op_j "c" "NONE" "0"; op_j "d" "NONE" "0"; op_j "e" "NONE" "1"]]]]%string.
(** C57 is false of networks without columns: the loader and the checker accept one, and scanning it reads outside its rows. *)
Lemma C57_columns_refuted_l : exists L al js c c' E, laid_out c /\ releasable c /\ json_to_program L al (F_doc (JArr js)) c = Ok (J_OK, c')
  /\ accepts c' /\ tables_known c' /\ ladder_scan E (start c') = Bad UB_oob.
Proof.
  exists strict, plenty, flat_doc, (wide [empty_net; empty_net]), (loaded strict plenty flat_doc (wide [empty_net; empty_net])), quiet_env.
  split; [apply laid_outb_ok; vm_compute; reflexivity|]. split; [apply releasableb_ok; vm_compute; reflexivity|]. split; [vm_compute; reflexivity|].
  split; [apply acceptsb_ok; vm_compute; reflexivity|]. split; [|vm_compute; reflexivity].
  intros n rows cols r col SC R C. apply (completeb_ok (loaded strict plenty flat_doc (wide [empty_net; empty_net])) ltac:(vm_compute; reflexivity) n rows cols r col SC R C).
Qed.
(** C57 is false of tables: TMOVE from a network that does not exist is loaded and accepted, and scanning it reads outside the
    networks. *)
Lemma C57_tables_refuted_l : exists L al js c c' E, laid_out c /\ releasable c /\ json_to_program L al (F_doc (JArr js)) c = Ok (J_OK, c')
  /\ columns_given js /\ accepts c' /\ ladder_scan E (start c') = Bad UB_oob.
Proof.
  exists strict, plenty, table_doc, (wide [empty_net]), (loaded strict plenty table_doc (wide [empty_net])), quiet_env.
  split; [apply laid_outb_ok; vm_compute; reflexivity|]. split; [apply releasableb_ok; vm_compute; reflexivity|]. split; [vm_compute; reflexivity|].
  split; [|split; [apply acceptsb_ok; vm_compute; reflexivity|vm_compute; reflexivity]].
  intros j [<-|[]] (d & D & T & _). apply member_iff in D. vm_compute in D. injection D as <-. destruct T as (f & T1 & T2 & _). simpl in T1, T2. lia.
Qed.

(*EX
(** Contacts and coils are loaded, accepted and run; the program meets all hypotheses. *)
Definition latch_doc : list json :=
  [net_j 1 2 [[cell_j "NO" false [op_j "v" "M" "0"]; cell_j "COIL" true [op_j "v" "Q" "0.1"]];
              [cell_j "NO" false [op_j "v" "M" "2"]; cell_j "COILL" false [op_j "v" "M" "3"]]]]%string.
Definition before : ctx := wide [net_on true [[cellv I_NO [V R_M 9]; cellv I_COIL [V R_M 1]]]; empty_net].
Definition latched : ctx := loaded strict plenty latch_doc before.
Example C57_example : laid_out before /\ releasable before /\ json_to_program strict plenty (F_doc (JArr latch_doc)) before = Ok (J_OK, latched)
  /\ columns_given latch_doc /\ accepts latched /\ tables_known latched /\ tables_ok latched
  /\ exists s', many_scans quiet_env 3 (start latched) = Ok (tt, s') /\ peek (s_ctx s') (LReg B_M 3) = Some (VZ 1).
Proof.
  split; [apply laid_outb_ok; vm_compute; reflexivity|]. split; [apply releasableb_ok; vm_compute; reflexivity|]. split; [vm_compute; reflexivity|].
  split. { intros j [<-|[]] (d & D & T & _). apply member_iff in D. vm_compute in D. injection D as <-. destruct T as (f & T1 & T2 & _). simpl in T1, T2. lia. }
  split; [apply acceptsb_ok; vm_compute; reflexivity|]. split.
  { intros n rows cols r col SC R C. apply (completeb_ok latched ltac:(vm_compute; reflexivity) n rows cols r col SC R C). }
  split; [apply tablesb_ok; vm_compute; reflexivity|]. eexists. split; vm_compute; reflexivity.
Qed.
(** With a loader that reads 0 past the end of its table a program with a timer is loaded and accepted; with any other number
    it is loaded or not, but not accepted. *)
Definition lucky (q : nat) : outside := mk_outside (fun _ => []) (fun _ => 0) (Ok q).
Definition timer_doc : list json :=
  [net_j 0 1 [[cell_j "TON" false [op_j "t" "T" "1"; op_j "p" "100MS" "50"]]; [cell_j "occupied" false []]]]%string.
Example C57_example_rows : checkable (wide [empty_net]) /\ releasable (wide [empty_net])
  /\ json_to_program (lucky 0) plenty (F_doc (JArr timer_doc)) (wide [empty_net]) = Ok (J_OK, loaded (lucky 0) plenty timer_doc (wide [empty_net]))
  /\ checkable (loaded (lucky 0) plenty timer_doc (wide [empty_net])) /\ accepts (loaded (lucky 0) plenty timer_doc (wide [empty_net]))
  /\ documented (code_at (loaded (lucky 0) plenty timer_doc (wide [empty_net])) 0 0 0) = Some (2, 2)%nat
  /\ json_to_program strict plenty (F_doc (JArr timer_doc)) (wide [empty_net]) = Bad UB_oob
  /\ verdict (lucky 1) plenty (F_doc (JArr timer_doc)) (wide [empty_net]) = Some J_FAIL.
Proof.
  split; [apply checkableb_ok; vm_compute; reflexivity|]. split; [apply releasableb_ok; vm_compute; reflexivity|]. split; [vm_compute; reflexivity|].
  split; [apply checkableb_ok; vm_compute; reflexivity|]. split; [apply acceptsb_ok; vm_compute; reflexivity|]. repeat split; vm_compute; reflexivity.
Qed.
EX*)
