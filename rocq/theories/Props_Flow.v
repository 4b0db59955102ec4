(** Property theorems: programs loaded, checked and run (C57). *)
From Coq Require Import String.
From Verif Require Import P_Flow Demo.
Open Scope list_scope.
Open Scope Z_scope.
From Verif Require Import DemoTask.

(** ** C57 *)

(** C57: loading a document in which no network has zero columns leaves the memory of the machine laid out as configured. *)
Theorem C57_laid_out : forall L al js c c', laid_out c -> releasable c -> json_to_program L al (F_doc (JArr js)) c = Ok (J_OK, c') ->
  columns_given js -> laid_out c'.
Proof. exact C57_laid_out_l. Qed.
Print Assumptions C57_laid_out.

(** C57: if the document has no network with zero columns, the checker accepts the loaded program and the tables of its TMOVE
    instructions are networks of the program, no scan and no number of scans has undefined behaviour other than that of the
    arithmetic of the program.  Missing: zero columns and tables outside the program (refuted below), and the arithmetic. *)
Theorem C57_safe_partial : forall L al js c c' E W n s, laid_out c -> releasable c -> json_to_program L al (F_doc (JArr js)) c = Ok (J_OK, c') ->
  columns_given js -> accepts c' -> tables_known c' -> polite E W -> (forall k, calendar (wall E k)) -> s_ctx s = c' ->
  (exists s', many_scans E n s = Ok (tt, s')) \/ exists u, many_scans E n s = Bad u /\ arithmetic u.
Proof. exact C57_safe_partial_l. Qed.
Print Assumptions C57_safe_partial.

(** C57: nor has the task, however long it runs. *)
Theorem C57_task_partial : forall L al js c c' E W n s, laid_out c -> releasable c -> json_to_program L al (F_doc (JArr js)) c = Ok (J_OK, c') ->
  columns_given js -> accepts c' -> tables_known c' -> tables_ok c' -> behaved E W -> s_ctx s = c' ->
  (exists r s', ladder_task E n s = Ok (r, s')) \/ exists u, ladder_task E n s = Bad u /\ arithmetic u.
Proof. exact C57_task_partial_l. Qed.
Print Assumptions C57_task_partial.

(** C57: an accepted program with an instruction of more than one row comes from a file only if the loader, which reads past
    the end of its table of operand counts for the rows below, finds 0 there. *)
Theorem C57_rows_actual : forall L al js c c' n r col h k, checkable c -> releasable c -> json_to_program L al (F_doc (JArr js)) c = Ok (J_OK, c') ->
  checkable c' -> accepts c' -> program_cell c' n r col -> documented (code_at c' n r col) = Some (h, k) -> (1 < h)%nat -> beyond L = Ok 0%nat.
Proof. exact C57_rows_actual_l. Qed.
Print Assumptions C57_rows_actual.

(** C57 is false of networks without columns: the loader and the checker accept one, and scanning it reads outside its rows. *)
Theorem C57_columns_refuted : exists L al js c c' E, laid_out c /\ releasable c /\ json_to_program L al (F_doc (JArr js)) c = Ok (J_OK, c')
  /\ accepts c' /\ tables_known c' /\ ladder_scan E (start c') = Bad UB_oob.
Proof. exact C57_columns_refuted_l. Qed.
Print Assumptions C57_columns_refuted.

(** C57 is false of tables: TMOVE from a network that does not exist is loaded and accepted, and scanning it reads outside the
    networks. *)
Theorem C57_tables_refuted : exists L al js c c' E, laid_out c /\ releasable c /\ json_to_program L al (F_doc (JArr js)) c = Ok (J_OK, c')
  /\ columns_given js /\ accepts c' /\ ladder_scan E (start c') = Bad UB_oob.
Proof. exact C57_tables_refuted_l. Qed.
Print Assumptions C57_tables_refuted.
(** Contacts and coils are loaded, accepted and run; the program meets all hypotheses. *)
Definition latch_doc : list json :=
  [net_j 1 2 [[cell_j "NO" false [op_j "v" "M" "0"]; cell_j "COIL" true [op_j "v" "Q" "0.1"]];
              [cell_j "NO" false [op_j "v" "M" "2"]; cell_j "COILL" false [op_j "v" "M" "3"]]]]%string.
Definition before : ctx := wide [net_on true [[cellv I_NO [V R_M 9]; cellv I_COIL [V R_M 1]]]; empty_net].
Definition latched : ctx := loaded strict plenty latch_doc before.
Example C57_example : laid_out before /\ releasable before /\ json_to_program strict plenty (F_doc (JArr latch_doc)) before = Ok (J_OK, latched)
  /\ columns_given latch_doc /\ accepts latched /\ tables_known latched /\ tables_ok latched
  /\ exists s', many_scans quiet_env 3 (start latched) = Ok (tt, s') /\ peek (s_ctx s') (LReg B_M 3) = Some (VZ 1).
Proof.
  split; [apply laid_outb_ok; vm_compute; reflexivity|]. split; [apply releasableb_ok; vm_compute; reflexivity|]. split; [vm_compute; reflexivity|].
  split. { intros j [<-|[]] (d & D & T & _). apply member_iff in D. vm_compute in D. injection D as <-. destruct T as (f & T1 & T2 & _). simpl in T1, T2. lia. }
  split; [apply acceptsb_ok; vm_compute; reflexivity|]. split.
  { intros n rows cols r col SC R C. apply (completeb_ok latched ltac:(vm_compute; reflexivity) n rows cols r col SC R C). }
  split; [apply tablesb_ok; vm_compute; reflexivity|]. eexists. split; vm_compute; reflexivity.
Qed.
(** With a loader that reads 0 past the end of its table a program with a timer is loaded and accepted; with any other number
    it is loaded or not, but not accepted. *)
Definition lucky (q : nat) : outside := mk_outside (fun _ => []) (fun _ => 0) (Ok q).
Definition timer_doc : list json :=
  [net_j 0 1 [[cell_j "TON" false [op_j "t" "T" "1"; op_j "p" "100MS" "50"]]; [cell_j "occupied" false []]]]%string.
Example C57_example_rows : checkable (wide [empty_net]) /\ releasable (wide [empty_net])
  /\ json_to_program (lucky 0) plenty (F_doc (JArr timer_doc)) (wide [empty_net]) = Ok (J_OK, loaded (lucky 0) plenty timer_doc (wide [empty_net]))
  /\ checkable (loaded (lucky 0) plenty timer_doc (wide [empty_net])) /\ accepts (loaded (lucky 0) plenty timer_doc (wide [empty_net]))
  /\ documented (code_at (loaded (lucky 0) plenty timer_doc (wide [empty_net])) 0 0 0) = Some (2, 2)%nat
  /\ json_to_program strict plenty (F_doc (JArr timer_doc)) (wide [empty_net]) = Bad UB_oob
  /\ verdict (lucky 1) plenty (F_doc (JArr timer_doc)) (wide [empty_net]) = Some J_FAIL.
Proof.
  split; [apply checkableb_ok; vm_compute; reflexivity|]. split; [apply releasableb_ok; vm_compute; reflexivity|]. split; [vm_compute; reflexivity|].
  split; [apply checkableb_ok; vm_compute; reflexivity|]. split; [apply acceptsb_ok; vm_compute; reflexivity|]. repeat split; vm_compute; reflexivity.
Qed.
