(** Property theorems: saving programs as JSON and loading them again (C54). *)
From Coq Require Import String.
From Verif Require Import P_Save Demo.
Open Scope list_scope.
Open Scope Z_scope.

(** ** C54 *)

(** C54: a complete program without strings is saved without undefined behaviour; with a string, a value that was never
    written is read. *)
Theorem C54_saves : forall L c, releasable c -> has_operands c ->
  (no_strings c -> exists j, program_to_json L c = Ok j) /\ (~ no_strings c -> program_to_json L c = Bad UB_indet).
Proof. exact C54_saves_l. Qed.
Print Assumptions C54_saves.
Example C54_example_saves : releasable stored_program /\ has_operands stored_program
  /\ member (txt "rows") (match saved strict stored_program with JArr (j :: _) => j | j => j end) = Some (int_num 2)
  /\ program_to_json strict (demo_nets [net_on true [[cellv I_NO [V R_M 0]; cellv I_MOVE [mk_value R_S 0 (Some (txt "a")); V R_D 2]]]]) = Bad UB_indet.
Proof. split; [apply releasableb_ok; vm_compute; reflexivity|]. split; [apply has_operandsb; vm_compute; reflexivity|]. split; vm_compute; reflexivity. Qed.

(** C54: what was saved is accepted again exactly if the program has only known instructions with their operands, no
    constants except presets of counters, no strings, and no timers counting milliseconds. *)
Theorem C54_accepted : forall L al c j c0, releasable c -> moderate c -> program_to_json L c = Ok j ->
  releasable c0 -> q_nets (x_q c0) = q_nets (x_q c) -> (forall s, al s = true) ->
  ((exists c', json_to_program L al (F_doc j) c0 = Ok (J_OK, c')) <-> storable L c).
Proof. exact C54_accepted_l. Qed.
Print Assumptions C54_accepted.
Example C54_example_accepted : releasable stored_program /\ moderate stored_program /\ storable strict stored_program
  /\ verdict strict plenty (F_doc (saved strict stored_program)) old_program = Some J_OK.
Proof.
  split; [apply releasableb_ok; vm_compute; reflexivity|]. split; [apply moderateb_ok; vm_compute; reflexivity|]. split; [apply storableb; vm_compute; reflexivity|]. vm_compute. reflexivity.
Qed.

(** C54: a program that is loaded from what was saved is the saved one exactly if all reals survive their conversion to text;
    but all networks are enabled. *)
Theorem C54_restored : forall L al c j c0 c', releasable c -> has_operands c -> program_to_json L c = Ok j ->
  releasable c0 -> q_nets (x_q c0) = q_nets (x_q c) -> json_to_program L al (F_doc j) c0 = Ok (J_OK, c') ->
  (same_program c c' <-> reals_kept L c)
  /\ (forall n en rows cols, (n < q_nets (x_q c))%nat -> peek c' (LNet n) = Some (VNet en rows cols) -> en = true)
  /\ (forall n r col, program_cell c' n r col -> powered c' n r col false)
  /\ changes_only c0 c' (fun l => exists n, network_place n l).
Proof. exact C54_restored_l. Qed.
Print Assumptions C54_restored.
(** A program with a disabled network comes back enabled. *)
Example C54_example_restored : exists c', json_to_program strict plenty (F_doc (saved strict stored_program)) old_program = Ok (J_OK, c')
  /\ same_program stored_program c' /\ peek stored_program (LNet 1) = Some (VNet false 1 2) /\ peek c' (LNet 1) = Some (VNet true 1 2).
Proof.
  exists (match json_to_program strict plenty (F_doc (saved strict stored_program)) old_program with Ok (_, c') => c' | _ => garbage end).
  assert (H : json_to_program strict plenty (F_doc (saved strict stored_program)) old_program
    = Ok (J_OK, match json_to_program strict plenty (F_doc (saved strict stored_program)) old_program with Ok (_, c') => c' | _ => garbage end)) by (vm_compute; reflexivity).
  split; [exact H|]. split; [|split; vm_compute; reflexivity].
  apply (C54_restored strict plenty stored_program (saved strict stored_program) old_program).
  - apply releasableb_ok; vm_compute; reflexivity.
  - apply has_operandsb; vm_compute; reflexivity.
  - vm_compute. reflexivity.
  - apply releasableb_ok; vm_compute; reflexivity.
  - reflexivity.
  - exact H.
  - intros n r col d v P O T. exfalso. assert (A : all_cells stored_program (fun x => match c_data x with Some l => forallb (fun v => negb (reg_code (v_type v) =? 14)) l | None => true end) = true) by (vm_compute; reflexivity).
    destruct (all_cells_ok _ _ _ _ _ A P) as (x & X & K). destruct O as [O _]. simpl in O. rewrite X in O. simpl in O. destruct (c_data x) as [l|]; [|discriminate]. simpl in O.
    destruct (nth_error l d) as [w|] eqn:W; [|discriminate]. injection O as ->. apply nth_error_In in W. rewrite forallb_forall in K. specialize (K v W). rewrite T in K. discriminate.
Qed.

(** C54: any other program is lost: what was saved is never accepted, and without occupied cells it is refused and leaves an
    empty program. *)
Theorem C54_lost_actual : forall L al c j c0, releasable c -> moderate c -> program_to_json L c = Ok j ->
  releasable c0 -> q_nets (x_q c0) = q_nets (x_q c) -> ~ storable L c ->
  (forall c', json_to_program L al (F_doc j) c0 <> Ok (J_OK, c'))
  /\ (~ has_occupied c -> (forall i, al (A_cells i) = true) -> exists c', json_to_program L al (F_doc j) c0 = Ok (J_FAIL, c') /\ emptied c').
Proof. exact C54_lost_actual_l. Qed.
Print Assumptions C54_lost_actual.

(** C54: programs with constants, with times in milliseconds or, where reading past the table of instructions is an error, with
    instructions of more than one row are never read back. *)
Theorem C54_not_storable_actual : forall L c, has_constant c \/ has_occupied c /\ (forall q, beyond L <> Ok q) -> ~ storable L c.
Proof. exact C54_not_storable_actual_l. Qed.
Print Assumptions C54_not_storable_actual.
(** A constant moved into a register, and a timer of milliseconds. *)
Example C54_example_lost : let c := demo_nets [net_on true [[cellv I_MOVE [V R_NONE 5; V R_D 1]]]; net_on true [[cellv I_TON [V R_T 1; V R_NONE 100]]]] in
  has_constant c /\ releasable c /\ moderate c /\ verdict strict plenty (F_doc (saved strict c)) old_program = Some J_FAIL /\ verdict strict plenty (F_doc (saved strict c)) c = Some J_FAIL.
Proof.
  split.
  - exists 1%nat, 0%nat, 0%nat, false, I_TON, 2%nat, 1%nat, (V R_NONE 100). split; [split; [vm_compute; auto|]; do 3 eexists; split; [vm_compute; reflexivity|]; split; auto|]. split; [vm_compute; reflexivity|].
    split; [split; [vm_compute; reflexivity|]; do 3 eexists; split; [vm_compute; reflexivity|]; auto|]. split; auto. intros [[?|?] _]; discriminate.
  - split; [apply releasableb_ok; vm_compute; reflexivity|]. split; [apply moderateb_ok; vm_compute; reflexivity|]. split; vm_compute; reflexivity.
Qed.
(** A counter of two rows, as the library builds it, saved and then loaded. *)
Example C54_example_occupied : let c := demo_nets [net_on true [[cellv I_CTU [V R_C 1; V R_NONE 10]]; [mk_cell false false I_MULTI 0 None]]; net_on true [[cellv I_NOP []]]] in
  has_occupied c /\ json_to_program strict plenty (F_doc (saved strict c)) old_program = Bad UB_oob
  /\ verdict (mk_outside (fun _ => []) (fun _ => 0) (Ok 0%nat)) plenty (F_doc (saved strict c)) old_program = Some J_OK.
Proof.
  split; [|split; vm_compute; reflexivity]. exists 0%nat, 1%nat, 0%nat, false, 0%nat. split; [split; [vm_compute; auto|]; do 3 eexists; split; [vm_compute; reflexivity|]; split; auto with arith|]. vm_compute. reflexivity.
Qed.
