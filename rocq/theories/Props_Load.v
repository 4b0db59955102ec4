(** Property theorems: loading programs from JSON (C52, C53). *)
From Coq Require Import String.
From Verif Require Import P_Load Demo.
Open Scope list_scope.
Open Scope Z_scope.

(** ** C52 *)

(** C52: with memory available, an array is accepted exactly if its elements describe networks of the program: a position
    within the program, numbers of rows and columns, as many rows of as many cells, each with the symbol of an instruction,
    a bar, and as many operands as the instruction has, each with a type and a text that is a value of this type. *)
Theorem C52_accepts : forall L al js c, releasable c -> (forall s, al s = true) ->
  (exists c', json_to_program L al (F_doc (JArr js)) c = Ok (J_OK, c')) <-> exists ps, describes_networks L (q_nets (x_q c)) js ps.
Proof. exact C52_accepts_l. Qed.
Print Assumptions C52_accepts.

(** C52: whatever is accepted is an array of such elements, and the program is the described one: every described network is
    as its last description says, all other networks keep their size and become empty, and nothing else changes. *)
Theorem C52_program : forall L al f c c', releasable c -> json_to_program L al f c = Ok (J_OK, c') ->
  exists js ps, f = F_doc (JArr js) /\ describes_networks L (q_nets (x_q c)) js ps
    /\ (forall n nt, final ps n = Some nt -> net_of c' n = Some nt)
    /\ (forall n r col, final ps n = None -> program_cell c n r col -> blank c' n r col)
    /\ releasable c'
    /\ changes_only c c' (fun l => exists n, network_place n l /\ (n < q_nets (x_q c))%nat
         /\ (final ps n <> None \/ exists r col, program_cell c n r col /\ cell_place n r col l)).
Proof. exact C52_program_l. Qed.
Print Assumptions C52_program.
Example C52_example : exists c' ps, releasable old_program /\ json_to_program strict plenty (F_doc (JArr [net_doc])) old_program = Ok (J_OK, c')
  /\ describes_networks strict 2 [net_doc] ps
  /\ net_of c' 1 = Some (net_on true [[cellv I_NC [V R_I (1 + 256 * 3)]; bar (cellv I_TON [V R_T 2; V R_I 15])];
                                      [mk_cell false false I_CONN 0 None; cellv I_MOVE [V R_D 0; V R_QW (-1)]]])
  /\ blank c' 0 1 1 /\ powered old_program 0 1 1 true /\ final ps 0 = None.
Proof.
  assert (R : releasable old_program) by (apply releasableb_ok; vm_compute; reflexivity).
  assert (H : json_to_program strict plenty (F_doc (JArr [net_doc])) old_program = Ok (J_OK, loaded strict plenty [net_doc] old_program)) by (vm_compute; reflexivity).
  destruct (C52_program strict plenty _ _ _ R H) as (js & ps & E & D & _). injection E as <-. exists (loaded strict plenty [net_doc] old_program), ps.
  split; [exact R|]. split; [exact H|]. split; [exact D|]. split; [vm_compute; reflexivity|]. split; [|split].
  - split; [vm_compute; reflexivity|]. split; [vm_compute; reflexivity|]. eexists. vm_compute. reflexivity.
  - vm_compute. reflexivity.
  - inversion D as [|j [n nt] js' ps' (A & B & C) D']; subst. inversion D'; subst. simpl in A. destruct A as (d & (x & y & K & NI) & T & _). simpl.
    destruct (Nat.eqb_spec n 0) as [->|]; auto. exfalso. assert (MI : member (txt "id") net_doc = Some (JNum d)) by (apply member_iff; exists x, y; auto).
    vm_compute in MI. injection MI as <-. destruct T as (f & T1 & T2 & _). simpl in T1, T2. lia.
Qed.
(** Each of these is refused: an unknown symbol, a missing operand, a port above 255, text behind a number, a row too short,
    a network outside the program. *)
Example C52_example_refused :
  map (fun js => verdict strict plenty (F_doc (JArr js)) old_program)
    [[net_j 1 1 [[cell_j "TOF" false [op_j "timer" "T" "2"; op_j "base" "SEC" "15"]]]]; [net_j 1 1 [[cell_j "MOV" false [op_j "a" "D" "1"]]]];
     [net_j 1 1 [[cell_j "NO" false [op_j "value" "I" "1.256"]]]]; [net_j 1 1 [[cell_j "NO" false [op_j "value" "M" "1x"]]]];
     [net_j 1 2 [[cell_j "NOP" false []]]]; [net_j 2 1 [[cell_j "NOP" false []]]]]%string
  = repeat (Some J_FAIL) 6.
Proof. vm_compute. reflexivity. Qed.

(** ** C53 *)

(** C53: a file that is refused: one that cannot be read, is not JSON or not an array leaves the program alone; any other
    leaves a program of empty cells, so the old program is lost. *)
Theorem C53_refused : forall L al f c e c', json_to_program L al f c = Ok (e, c') -> e <> J_OK ->
  match f with
  | F_missing => e = J_OPENFILE /\ c' = c
  | F_garbage => e = J_PARSE /\ c' = c
  | F_doc (JArr _) => e = J_FAIL /\ emptied c' /\ changes_only c c' (fun l => exists n, network_place n l /\ (n < q_nets (x_q c))%nat)
  | F_doc _ => e = J_TYPE_INV /\ c' = c
  end.
Proof. exact C53_refused_l. Qed.
Print Assumptions C53_refused.
Example C53_example_refused : exists c', json_to_program strict plenty (F_doc (JArr [net_doc; net_j 0 1 [[cell_j "SET" false []]]]%string)) old_program = Ok (J_FAIL, c')
  /\ program_cell c' 1 0 1 /\ blank c' 1 0 1 /\ releasable old_program.
Proof.
  eexists. split; [vm_compute; reflexivity|]. split; [|split].
  - split; [vm_compute; auto|]. do 3 eexists. split; [vm_compute; reflexivity|]. split; auto with arith.
  - split; [vm_compute; reflexivity|]. split; [vm_compute; reflexivity|]. eexists. vm_compute. reflexivity.
  - apply releasableb_ok. vm_compute. reflexivity.
Qed.
Example C53_example_kept : verdict strict plenty F_missing old_program = Some J_OPENFILE /\ verdict strict plenty F_garbage old_program = Some J_PARSE
  /\ verdict strict plenty (F_doc net_doc) old_program = Some J_TYPE_INV.
Proof. vm_compute. auto. Qed.

(** C53: loading a document whose numbers fit into 32 bits, whose networks have the rows they announce, and which does not
    reach past the table of instructions is free of undefined behaviour whatever else is in it, even if memory for rows and
    operands runs out, and leaves a program in shape. *)
Theorem C53_safe : forall L al js c, releasable c -> Forall (tame_element L) js -> (forall i, al (A_cells i) = true) ->
  exists e c', json_to_program L al (F_doc (JArr js)) c = Ok (e, c') /\ (e = J_OK \/ e = J_FAIL) /\ releasable c'.
Proof. exact C53_safe_l. Qed.
Print Assumptions C53_safe.
(** Whatever the memory for rows and operands does. *)
Example C53_example_safe : releasable old_program /\ Forall (tame_element strict) [net_doc; net_doc]
  /\ verdict strict (fun s => match s with A_data 1 1 _ => false | _ => true end) (F_doc (JArr [net_doc; net_doc])) old_program = Some J_FAIL.
Proof.
  split; [apply releasableb_ok; vm_compute; reflexivity|]. split; [|vm_compute; reflexivity].
  assert (T : tame_element strict net_doc); [|auto].
  assert (tame : forall k z, member (txt k) net_doc = Some (int_num z) -> 0 <= z < 2 ^ 32 -> tame_number net_doc k).
  { intros k z M B d D. apply member_iff in D. rewrite M in D. injection D as <-. exists z. split; auto. exists 0. simpl. lia. }
  split; [apply (tame _ 1); [vm_compute; reflexivity|lia]|]. split; [apply (tame _ 2); [vm_compute; reflexivity|lia]|]. split; [apply (tame _ 2); [vm_compute; reflexivity|lia]|]. split.
  - intros r N _. destruct N as (d & D & T & _). apply member_iff in D. vm_compute in D. injection D as <-. destruct T as (f & T1 & T2 & _). simpl in T1, T2.
    assert (r = 2%nat) as -> by lia. split; [lia|]. exists 2%nat. eexists. split; [|split].
    + exists (Fin 2 0). split; [apply member_iff; vm_compute; reflexivity|]. split; [exists 0; simpl; lia|lia].
    + apply member_iff. vm_compute. reflexivity.
    + reflexivity.
  - intros rs D. right. intros cs x I1 I2 O. apply member_iff in D, O. vm_compute in D. injection D as <-. simpl in I1.
    repeat destruct I1 as [I1|I1]; try contradiction; injection I1 as <-; simpl in I2; repeat destruct I2 as [I2|I2]; try contradiction; subst x; vm_compute in O; discriminate.
Qed.

(** C53: after elements that are loaded, a network with rows and columns that does not have the announced rows of cells makes
    the loader follow a null pointer. *)
Theorem C53_rows_actual : forall L al c js ps j rest n r k, releasable c -> (forall s, (element_of s < length js)%nat -> al s = true) -> describes_networks L (q_nets (x_q c)) js ps ->
  natural_is j "id" n -> (n < q_nets (x_q c))%nat -> natural_is j "rows" r -> natural_is j "cols" k -> (0 < r)%nat -> (0 < k)%nat ->
  ~ (Z.of_nat r < 2 ^ 31 /\ exists rs, member_is j "networkData" (JArr rs) /\ length rs = r) ->
  json_to_program L al (F_doc (JArr (js ++ j :: rest))) c = Bad UB_null.
Proof. exact C53_rows_actual_l. Qed.
Print Assumptions C53_rows_actual.
Example C53_example_rows :
  json_to_program strict plenty (F_doc (JArr [net_doc; obj [("id", int_num 0); ("rows", int_num 2); ("cols", int_num 1); ("networkData", JArr [JArr [cell_j "NOP" false []]])]]%string)) old_program
  = Bad UB_null
  /\ json_to_program strict plenty (F_doc (JArr [net_doc; obj [("id", int_num 0); ("rows", int_num 2); ("cols", int_num 1)]]%string)) old_program = Bad UB_null
  /\ (exists ps, describes_networks strict 2 [net_doc] ps) /\ releasable old_program.
Proof.
  split; [vm_compute; reflexivity|]. split; [vm_compute; reflexivity|]. assert (R : releasable old_program) by (apply releasableb_ok; vm_compute; reflexivity). split; auto.
  apply (C52_accepts strict plenty [net_doc] old_program R (fun _ => eq_refl)). eexists. vm_compute. reflexivity.
Qed.

(** C53: the same when memory for the rows of a network runs out. *)
Theorem C53_memory_actual : forall L al c js ps j rest n r k, releasable c -> (forall s, (element_of s < length js)%nat -> al s = true) -> al (A_cells (length js)) = false ->
  describes_networks L (q_nets (x_q c)) js ps ->
  natural_is j "id" n -> (n < q_nets (x_q c))%nat -> natural_is j "rows" r -> natural_is j "cols" k -> (0 < r)%nat -> (0 < k)%nat ->
  json_to_program L al (F_doc (JArr (js ++ j :: rest))) c = Bad UB_null.
Proof. exact C53_memory_actual_l. Qed.
Print Assumptions C53_memory_actual.
Example C53_example_memory :
  json_to_program strict (fun s => match s with A_cells 1 => false | _ => true end) (F_doc (JArr [net_doc; net_doc])) old_program = Bad UB_null.
Proof. vm_compute. reflexivity. Qed.

(** C53: after elements that are loaded, a position, number of rows or number of columns outside 32 bits is converted with
    undefined behaviour. *)
Theorem C53_numbers_actual : forall L al c js ps j rest d, releasable c -> (forall s, (element_of s < length js)%nat -> al s = true) ->
  describes_networks L (q_nets (x_q c)) js ps -> (forall z, truncates d z -> ~ 0 <= z < 2 ^ 32) ->
  member_is j "id" (JNum d)
  \/ (exists n, natural_is j "id" n /\ (n < q_nets (x_q c))%nat /\ (member_is j "rows" (JNum d) \/ (exists r, natural_is j "rows" r) /\ member_is j "cols" (JNum d))) ->
  json_to_program L al (F_doc (JArr (js ++ j :: rest))) c = Bad UB_float.
Proof. exact C53_numbers_actual_l. Qed.
Print Assumptions C53_numbers_actual.
Example C53_example_numbers :
  json_to_program strict plenty (F_doc (JArr [net_doc; net_j (-1) 1 []])) old_program = Bad UB_float
  /\ json_to_program strict plenty (F_doc (JArr [net_doc; net_j 0 (2 ^ 32) []])) old_program = Bad UB_float
  /\ (forall z, truncates (Fin (-1) 0) z -> ~ 0 <= z < 2 ^ 32).
Proof.
  split; [vm_compute; reflexivity|]. split; [vm_compute; reflexivity|]. intros z (f & A & B & _). simpl in *. lia.
Qed.

(** C53: after elements, rows and cells that are loaded, a cell that is part of a taller instruction makes the loader read
    past the end of the table of instructions. *)
Theorem C53_occupied_actual : forall L al c js ps j rest n r k before rows above xs x row below b ds, releasable c -> (forall s, al s = true) ->
  describes_networks L (q_nets (x_q c)) js ps -> beyond L = Bad UB_oob ->
  natural_is j "id" n -> (n < q_nets (x_q c))%nat -> natural_is j "rows" r -> natural_is j "cols" k -> Z.of_nat r < 2 ^ 31 -> Z.of_nat k < 2 ^ 31 ->
  member_is j "networkData" (JArr (above ++ JArr (before ++ x :: row) :: below)) -> length (above ++ JArr (before ++ x :: row) :: below) = r ->
  Forall2 (row_text L k) above rows -> length (before ++ x :: row) = k -> Forall2 (cell_text L) before xs ->
  occupied x -> member_is x "bar" (JBool b) -> member_is x "data" (JArr ds) ->
  json_to_program L al (F_doc (JArr (js ++ j :: rest))) c = Bad UB_oob.
Proof. exact C53_occupied_actual_l. Qed.
Print Assumptions C53_occupied_actual.
(** As in the program shipped with the library. *)
Example C53_example_occupied :
  json_to_program strict plenty (F_doc (JArr [net_doc;
    net_j 0 1 [[cell_j "CTU" false [op_j "counter" "C" "1"; op_j "preset" "NONE" "3"]]; [cell_j "occupied" false []]]]%string)) old_program = Bad UB_oob
  /\ (exists x, cell_text strict (cell_j "CTU" false [op_j "counter" "C" "1"; op_j "preset" "NONE" "3"]) x) /\ occupied (cell_j "occupied" false []).
Proof.
  split; [vm_compute; reflexivity|]. split.
  - eexists. eapply load_cell_sound with (al := true) (als := fun _ => true). vm_compute. reflexivity.
  - apply member_iff. vm_compute. reflexivity.
Qed.

(** C53: a network that has rows but no number of columns is refused, and the next document that describes the same network
    makes the loader follow a null pointer. *)
Theorem C53_again_actual : forall L al c js ps j rest n r, releasable c -> (forall s, (element_of s < length js)%nat -> al s = true) ->
  describes_networks L (q_nets (x_q c)) js ps -> natural_is j "id" n -> (n < q_nets (x_q c))%nat -> natural_is j "rows" r -> (0 < r)%nat ->
  (forall d, ~ member_is j "cols" (JNum d)) ->
  exists c', json_to_program L al (F_doc (JArr (js ++ j :: rest))) c = Ok (J_FAIL, c')
    /\ forall L' al' j' rest', natural_is j' "id" n -> json_to_program L' al' (F_doc (JArr (j' :: rest'))) c' = Bad UB_null.
Proof. exact C53_again_actual_l. Qed.
Print Assumptions C53_again_actual.
Example C53_example_again : exists c', let bad := obj [("id", int_num 1); ("rows", int_num 3)]%string in
  json_to_program strict plenty (F_doc (JArr [net_doc; bad])) old_program = Ok (J_FAIL, c')
  /\ json_to_program strict plenty (F_doc (JArr [net_doc])) c' = Bad UB_null
  /\ exists c'', json_to_program strict plenty (F_doc (JArr [net_doc])) old_program = Ok (J_OK, c'').
Proof.
  eexists. split; [vm_compute; reflexivity|]. split; [vm_compute; reflexivity|]. eexists. vm_compute. reflexivity.
Qed.
