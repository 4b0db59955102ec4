(** Property theorems: the shipped schema against the loader and the saver (C56). *)
From Coq Require Import String.
From Verif Require Import P_Shipped Demo.
Open Scope list_scope.
Open Scope Z_scope.

(** ** C56 *)

(** C56: what the shipped schema asks for: a document is valid exactly if it is an array of networks with cells in one of the
    listed forms. *)
Theorem C56_valid : forall (E V : json -> json -> Prop) j, draft7 E V -> text_equality E -> (V j shipped <-> document_form j).
Proof. exact C56_valid_l. Qed.
Print Assumptions C56_valid.

(** C56: the library's validator says so too, if it compares texts correctly and the document is one it can check. *)
Theorem C56_answer : forall (cmp : comparison) j, (forall x t, cmp x (JStr t) = true <-> x = JStr t) -> testable shipped j ->
  exists b, validate_file cmp (F_doc j) (F_doc shipped) = Ok b /\ (b = true <-> document_form j).
Proof. exact C56_answer_l. Qed.
Print Assumptions C56_answer.
(** The sample program that comes with the library is valid. *)
Example C56_example_sample : document_form demo_json /\ forall E V, draft7 E V -> text_equality E -> V demo_json shipped.
Proof.
  assert (F : document_form demo_json).
  { destruct (C56_answer cmp_text demo_json cmp_text_ok) as (b & H & B); [apply testableb_ok; vm_compute; reflexivity|]. apply B. apply ok_inj. rewrite <- H. vm_compute. reflexivity. }
  split; [exact F|]. intros E V D T. now apply (C56_valid E V demo_json D T).
Qed.
(** A missing operand, a wrong type and an additional member are not. *)
Example C56_example_wrong : map (fun j => valid_doc j shipped)
  [one_cell "NO" []; one_cell "NO" [operand_j "value" "D" "1"]; one_cell "CONN" []; JArr [obj_j [("id", int_num 0)]]; one_cell "TOFF" [operand_j "timer" "T" "1"; operand_j "basetime" "SEC" "5"]]
  = [Some false; Some false; Some true; Some false; Some false].
Proof. vm_compute. reflexivity. Qed.

(** C56: a valid document is loaded exactly if its networks are ones of the program with the announced sizes, no cell has one
    of seven symbols, the values can be read, and reading past the table of instructions gives 0 where a cell is occupied. *)
Theorem C56_loads : forall (E V : json -> json -> Prop) L al js c, draft7 E V -> text_equality E -> V (JArr js) shipped ->
  releasable c -> (forall s, al s = true) ->
  ((exists c', json_to_program L al (F_doc (JArr js)) c = Ok (J_OK, c')) <-> Forall (placeable L (q_nets (x_q c))) js).
Proof. exact C56_loads_l. Qed.
Print Assumptions C56_loads.
Lemma form_by j : testableb shipped j = true -> validate_file cmp_text (F_doc j) (F_doc shipped) = Ok true -> document_form j.
Proof. intros T A. destruct (C56_answer cmp_text j cmp_text_ok (testableb_ok _ _ T)) as (b & H & B). apply B. apply ok_inj. now rewrite <- H. Qed.
Example C56_example_loads : let js := match one_cell "NO" [operand_j "value" "I" "1.3"] with JArr js => js | _ => [] end in
  document_form (JArr js) /\ verdict strict plenty (F_doc (JArr js)) old_program = Some J_OK /\ Forall (placeable strict 2) js.
Proof.
  intros js. assert (F : document_form (JArr js)) by (apply form_by; vm_compute; reflexivity). split; [exact F|]. split; [vm_compute; reflexivity|].
  assert (R : releasable old_program) by (apply releasableb_ok; vm_compute; reflexivity).
  set (E := fun a b => cmp_text a b = true). apply (C56_loads E _ strict plenty js old_program (draft7_exists E) cmp_text_ok); [now apply (C56_valid E _ _ (draft7_exists E) cmp_text_ok)|exact R|reflexivity|].
  eexists. vm_compute. reflexivity.
Qed.

(** C56: a valid document with one of the seven symbols is never accepted. *)
Theorem C56_refused_actual : forall (E V : json -> json -> Prop) L al j c c' x s, draft7 E V -> text_equality E -> V j shipped -> releasable c ->
  cell_in_document j x -> string_is x "symbol" (txt s) -> In s refused_symbols \/ s = "occupied" /\ beyond L <> Ok 0%nat ->
  json_to_program L al (F_doc j) c <> Ok (J_OK, c').
Proof. exact C56_refused_actual_l. Qed.
Print Assumptions C56_refused_actual.
(** Valid documents the loader refuses, and the sample program, whose occupied cells it cannot look up. *)
Example C56_example_refused :
  let docs := [one_cell "NEG" [operand_j "value" "D" "1"; operand_j "result" "D" "2"]; one_cell "TOF" [operand_j "timer" "T" "1"; operand_j "basetime" "SEC" "5"];
               one_cell "SHL" [operand_j "value" "D" "1"; operand_j "n" "D" "1"; operand_j "result" "D" "2"]] in
  Forall document_form docs /\ map (fun j => verdict strict plenty (F_doc j) old_program) docs = repeat (Some J_FAIL) 3
  /\ (exists x, cell_in_document demo_json x /\ string_is x "symbol" (txt "occupied")) /\ verdict strict plenty (F_doc demo_json) old_program = None.
Proof.
  intros docs. split; [repeat constructor; apply form_by; vm_compute; reflexivity|]. split; [vm_compute; reflexivity|]. split; [|vm_compute; reflexivity].
  set (items := fun j => match j with JArr l => l | _ => [] end). set (n := nth 0 (items demo_json) JNull). set (rs := items (match member (txt "networkData") n with Some v => v | None => JNull end)).
  set (cs := items (nth 1 rs JNull)). exists (nth 2 cs JNull). split; [|apply member_iff; vm_compute; reflexivity]. exists (items demo_json), n, rs, cs. split; [reflexivity|].
  split; [apply nth_In; vm_compute; lia|]. split; [apply member_iff; vm_compute; reflexivity|]. split; [|apply nth_In; vm_compute; lia].
  assert (Q : nth 1 rs JNull = JArr cs) by (vm_compute; reflexivity). rewrite <- Q. apply nth_In. vm_compute. lia.
Qed.

(** C56: off-delay timers and foreign functions, which the loader knows, occur in no valid document. *)
Theorem C56_unlisted_actual : forall (E V : json -> json -> Prop) j x s, draft7 E V -> text_equality E -> V j shipped ->
  cell_in_document j x -> string_is x "symbol" (txt s) -> ~ In s ["TOFF"; "FOREIGN"].
Proof. exact C56_unlisted_actual_l. Qed.
Print Assumptions C56_unlisted_actual.
Example C56_example_unlisted : verdict strict plenty (F_doc (one_cell "TOFF" [operand_j "timer" "T" "1"; operand_j "basetime" "SEC" "5"])) old_program = Some J_OK
  /\ verdict strict plenty (F_doc (one_cell "FOREIGN" [])) old_program = Some J_OK
  /\ exists x, cell_in_document (one_cell "NOP" []) x /\ string_is x "symbol" (txt "NOP") /\ document_form (one_cell "NOP" []).
Proof.
  split; [vm_compute; reflexivity|]. split; [vm_compute; reflexivity|]. exists (obj_j [("symbol", JStr (txt "NOP")); ("bar", JBool false); ("data", JArr [])]). split; [|split].
  - set (x := obj_j _). eexists _, _, [JArr [x]], [x]. split; [reflexivity|]. split; [left; reflexivity|]. split; [apply member_iff; reflexivity|]. split; left; reflexivity.
  - apply member_iff. reflexivity.
  - apply form_by; vm_compute; reflexivity.
Qed.

(** C56: the document a program is saved as is valid exactly if every cell has one of the instructions and operand types that
    are written as the schema asks, and the library's validator finds that out. *)
Theorem C56_saved : forall (E V : json -> json -> Prop) L c j, draft7 E V -> text_equality E -> releasable c -> program_to_json L c = Ok j ->
  (V j shipped <-> conforming c).
Proof. exact C56_saved_l. Qed.
Print Assumptions C56_saved.

(** C56: the validator's answer about a saved program. *)
Theorem C56_saved_answer : forall (cmp : comparison) L c j, (forall x t, cmp x (JStr t) = true <-> x = JStr t) -> releasable c -> moderate c -> program_to_json L c = Ok j ->
  exists b, validate_file cmp (F_doc j) (F_doc shipped) = Ok b /\ (b = true <-> conforming c).
Proof. exact C56_saved_answer_l. Qed.
Print Assumptions C56_saved_answer.
(** A program that is saved as a valid document, and one with a move that is not. *)
Definition plain_program : ctx :=
  demo_nets [net_on true [[cellv I_NO [V R_I (1 + 256 * 3)]; on (bar (cellv I_COIL [V R_Q 513]))]; [cellv I_CTU [V R_C 1; V R_NONE 10]; cellv I_CONN []]];
             net_on false [[cellv I_TON [V R_T 1; V R_I (-2)]; cellv I_ADD [V R_D 7; V R_D 2; V R_D 3]]]].
Example C56_example_saved : releasable plain_program /\ moderate plain_program /\ conforming plain_program /\ valid_doc (saved strict plain_program) shipped = Some true
  /\ releasable stored_program /\ moderate stored_program /\ ~ conforming stored_program /\ valid_doc (saved strict stored_program) shipped = Some false.
Proof.
  assert (ON : forall c j b, releasable c -> moderate c -> program_to_json strict c = Ok j -> validate_file cmp_text (F_doc j) (F_doc shipped) = Ok b -> (b = true <-> conforming c)).
  { intros c j b R M J A. destruct (C56_saved_answer cmp_text strict c j cmp_text_ok R M J) as (b' & H & B). rewrite A in H. apply ok_inj in H. now subst b'. }
  assert (R1 : releasable plain_program) by (apply releasableb_ok; vm_compute; reflexivity). assert (M1 : moderate plain_program) by (apply moderateb_ok; vm_compute; reflexivity).
  assert (R2 : releasable stored_program) by (apply releasableb_ok; vm_compute; reflexivity). assert (M2 : moderate stored_program) by (apply moderateb_ok; vm_compute; reflexivity).
  assert (J1 : program_to_json strict plain_program = Ok (saved strict plain_program)) by (vm_compute; reflexivity).
  assert (J2 : program_to_json strict stored_program = Ok (saved strict stored_program)) by (vm_compute; reflexivity).
  assert (V1 : validate_file cmp_text (F_doc (saved strict plain_program)) (F_doc shipped) = Ok true) by (vm_compute; reflexivity).
  assert (V2 : validate_file cmp_text (F_doc (saved strict stored_program)) (F_doc shipped) = Ok false) by (vm_compute; reflexivity).
  split; [exact R1|]. split; [exact M1|]. split; [now apply (ON _ _ _ R1 M1 J1 V1)|]. split; [unfold valid_doc; now rewrite V1|].
  split; [exact R2|]. split; [exact M2|]. split; [|unfold valid_doc; now rewrite V2]. intros C. apply (ON _ _ _ R2 M2 J2 V2) in C. discriminate.
Qed.

(** C56: a program with a move, a negation, an off-delay timer, a rotation, a foreign function, a shift with its two operands, a
    table move with its five, or a time in milliseconds is saved as a document that is not valid. *)
Theorem C56_invalid_actual : forall (E V : json -> json -> Prop) L c j n r col bar i dq, draft7 E V -> text_equality E -> releasable c -> program_to_json L c = Ok j ->
  program_cell c n r col -> peek c (LCell n r col) = Some (VCell bar i dq) ->
  In i [I_MOVE; I_NEG; I_TOF; I_ROL; I_ROR; I_FOREIGN] \/ In (i, dq) [(I_SHL, 2); (I_SHR, 2); (I_TMOVE, 5)]%nat
  \/ In i [I_TON; I_TP] /\ (exists v, operand_at c n r col 1 v /\ v_type v = R_NONE) ->
  ~ V j shipped.
Proof. exact C56_invalid_actual_l. Qed.
Print Assumptions C56_invalid_actual.
Example C56_example_invalid : exists v, program_cell stored_program 1 0 1 /\ peek stored_program (LCell 1 0 1) = Some (VCell false I_MOVE 2)
  /\ peek stored_program (LData 1 0 1 0) = Some v.
Proof. eexists. split; [split; [vm_compute; auto|]; do 3 eexists; split; [vm_compute; reflexivity|vm_compute; auto]|]. split; vm_compute; reflexivity. Qed.
