(** Property theorems: placing instructions (C39, C49). *)
From Verif Require Import P_Place Demo.

(** ** C39 *)

(** C39: an instruction of known size is placed exactly if its whole span is inside the network and vacant and memory for its
    operands is available; then the span is marked, the operands are allocated empty, and nothing else changes, not even the
    power of the span. If it is refused only the last error changes, unless memory ran out. *)
Theorem C39_places : forall alloc n r col f fid c cells dq, whole_program c -> block_size c f fid cells dq -> (1 <= cells)%nat ->
  peek c LNets <> None ->
  exists b c', fn_cell alloc n r col f fid c = Ok (b, c')
    /\ (b = true <-> inside c n r col cells /\ vacant c n r col cells /\ (dq = 0%nat \/ alloc = true))
    /\ (b = true -> placed c' n r col f cells dq /\ changes_only c c' (span_place n r col cells))
    /\ (b = false -> changes_only c c' (fun l => l = LErr)
         \/ (inside c n r col cells /\ vacant c n r col cells /\ (0 < dq)%nat /\ alloc = false)).
Proof. exact C39_places_l. Qed.
Print Assumptions C39_places.

(** C39, lack of memory: all cells of the span are turned into invalid instructions, and nothing else but the last error changes. *)
Theorem C39_no_memory_actual : forall n r col f fid c cells dq, whole_program c -> block_size c f fid cells dq -> (1 <= cells)%nat -> (0 < dq)%nat ->
  inside c n r col cells -> vacant c n r col cells ->
  exists c', fn_cell false n r col f fid c = Ok (false, c')
    /\ (forall k, (k < cells)%nat -> peek c' (LCell n (r + k) col) = Some (VCell false I_INV 0) /\ peek c' (LDataLen n (r + k) col) = None)
    /\ changes_only c c' (fun l => span_place n r col cells l \/ l = LErr).
Proof. exact C39_no_memory_actual_l. Qed.
Print Assumptions C39_no_memory_actual.

(** C39: a foreign function that was never added is refused, changing only the last error. *)
Theorem C39_unregistered : forall alloc n r col fid c fo, whole_program c -> peek c LForeign = Some (VForeign fo) -> (fo_qty fo <= fid)%nat ->
  exists c', fn_cell alloc n r col I_FOREIGN fid c = Ok (false, c') /\ changes_only c c' (fun l => l = LErr).
Proof. exact C39_unregistered_l. Qed.
Print Assumptions C39_unregistered.

(** C39, codes that are no instructions: for a position inside the network the table of sizes is read out of bounds. *)
Theorem C39_code_undefined : forall alloc n r col f fid c, inside c n r col 1 -> f <> I_FOREIGN -> documented f = None ->
  fn_cell alloc n r col f fid c = Bad UB_oob.
Proof. exact C39_code_undefined_l. Qed.
Print Assumptions C39_code_undefined.

(** C39, sequences of placements: whatever is requested, also when memory runs out, every cell that holds an instruction or
    a part of one keeps it with its operands, and the program stays whole. *)
Theorem C39_preserves : forall c c', whole_program c -> peek c LNets <> None -> builds c c' ->
  whole_program c' /\ forall n r col bar i dq, peek c (LCell n r col) = Some (VCell bar i dq) -> i <> I_NOP ->
    peek c' (LCell n r col) = Some (VCell bar i dq) /\ peek c' (LDataLen n r col) = peek c (LDataLen n r col)
    /\ (forall k, peek c' (LData n r col k) = peek c (LData n r col k)).
Proof. exact C39_preserves_l. Qed.
Print Assumptions C39_preserves.
(* A timer is placed at row 1, then an addition over it is refused, then a contact is placed above; the timer is kept. *)
Example C39_case :
  let c := demo [[cellv I_NOP []; cellv I_NOP []]; [cellv I_NOP []; cellv I_NOP []]; [cellv I_NOP []; cellv I_NOP []]] in
  whole_program c /\ block_size c I_TON 0 2 2 /\ inside c 0 1 1 2 /\ vacant c 0 1 1 2
  /\ exists c1 c2 c3, fn_cell true 0 1 1 I_TON 0 c = Ok (true, c1) /\ placed c1 0 1 1 I_TON 2 2
     /\ fn_cell true 0 0 1 I_ADD 0 c1 = Ok (false, c2) /\ fn_cell true 0 0 1 I_NO 0 c2 = Ok (true, c3)
     /\ builds c c3 /\ code_at c3 0 0 1 = I_NO /\ code_at c3 0 1 1 = I_TON /\ code_at c3 0 2 1 = I_MULTI.
Proof.
  cbv zeta. split.
  { intros n N. simpl in N. assert (n = 0)%nat as -> by lia. do 3 eexists. split; [reflexivity|]. intros r col R C. simpl in R, C.
    do 3 (destruct r as [|r]; [do 2 (destruct col as [|col]; [do 3 eexists; split; [reflexivity|]; right; exists 0%nat; split; [reflexivity|apply le_n]|]); lia|]). lia. }
  split; [left; reflexivity|]. split; [split; [simpl; lia|do 3 eexists; split; [reflexivity|simpl; lia]]|].
  split; [intros k K; do 2 (destruct k as [|k]; [do 2 eexists; reflexivity|]); lia|].
  eexists. eexists. eexists. split; [vm_compute; reflexivity|]. split.
  { split; [reflexivity|]. split; [reflexivity|]. split; [intros i I; do 2 (destruct i as [|i]; [reflexivity|]); lia|].
    split; [intros _ k K; assert (k = 1)%nat as -> by lia; eexists; split; reflexivity|discriminate]. }
  split; [vm_compute; reflexivity|]. split; [vm_compute; reflexivity|]. split.
  { eapply (bu_more true 0 1 1 I_TON 0 2 2); [left; reflexivity|lia|vm_compute; reflexivity|].
    eapply (bu_more true 0 0 1 I_ADD 0 3 3); [left; reflexivity|lia|vm_compute; reflexivity|].
    eapply (bu_more true 0 0 1 I_NO 0 1 1); [left; reflexivity|lia|vm_compute; reflexivity|constructor]. }
  repeat split; reflexivity.
Qed.

(** ** C49 *)

(** C49 is violated by every block of two or more rows with operands that is placed below the top row: from then on the scan
    takes the row above and the row of the block as one group of parallel branches in that column, also if they were separate
    before. *)
Theorem C49_joined_actual : forall alloc n r col f fid c c' cells dq rows, whole_program c -> peek c LNets <> None -> block_size c f fid cells dq ->
  (2 <= cells)%nat -> (0 < dq)%nat -> fn_cell alloc n (S r) col f fid c = Ok (true, c') ->
  (exists en cols, peek c (LNet n) = Some (VNet en rows cols)) ->
  In (S r) (group rows (bar_at c' n) r col) /\ (bar_at c n (S r) col = false -> ~ In (S r) (group rows (bar_at c n) r col)).
Proof. exact C49_joined_actual_l. Qed.
Print Assumptions C49_joined_actual.
Example C49_joined_case :
  let c := demo [[cellv I_NO [V R_M 0]; cellv I_COIL [V R_M 1]]; [cellv I_NOP []; cellv I_NOP []]; [cellv I_NOP []; cellv I_NOP []]] in
  bar_at c 0 1 0 = false /\ exists c', fn_cell true 0 1 0 I_EQ 0 c = Ok (true, c')
  /\ group 3 (bar_at c 0) 0 0 = [0%nat] /\ group 3 (bar_at c' 0) 0 0 = [0%nat; 1%nat].
Proof. cbv zeta. split; [reflexivity|]. eexists. split; [vm_compute; reflexivity|]. split; reflexivity. Qed.
