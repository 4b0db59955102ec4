(** Property theorems: moves and foreign calls (C20, C21, C22). *)
From Verif Require Import P_Move Demo.

(** ** MOVE *)

(** ** Table accesses *)

(** ** TMOVE *)

(** ** C20 *)

(** C20: MOVE between integer registers stores the 32-bit number read from the source at the place of the destination,
    copies the power, and changes nothing else; it faults when the destination addresses no place. It does so whatever
    the power on its left is. *)
Theorem C20_move_word : forall E s n r col b v0 v1 z,
  executing (s_ctx s) n r col -> left_powered (s_ctx s) n r col b ->
  operand_at (s_ctx s) n r col 0 v0 -> operand_at (s_ctx s) n r col 1 v1 -> stores_ok (s_ctx s) ->
  is_word (v_type v0) -> is_word (v_type v1) -> reads (s_ctx s) v0 z ->
  exists c', runs E I_MOVE r col s (match target (s_ctx s) v1 with Some _ => E_OK | None => E_SETDATAVAL end) c'
    /\ stores (s_ctx s) v1 z c' /\ powered c' n r col b
    /\ effect (s_ctx s) c' [(n, r, col)] (Some v1) [v0].
Proof. exact C20_move_word_l. Qed.
Print Assumptions C20_move_word.

(** C20: MOVE between real registers copies the pattern. *)
Theorem C20_move_real : forall E s n r col b v0 v1 u,
  executing (s_ctx s) n r col -> left_powered (s_ctx s) n r col b ->
  operand_at (s_ctx s) n r col 0 v0 -> operand_at (s_ctx s) n r col 1 v1 -> stores_ok (s_ctx s) ->
  v_type v0 = R_R -> v_type v1 = R_R -> fits (v_raw v0) -> ~ bad_index (s_ctx s) v0 ->
  holds (s_ctx s) (LReg B_R (ix (v_raw v0))) u ->
  exists c', runs E I_MOVE r col s (match target (s_ctx s) v1 with Some _ => E_OK | None => E_SETDATAVAL end) c'
    /\ stores (s_ctx s) v1 u c' /\ powered c' n r col b
    /\ effect (s_ctx s) c' [(n, r, col)] (Some v1) [].
Proof. exact C20_move_real_l. Qed.
Print Assumptions C20_move_real.

(** C20: what a word register keeps of a number has the same 32 bits. *)
Theorem C20_bits : forall t z, is_word t \/ t = R_R -> t <> R_T -> (kept t z) mod 2 ^ 32 = z mod 2 ^ 32.
Proof. exact C20_bits_l. Qed.
Print Assumptions C20_bits.

(** C20: incompatible operand types fault the program with a type error and change at most the error mark. *)
Theorem C20_mismatch : forall E s n r col v0 v1 z,
  executing (s_ctx s) n r col -> operand_at (s_ctx s) n r col 0 v0 -> operand_at (s_ctx s) n r col 1 v1 ->
  match v_type v0 with
  | R_R => v_type v1 <> R_R /\ fits (v_raw v0) /\ ~ bad_index (s_ctx s) v0 /\ holds (s_ctx s) (LReg B_R (ix (v_raw v0))) z
  | _ => is_word (v_type v0) -> ~ is_word (v_type v1) /\ reads (s_ctx s) v0 z
  end ->
  exists c', runs E I_MOVE r col s E_TYPEMISMATCH c' /\ changes_only (s_ctx s) c' (eq LErr).
Proof. exact C20_mismatch_l. Qed.
Print Assumptions C20_mismatch.

(** C20: a real source with an index out of range faults with a range error and changes nothing. *)
Theorem C20_real_range : forall E s n r col v0 v1,
  executing (s_ctx s) n r col -> operand_at (s_ctx s) n r col 0 v0 -> operand_at (s_ctx s) n r col 1 v1 ->
  v_type v0 = R_R -> fits (v_raw v0) -> bad_index (s_ctx s) v0 -> Z.of_nat (q_r (x_q (s_ctx s))) <= 2 ^ 31 ->
  runs E I_MOVE r col s E_OUTOFRANGE (s_ctx s).
Proof. exact C20_real_range_l. Qed.
Print Assumptions C20_real_range.

(** C20: a cell without both operands faults with a range error and changes nothing. *)
Theorem C20_no_operands : forall E s n r col b k d,
  executing (s_ctx s) n r col -> peek (s_ctx s) (LCell n r col) = Some (VCell b k d) -> (d < 2)%nat ->
  runs E I_MOVE r col s E_OUTOFRANGE (s_ctx s).
Proof. exact C20_no_operands_l. Qed.
Print Assumptions C20_no_operands.

(** C20, finding: "it moves only when powered" is false; an unpowered MOVE stores too. *)
Theorem C20_power_refuted : exists E s n r col v0 v1 z l c',
  executing (s_ctx s) n r col /\ left_powered (s_ctx s) n r col false /\ stores_ok (s_ctx s)
  /\ operand_at (s_ctx s) n r col 0 v0 /\ operand_at (s_ctx s) n r col 1 v1 /\ reads (s_ctx s) v0 z
  /\ target (s_ctx s) v1 = Some l /\ runs E I_MOVE r col s E_OK c' /\ peek c' l <> peek (s_ctx s) l.
Proof. exact C20_power_refuted_l. Qed.
Print Assumptions C20_power_refuted.
(* D2 = 2147483647 moved to the analog output 0.1; R0 = 1.5 moved to R3; a move from an input word to a flag. *)
Example C20_case :
  let c := demo [[on (cellv I_NO [V R_M 0]); cellv I_MOVE [V R_D 2; V R_QW 256]];
                 [cellv I_MOVE [V R_R 0; V R_R 3]; cellv I_MOVE [V R_IW 0; V R_M 1]]] in
  executing c 0 0 1 /\ left_powered c 0 0 1 true /\ operand_at c 0 0 1 0 (V R_D 2) /\ operand_at c 0 0 1 1 (V R_QW 256)
  /\ stores_ok c /\ reads c (V R_D 2) 2147483647 /\ target c (V R_QW 256) = Some (LOut 0 K_QW 1)
  /\ executing c 0 1 0 /\ operand_at c 0 1 0 0 (V R_R 0) /\ operand_at c 0 1 0 1 (V R_R 3) /\ ~ bad_index c (V R_R 0)
  /\ holds c (LReg B_R 0) 1069547520 /\ target c (V R_R 3) = Some (LReg B_R 3)
  /\ executing c 0 1 1 /\ operand_at c 0 1 1 0 (V R_IW 0) /\ operand_at c 0 1 1 1 (V R_M 1) /\ reads c (V R_IW 0) 300.
Proof. demo_case. Qed.
Example C20_faults_case :
  let c := demo [[cellv I_MOVE [V R_R (-1); V R_R 3]; cellv I_MOVE [V R_D 0]; cellv I_MOVE [V R_D 0; V R_D 44]]] in
  executing c 0 0 0 /\ operand_at c 0 0 0 0 (V R_R (-1)) /\ operand_at c 0 0 0 1 (V R_R 3) /\ bad_index c (V R_R (-1))
  /\ executing c 0 0 1 /\ peek c (LCell 0 0 1) = Some (VCell false I_MOVE 1)
  /\ executing c 0 0 2 /\ target c (V R_D 44) = None.
Proof. demo_case. Qed.

(** ** C21 *)

(** C21: a table move whose quantity is between 1 and 1024 and whose two blocks lie inside disabled networks copies
    the whole source block, as it was before, onto the destination block, copies the power, and changes nothing
    else. The blocks may overlap. *)
Theorem C21_copy : forall E s n r col b v0 v1 v2 v3 v4 dn dp sn sp q dcells scells f,
  executing (s_ctx s) n r col -> left_powered (s_ctx s) n r col b ->
  operand_at (s_ctx s) n r col 0 v0 -> operand_at (s_ctx s) n r col 1 v1 -> operand_at (s_ctx s) n r col 2 v2 ->
  operand_at (s_ctx s) n r col 3 v3 -> operand_at (s_ctx s) n r col 4 v4 ->
  reads (s_ctx s) v0 (Z.of_nat dn) -> reads (s_ctx s) v1 (Z.of_nat dp) -> reads (s_ctx s) v2 (Z.of_nat sn) ->
  reads (s_ctx s) v3 (Z.of_nat sp) -> reads (s_ctx s) v4 (Z.of_nat q) ->
  (1 <= q <= 1024)%nat -> fits (Z.of_nat dn) -> fits (Z.of_nat sn) ->
  is_table (s_ctx s) dn dcells -> is_table (s_ctx s) sn scells -> Z.of_nat dcells < 2 ^ 32 -> Z.of_nat scells < 2 ^ 32 ->
  (dp + q <= dcells)%nat -> (sp + q <= scells)%nat ->
  (forall i, (i < q)%nat -> exists v, table_entry (s_ctx s) sn (sp + i) v /\ v_raw v = f i) ->
  (forall i, (i < q)%nat -> exists v, table_entry (s_ctx s) dn (dp + i) v) ->
  exists c', runs E I_TMOVE r col s E_OK c' /\ powered c' n r col b
    /\ (forall i, (i < q)%nat -> exists v, table_entry (s_ctx s) dn (dp + i) v
          /\ table_entry c' dn (dp + i) (mk_value (v_type v) (f i) (v_str v)))
    /\ changes_only (s_ctx s) c' (fun l => l = LPow n r col
          \/ (exists i, (i < q)%nat /\ is_entry_place (s_ctx s) dn (dp + i) l)
          \/ (l = LErr /\ exists v, In v [v0; v1; v2; v3; v4] /\ bad_index (s_ctx s) v)).
Proof. exact C21_copy_l. Qed.
Print Assumptions C21_copy.

(** C21: a quantity outside 1 .. 1024 moves nothing. *)
Theorem C21_quantity : forall E s n r col b v0 v1 v2 v3 v4 dn dp sn sp q,
  executing (s_ctx s) n r col -> left_powered (s_ctx s) n r col b ->
  operand_at (s_ctx s) n r col 0 v0 -> operand_at (s_ctx s) n r col 1 v1 -> operand_at (s_ctx s) n r col 2 v2 ->
  operand_at (s_ctx s) n r col 3 v3 -> operand_at (s_ctx s) n r col 4 v4 ->
  reads (s_ctx s) v0 dn -> reads (s_ctx s) v1 dp -> reads (s_ctx s) v2 sn -> reads (s_ctx s) v3 sp -> reads (s_ctx s) v4 q ->
  q < 1 \/ q > 1024 ->
  exists c', runs E I_TMOVE r col s E_OK c' /\ powered c' n r col b
    /\ effect (s_ctx s) c' [(n, r, col)] None [v0; v1; v2; v3; v4].
Proof. exact C21_quantity_l. Qed.
Print Assumptions C21_quantity.

(** C21: a rejected move (a network of the move is scanned, a block leaves its table, a source cell holds no table
    value) faults, is off, and moves nothing. *)
Theorem C21_rejected : forall E s n r col v0 v1 v2 v3 v4 dn dp sn sp q en0 en1 rows0 cols0 rows1 cols1,
  executing (s_ctx s) n r col ->
  operand_at (s_ctx s) n r col 0 v0 -> operand_at (s_ctx s) n r col 1 v1 -> operand_at (s_ctx s) n r col 2 v2 ->
  operand_at (s_ctx s) n r col 3 v3 -> operand_at (s_ctx s) n r col 4 v4 ->
  reads (s_ctx s) v0 (Z.of_nat dn) -> reads (s_ctx s) v1 (Z.of_nat dp) -> reads (s_ctx s) v2 (Z.of_nat sn) ->
  reads (s_ctx s) v3 (Z.of_nat sp) -> reads (s_ctx s) v4 (Z.of_nat q) ->
  (1 <= q <= 1024)%nat -> fits (Z.of_nat dn) -> fits (Z.of_nat sn) -> fits (Z.of_nat dp) -> fits (Z.of_nat sp) ->
  (sn < q_nets (x_q (s_ctx s)))%nat ->
  peek (s_ctx s) (LNet dn) = Some (VNet en0 rows0 cols0) -> peek (s_ctx s) (LNet sn) = Some (VNet en1 rows1 cols1) ->
  Z.of_nat (rows0 * cols0) < 2 ^ 32 -> Z.of_nat (rows1 * cols1) < 2 ^ 32 ->
  en0 = true \/ en1 = true \/ (rows0 * cols0 < dp + q)%nat \/ (rows1 * cols1 < sp + q)%nat
  \/ (exists j, (j < q)%nat /\ (forall i, (i < j)%nat -> exists v, table_entry (s_ctx s) sn (sp + i) v)
        /\ not_entry (s_ctx s) sn (sp + j)) ->
  exists e c', runs E I_TMOVE r col s e c' /\ e <> E_OK /\ powered c' n r col false
    /\ effect (s_ctx s) c' [(n, r, col)] None [v0; v1; v2; v3; v4].
Proof. exact C21_rejected_l. Qed.
Print Assumptions C21_rejected.

(** C21, finding: a destination cell of the wrong type stops the move half way. Part of the block has been written
    although the instruction reports an error. *)
Theorem C21_atomic_refuted : exists E s n r col e c' p,
  executing (s_ctx s) n r col /\ runs E I_TMOVE r col s e c' /\ e <> E_OK
  /\ is_entry_place (s_ctx s) 1 0 p /\ peek c' p <> peek (s_ctx s) p.
Proof. exact C21_atomic_refuted_l. Qed.
Print Assumptions C21_atomic_refuted.

(** C21, finding: network numbers are used before they are checked; one beyond the networks is undefined. *)
Theorem C21_no_network_undefined : forall E s n r col v0 v1 v2 v3 v4 dn dp sn sp q,
  executing (s_ctx s) n r col ->
  operand_at (s_ctx s) n r col 0 v0 -> operand_at (s_ctx s) n r col 1 v1 -> operand_at (s_ctx s) n r col 2 v2 ->
  operand_at (s_ctx s) n r col 3 v3 -> operand_at (s_ctx s) n r col 4 v4 ->
  reads (s_ctx s) v0 dn -> reads (s_ctx s) v1 dp -> reads (s_ctx s) v2 sn -> reads (s_ctx s) v3 sp -> reads (s_ctx s) v4 q ->
  1 <= q <= 1024 -> dn < 0 \/ peek (s_ctx s) (LNet (ix dn)) = None ->
  exists u, undefined E I_TMOVE r col s u.
Proof. exact C21_no_network_undefined_l. Qed.
Print Assumptions C21_no_network_undefined.
(* Two values of network 1 are shifted one place inside network 1 (overlapping blocks). *)
Definition C21_demo : ctx :=
  set_x_q (set_q_nets 2 (x_q (demo []))) (set_x_net (Some [
     mk_network true 1 2 (Some [[on (cellv I_CONN []);
        cellv I_TMOVE [V R_NONE 1; V R_NONE 1; V R_NONE 1; V R_NONE 0; V R_NONE 2]]]);
     mk_network false 2 2 (Some [[cellv I_NOP [V R_D 5]; cellv I_NOP [V R_D 6]];
                                 [cellv I_NOP [V R_IW 7]; cellv I_NOP [V R_M 8]]])]) (demo [])).
Ltac entry := do 6 eexists; repeat match goal with |- _ /\ _ => split end; [reflexivity|simpl; lia|reflexivity|simpl; lia|reflexivity|exact I].
Example C21_case :
  let c := C21_demo in
  executing c 0 0 1 /\ left_powered c 0 0 1 true /\ operand_at c 0 0 1 4 (V R_NONE 2) /\ reads c (V R_NONE 2) 2
  /\ is_table c 1 4 /\ table_entry c 1 0 (V R_D 5) /\ table_entry c 1 1 (V R_D 6) /\ table_entry c 1 2 (V R_IW 7)
  /\ not_entry c 1 3.
Proof.
  intros c. repeat match goal with |- _ /\ _ => split end; try entry.
  1-4: demo_case.
  - split; [apply Nat.ltb_lt; vm_compute; reflexivity|do 2 eexists; split; reflexivity].
  - do 6 eexists; repeat match goal with |- _ /\ _ => split end; [reflexivity|simpl; lia|reflexivity|].
    right; split; [simpl; lia|]. eexists; split; [reflexivity|exact I].
Qed.

(** ** C22 *)

(** C22: with the identifier 0 or 1 of a registered function, FOREIGN calls exactly that function once, with its own
    position, and returns what it returns. *)
Theorem C22_call_partial : forall E s n r col v z f,
  executing (s_ctx s) n r col -> operand_at (s_ctx s) n r col 0 v -> reads (s_ctx s) v z -> ~ bad_index (s_ctx s) v ->
  z = 0 \/ z = 1 -> z < Z.of_nat (fo_qty (x_for (s_ctx s))) -> elem (fo_fn (x_for (s_ctx s))) (ix z) = Some f ->
  let (e, c') := fexec E (length (s_tr s)) (ix z) col r (s_ctx s) in
  outcome E I_FOREIGN r col s = Some (Ok (e, mk_st c' (EvForeign (ix z) col r :: s_tr s))).
Proof. exact C22_call_partial_l. Qed.
Print Assumptions C22_call_partial.

(** C22: the identifiers 0 and 1, when nothing is registered under them, fault without calling anything. *)
Theorem C22_unregistered_partial : forall E s n r col v z,
  executing (s_ctx s) n r col -> operand_at (s_ctx s) n r col 0 v -> reads (s_ctx s) v z -> ~ bad_index (s_ctx s) v ->
  z = 0 \/ z = 1 -> Z.of_nat (fo_qty (x_for (s_ctx s))) <= z ->
  runs E I_FOREIGN r col s E_NOFOREIGN (s_ctx s).
Proof. exact C22_unregistered_partial_l. Qed.
Print Assumptions C22_unregistered_partial.

(** C22, finding: every other identifier calls function 0. *)
Theorem C22_other_ids_actual : forall E s n r col v z f,
  executing (s_ctx s) n r col -> operand_at (s_ctx s) n r col 0 v -> reads (s_ctx s) v z -> ~ bad_index (s_ctx s) v ->
  z <> 1 -> (0 < fo_qty (x_for (s_ctx s)))%nat -> elem (fo_fn (x_for (s_ctx s))) 0 = Some f ->
  let (e, c') := fexec E (length (s_tr s)) 0 col r (s_ctx s) in
  outcome E I_FOREIGN r col s = Some (Ok (e, mk_st c' (EvForeign 0 col r :: s_tr s))).
Proof. exact C22_other_ids_actual_l. Qed.
Print Assumptions C22_other_ids_actual.

(** C22, finding: so "the identifier selects the function, unknown ones fault" is false. *)
Theorem C22_refuted : exists E s n r col v z e s',
  executing (s_ctx s) n r col /\ operand_at (s_ctx s) n r col 0 v /\ reads (s_ctx s) v z
  /\ Z.of_nat (fo_qty (x_for (s_ctx s))) <= z
  /\ outcome E I_FOREIGN r col s = Some (Ok (e, s')) /\ In (EvForeign 0 col r) (s_tr s').
Proof. exact C22_refuted_l. Qed.
Print Assumptions C22_refuted.
Example C22_case :
  let c := set_x_for (mk_foreign 2 (Some [mk_fdesc 7 (mk_iocd 1 1 1 1) false; mk_fdesc 9 (mk_iocd 1 1 1 1) false])) (demo [[cellv I_FOREIGN [V R_NONE 1]]]) in
  executing c 0 0 0 /\ operand_at c 0 0 0 0 (V R_NONE 1) /\ reads c (V R_NONE 1) 1 /\ ~ bad_index c (V R_NONE 1)
  /\ elem (fo_fn (x_for c)) 1 = Some (mk_fdesc 9 (mk_iocd 1 1 1 1) false).
Proof. demo_case. Qed.
