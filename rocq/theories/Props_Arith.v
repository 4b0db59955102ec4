(** Property theorems: arithmetic, bitwise and shift instructions (C16, C17, C18). *)
From Verif Require Import P_Arith Demo.

(** ** C16 *)

(** C16: powered ADD, MUL, DIV and MOD store the exact result in operand 2 and change nothing else. *)
Theorem C16_exact : forall E s n r col i v0 v1 v2 a b w,
  In i [I_ADD; I_MUL; I_DIV; I_MOD] -> computes i a b = Some w -> fits w ->
  (i = I_MOD -> ~ (a = - 2 ^ 31 /\ b = -1)) ->
  executing (s_ctx s) n r col -> left_powered (s_ctx s) n r col true ->
  operand_at (s_ctx s) n r col 0 v0 -> operand_at (s_ctx s) n r col 1 v1 -> operand_at (s_ctx s) n r col 2 v2 ->
  stores_ok (s_ctx s) -> reads (s_ctx s) v0 a -> reads (s_ctx s) v1 b ->
  exists c', runs E i r col s E_OK c' /\ powered c' n r col true /\ stores (s_ctx s) v2 w c'
    /\ effect (s_ctx s) c' [(n, r, col)] (Some v2) [v0; v1].
Proof. exact C16_exact_l. Qed.
Print Assumptions C16_exact.

(** C16: DIV by zero stores zero. *)
Theorem C16_div_by_zero : forall E s n r col v1 v2,
  executing (s_ctx s) n r col -> left_powered (s_ctx s) n r col true ->
  operand_at (s_ctx s) n r col 1 v1 -> operand_at (s_ctx s) n r col 2 v2 ->
  stores_ok (s_ctx s) -> reads (s_ctx s) v1 0 ->
  exists c', runs E I_DIV r col s E_OK c' /\ powered c' n r col true /\ stores (s_ctx s) v2 0 c'
    /\ effect (s_ctx s) c' [(n, r, col)] (Some v2) [v1].
Proof. exact C16_div_by_zero_l. Qed.
Print Assumptions C16_div_by_zero.

(** C16: without power they switch their cell off and store nothing. *)
Theorem C16_unpowered : forall E s n r col i,
  In i [I_ADD; I_MUL; I_DIV; I_MOD] -> executing (s_ctx s) n r col -> left_powered (s_ctx s) n r col false ->
  exists c', runs E i r col s E_OK c' /\ powered c' n r col false /\ effect (s_ctx s) c' [(n, r, col)] None [].
Proof. exact C16_unpowered_l. Qed.
Print Assumptions C16_unpowered.

(** C16: SUB stores the exact difference and powers its own cell and, for an equal or smaller first operand, the
    cell one or two rows below. *)
Theorem C16_sub : forall E s n r col v0 v1 v2 a b row,
  fits (a - b) ->
  row = (match a ?= b with Gt => r | Eq => S r | Lt => S (S r) end) ->
  executing (s_ctx s) n r col -> left_powered (s_ctx s) n r col true -> cell_exists (s_ctx s) n row col ->
  operand_at (s_ctx s) n r col 0 v0 -> operand_at (s_ctx s) n r col 1 v1 -> operand_at (s_ctx s) n r col 2 v2 ->
  stores_ok (s_ctx s) -> reads (s_ctx s) v0 a -> reads (s_ctx s) v1 b ->
  exists c', runs E I_SUB r col s E_OK c'
    /\ powered c' n r col true /\ powered c' n row col true
    /\ stores (s_ctx s) v2 (a - b) c'
    /\ effect (s_ctx s) c' [(n, r, col); (n, row, col)] (Some v2) [v0; v1].
Proof. exact C16_sub_l. Qed.
Print Assumptions C16_sub.

(** C16: without power SUB only switches its cell off. *)
Theorem C16_sub_unpowered : forall E s n r col v0 v1 a b,
  executing (s_ctx s) n r col -> left_powered (s_ctx s) n r col false ->
  operand_at (s_ctx s) n r col 0 v0 -> operand_at (s_ctx s) n r col 1 v1 ->
  reads (s_ctx s) v0 a -> reads (s_ctx s) v1 b ->
  exists c', runs E I_SUB r col s E_OK c' /\ powered c' n r col false /\ effect (s_ctx s) c' [(n, r, col)] None [v0; v1].
Proof. exact C16_sub_unpowered_l. Qed.
Print Assumptions C16_sub_unpowered.

(** C16: a data register receives exactly the mathematical result. *)
Theorem C16_data_register : forall c v w c',
  fits w -> stores c v w c' -> forall l, target c v = Some l -> In (v_type v) [R_D; R_IW; R_QW] -> holds c' l w.
Proof. exact C16_data_register_l. Qed.
Print Assumptions C16_data_register.

(** C16, violated: a result that does not fit is undefined behaviour (signed overflow). *)
Theorem C16_overflow_undefined : forall E s n r col i v0 v1 a b w,
  In i [I_ADD; I_SUB; I_MUL; I_DIV] -> computes i a b = Some w -> ~ fits w ->
  executing (s_ctx s) n r col -> left_powered (s_ctx s) n r col true ->
  (forall row, (r <= row <= r + 2)%nat -> cell_exists (s_ctx s) n row col) ->
  operand_at (s_ctx s) n r col 0 v0 -> operand_at (s_ctx s) n r col 1 v1 ->
  reads (s_ctx s) v0 a -> reads (s_ctx s) v1 b ->
  undefined E i r col s UB_overflow.
Proof. exact C16_overflow_undefined_l. Qed.
Print Assumptions C16_overflow_undefined.

(** C16, violated: MOD by zero, and the remainder of the smallest integer by -1, are undefined behaviour. *)
Theorem C16_mod_undefined : forall E s n r col v0 v1 a b,
  executing (s_ctx s) n r col -> left_powered (s_ctx s) n r col true ->
  operand_at (s_ctx s) n r col 0 v0 -> operand_at (s_ctx s) n r col 1 v1 ->
  reads (s_ctx s) v0 a -> reads (s_ctx s) v1 b ->
  (b = 0 -> undefined E I_MOD r col s UB_div)
  /\ (a = - 2 ^ 31 -> b = -1 -> undefined E I_MOD r col s UB_overflow).
Proof. exact C16_mod_undefined_l. Qed.
Print Assumptions C16_mod_undefined.

(** C16, violated: SUB leaves its first row powered also when the first operand is smaller. *)
Theorem C16_sub_rows_refuted : exists E s n r col v0 v1 a b c',
  executing (s_ctx s) n r col /\ left_powered (s_ctx s) n r col true
  /\ operand_at (s_ctx s) n r col 0 v0 /\ operand_at (s_ctx s) n r col 1 v1
  /\ reads (s_ctx s) v0 a /\ reads (s_ctx s) v1 b /\ a < b
  /\ runs E I_SUB r col s E_OK c' /\ powered c' n r col true.
Proof. exact C16_sub_rows_refuted_l. Qed.
Print Assumptions C16_sub_rows_refuted.
Example C16_case :
  let c := demo [[on (cellv I_NO [V R_M 0]); cellv I_MOD [V R_D 1; V R_D 0; V R_D 3]];
                 [on (cellv I_CONN []); cellv I_SUB [V R_D 1; V R_D 0; V R_D 3]]; [cellv I_NOP []; cellv I_MULTI []];
                 [cellv I_NOP []; cellv I_MULTI []]] in
  computes I_MOD (-3) 10 = Some (-3) /\ fits (-3)
  /\ executing c 0 0 1 /\ left_powered c 0 0 1 true
  /\ operand_at c 0 0 1 0 (V R_D 1) /\ operand_at c 0 0 1 1 (V R_D 0) /\ operand_at c 0 0 1 2 (V R_D 3) /\ stores_ok c
  /\ reads c (V R_D 1) (-3) /\ reads c (V R_D 0) 10 /\ target c (V R_D 3) = Some (LReg B_D 3)
  /\ executing c 0 1 1 /\ left_powered c 0 1 1 true /\ cell_exists c 0 3 1.
Proof. demo_case. Qed.
(* Overflow is met: D2 + D0 = 2^31 + 9. *)
Example C16_overflow_case :
  let c := demo [[cellv I_ADD [V R_D 2; V R_D 0; V R_D 3]]; [cellv I_NOP []]; [cellv I_NOP []]] in
  computes I_ADD 2147483647 10 = Some 2147483657 /\ ~ fits 2147483657
  /\ executing c 0 0 0 /\ left_powered c 0 0 0 true /\ reads c (V R_D 2) 2147483647 /\ reads c (V R_D 0) 10
  /\ undefined quiet_env I_ADD 0 0 (start c) UB_overflow.
Proof. demo_case. Qed.

(** ** C17 *)

(** C17: powered OR and XOR store the bit-wise result of the operands. *)
Theorem C17_or_xor : forall E s n r col i f v0 v1 v2 a b,
  In i [I_OR; I_XOR] -> bitwise i = Some f ->
  executing (s_ctx s) n r col -> left_powered (s_ctx s) n r col true ->
  operand_at (s_ctx s) n r col 0 v0 -> operand_at (s_ctx s) n r col 1 v1 -> operand_at (s_ctx s) n r col 2 v2 ->
  stores_ok (s_ctx s) -> reads (s_ctx s) v0 a -> reads (s_ctx s) v1 b ->
  exists c' w, runs E i r col s E_OK c' /\ powered c' n r col true
    /\ (forall k, 0 <= k -> Z.testbit w k = f (Z.testbit a k) (Z.testbit b k))
    /\ stores (s_ctx s) v2 w c'
    /\ effect (s_ctx s) c' [(n, r, col)] (Some v2) [v0; v1].
Proof. exact C17_or_xor_l. Qed.
Print Assumptions C17_or_xor.

(** C17: powered NOT stores the complement in operand 1. *)
Theorem C17_not : forall E s n r col v0 v1 a,
  executing (s_ctx s) n r col -> left_powered (s_ctx s) n r col true ->
  operand_at (s_ctx s) n r col 0 v0 -> operand_at (s_ctx s) n r col 1 v1 ->
  stores_ok (s_ctx s) -> reads (s_ctx s) v0 a ->
  exists c' w, runs E I_NOT r col s E_OK c' /\ powered c' n r col true
    /\ (forall k, 0 <= k -> Z.testbit w k = negb (Z.testbit a k))
    /\ stores (s_ctx s) v1 w c'
    /\ effect (s_ctx s) c' [(n, r, col)] (Some v1) [v0].
Proof. exact C17_not_l. Qed.
Print Assumptions C17_not.

(** C17: without power AND, OR, XOR and NOT switch their cell off and store nothing. *)
Theorem C17_unpowered : forall E s n r col i,
  In i [I_AND; I_OR; I_XOR; I_NOT] -> executing (s_ctx s) n r col -> left_powered (s_ctx s) n r col false ->
  exists c', runs E i r col s E_OK c' /\ powered c' n r col false /\ effect (s_ctx s) c' [(n, r, col)] None [].
Proof. exact C17_unpowered_l. Qed.
Print Assumptions C17_unpowered.

(** C17, what AND really does: it stores 1 when both operands are exactly 1, and 0 otherwise. *)
Theorem C17_and_actual : forall E s n r col v0 v1 v2 a b,
  executing (s_ctx s) n r col -> left_powered (s_ctx s) n r col true ->
  operand_at (s_ctx s) n r col 0 v0 -> operand_at (s_ctx s) n r col 1 v1 -> operand_at (s_ctx s) n r col 2 v2 ->
  stores_ok (s_ctx s) -> reads (s_ctx s) v0 a -> reads (s_ctx s) v1 b ->
  exists c', runs E I_AND r col s E_OK c' /\ powered c' n r col true
    /\ stores (s_ctx s) v2 (if (a =? 1) && (b =? 1) then 1 else 0) c'
    /\ effect (s_ctx s) c' [(n, r, col)] (Some v2) [v0; v1].
Proof. exact C17_and_actual_l. Qed.
Print Assumptions C17_and_actual.

(** C17, the part of the claim AND satisfies: it is the bit-wise result when both operands are 0 or 1.
    Missing: every other pair of operands ([C17_and_refuted]). *)
Theorem C17_and_partial : forall E s n r col v0 v1 v2 a b,
  executing (s_ctx s) n r col -> left_powered (s_ctx s) n r col true ->
  operand_at (s_ctx s) n r col 0 v0 -> operand_at (s_ctx s) n r col 1 v1 -> operand_at (s_ctx s) n r col 2 v2 ->
  stores_ok (s_ctx s) -> reads (s_ctx s) v0 a -> reads (s_ctx s) v1 b -> 0 <= a <= 1 -> 0 <= b <= 1 ->
  exists c' w, runs E I_AND r col s E_OK c'
    /\ (forall k, 0 <= k -> Z.testbit w k = Z.testbit a k && Z.testbit b k)
    /\ stores (s_ctx s) v2 w c'.
Proof. exact C17_and_partial_l. Qed.
Print Assumptions C17_and_partial.

(** C17, violated: 2147483647 AND 10 stores 0 instead of 10. *)
Theorem C17_and_refuted : exists E s n r col v0 v1 v2 a b c' l w,
  executing (s_ctx s) n r col /\ left_powered (s_ctx s) n r col true
  /\ operand_at (s_ctx s) n r col 0 v0 /\ operand_at (s_ctx s) n r col 1 v1 /\ operand_at (s_ctx s) n r col 2 v2
  /\ stores_ok (s_ctx s) /\ reads (s_ctx s) v0 a /\ reads (s_ctx s) v1 b /\ target (s_ctx s) v2 = Some l
  /\ runs E I_AND r col s E_OK c' /\ holds c' l w /\ w <> Z.land a b.
Proof. exact C17_and_refuted_l. Qed.
Print Assumptions C17_and_refuted.
Example C17_case :
  let c := demo [[cellv I_XOR [V R_D 1; V R_D 0; V R_Q 0]; cellv I_NOT [V R_C 1; V R_D 2]]] in
  bitwise I_XOR = Some xorb
  /\ executing c 0 0 0 /\ left_powered c 0 0 0 true /\ operand_at c 0 0 0 0 (V R_D 1) /\ operand_at c 0 0 0 1 (V R_D 0)
  /\ operand_at c 0 0 0 2 (V R_Q 0) /\ stores_ok c /\ reads c (V R_D 1) (-3) /\ reads c (V R_D 0) 10
  /\ operand_at c 0 0 1 0 (V R_C 1) /\ reads c (V R_C 1) 7.
Proof. demo_case. Qed.

(** ** C18 *)

(** C18: SHL multiplies the unsigned operand by 2^(amount mod 32) modulo 2^32. *)
Theorem C18_shl : forall E s n r col l v0 v1 a b,
  executing (s_ctx s) n r col -> left_powered (s_ctx s) n r col l ->
  operand_at (s_ctx s) n r col 0 v0 -> operand_at (s_ctx s) n r col 1 v1 -> stores_ok (s_ctx s) ->
  reads (s_ctx s) v0 a -> reads (s_ctx s) v1 b ->
  exists c', runs E I_SHL r col s (write_err (s_ctx s) v0) c' /\ powered c' n r col l
    /\ stores (s_ctx s) v0 ((a mod 2 ^ 32) * 2 ^ (b mod 32) mod 2 ^ 32) c'
    /\ effect (s_ctx s) c' [(n, r, col)] (Some v0) [v0; v1].
Proof. exact C18_shl_l. Qed.
Print Assumptions C18_shl.

(** C18: SHR divides the unsigned operand by 2^(amount mod 32). *)
Theorem C18_shr : forall E s n r col l v0 v1 a b,
  executing (s_ctx s) n r col -> left_powered (s_ctx s) n r col l ->
  operand_at (s_ctx s) n r col 0 v0 -> operand_at (s_ctx s) n r col 1 v1 -> stores_ok (s_ctx s) ->
  reads (s_ctx s) v0 a -> reads (s_ctx s) v1 b ->
  exists c', runs E I_SHR r col s (write_err (s_ctx s) v0) c' /\ powered c' n r col l
    /\ stores (s_ctx s) v0 ((a mod 2 ^ 32) / 2 ^ (b mod 32)) c'
    /\ effect (s_ctx s) c' [(n, r, col)] (Some v0) [v0; v1].
Proof. exact C18_shr_l. Qed.
Print Assumptions C18_shr.

(** C18: ROL by an amount that is not a multiple of 32 rotates the unsigned operand left. *)
Theorem C18_rol_partial : forall E s n r col l v0 v1 a b,
  b mod 32 <> 0 ->
  executing (s_ctx s) n r col -> left_powered (s_ctx s) n r col l ->
  operand_at (s_ctx s) n r col 0 v0 -> operand_at (s_ctx s) n r col 1 v1 -> stores_ok (s_ctx s) ->
  reads (s_ctx s) v0 a -> reads (s_ctx s) v1 b ->
  exists c' w, runs E I_ROL r col s (write_err (s_ctx s) v0) c' /\ powered c' n r col l
    /\ rotated (a mod 2 ^ 32) b w /\ stores (s_ctx s) v0 w c'
    /\ effect (s_ctx s) c' [(n, r, col)] (Some v0) [v0; v1].
Proof. exact C18_rol_partial_l. Qed.
Print Assumptions C18_rol_partial.

(** C18: ROR likewise rotates right. *)
Theorem C18_ror_partial : forall E s n r col l v0 v1 a b,
  b mod 32 <> 0 ->
  executing (s_ctx s) n r col -> left_powered (s_ctx s) n r col l ->
  operand_at (s_ctx s) n r col 0 v0 -> operand_at (s_ctx s) n r col 1 v1 -> stores_ok (s_ctx s) ->
  reads (s_ctx s) v0 a -> reads (s_ctx s) v1 b ->
  exists c' w, runs E I_ROR r col s (write_err (s_ctx s) v0) c' /\ powered c' n r col l
    /\ rotated (a mod 2 ^ 32) (- b) w /\ stores (s_ctx s) v0 w c'
    /\ effect (s_ctx s) c' [(n, r, col)] (Some v0) [v0; v1].
Proof. exact C18_ror_partial_l. Qed.
Print Assumptions C18_ror_partial.

(** C18: rotating back gives the operand again, so no bit is lost. *)
Theorem C18_rotate_inverse : forall x k w y,
  0 <= x < 2 ^ 32 -> rotated x k w -> rotated w (- k) y -> y = x.
Proof. exact C18_rotate_inverse_l. Qed.
Print Assumptions C18_rotate_inverse.

(** C18, violated: rotating by a multiple of 32 shifts a 32-bit value by 32, which is undefined behaviour. *)
Theorem C18_rotate_zero_undefined : forall E s n r col i v0 v1 a b,
  In i [I_ROL; I_ROR] -> b mod 32 = 0 ->
  executing (s_ctx s) n r col -> operand_at (s_ctx s) n r col 0 v0 -> operand_at (s_ctx s) n r col 1 v1 ->
  reads (s_ctx s) v0 a -> reads (s_ctx s) v1 b ->
  undefined E i r col s UB_shift.
Proof. exact C18_rotate_zero_undefined_l. Qed.
Print Assumptions C18_rotate_zero_undefined.

(** C18, violated: the shift is performed also when the power on the left is off. *)
Theorem C18_power_refuted : exists E s n r col v0 v1 c' l w w',
  executing (s_ctx s) n r col /\ left_powered (s_ctx s) n r col false
  /\ operand_at (s_ctx s) n r col 0 v0 /\ operand_at (s_ctx s) n r col 1 v1
  /\ runs E I_SHL r col s E_OK c' /\ target (s_ctx s) v0 = Some l
  /\ holds (s_ctx s) l w /\ holds c' l w' /\ w <> w'.
Proof. exact C18_power_refuted_l. Qed.
Print Assumptions C18_power_refuted.
Example C18_case :
  let c := demo [[on (cellv I_NO [V R_M 0]); cellv I_ROL [V R_D 1; V R_NONE (-29)]; cellv I_ROR [V R_D 1; V R_NONE 64]]] in
  (-29) mod 32 <> 0 /\ 64 mod 32 = 0
  /\ executing c 0 0 1 /\ left_powered c 0 0 1 true /\ operand_at c 0 0 1 0 (V R_D 1) /\ operand_at c 0 0 1 1 (V R_NONE (-29))
  /\ stores_ok c /\ reads c (V R_D 1) (-3) /\ reads c (V R_NONE (-29)) (-29) /\ write_err c (V R_D 1) = E_OK
  /\ executing c 0 0 2 /\ operand_at c 0 0 2 0 (V R_D 1) /\ operand_at c 0 0 2 1 (V R_NONE 64).
Proof. demo_case. Qed.
Example C18_rotated_case : rotated 2147483649 3 12 /\ rotated 12 (-3) 2147483649.
Proof.
  assert (H : forall f : Z -> Prop, (forall k, (0 <= k < 32)%nat -> f (Z.of_nat k)) -> forall i, 0 <= i < 32 -> f i).
  { intros f H i Hi. rewrite <- (Z2Nat.id i) by lia. apply H. lia. }
  split; (split; [lia|]); apply H; intros k Hk; do 32 (destruct k as [|k]; [reflexivity|]); lia.
Qed.
