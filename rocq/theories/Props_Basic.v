(** Property theorems: contacts, wires, coils and comparisons (C01, C02, C05, C19). *)
From Verif Require Import P_Basic Demo.

(** ** C01 *)

(** C01: a normally open contact passes the left power exactly when its operand is non-zero. *)
Theorem C01_normally_open : forall E s n r col b v z,
  executing (s_ctx s) n r col -> left_powered (s_ctx s) n r col b ->
  operand_at (s_ctx s) n r col 0 v -> reads (s_ctx s) v z ->
  exists c', runs E I_NO r col s E_OK c'
    /\ powered c' n r col (b && negb (z =? 0))
    /\ effect (s_ctx s) c' [(n, r, col)] None [v].
Proof. exact C01_normally_open_l. Qed.
Print Assumptions C01_normally_open.

(** C01: a normally closed contact passes it exactly when its operand is zero. *)
Theorem C01_normally_closed : forall E s n r col b v z,
  executing (s_ctx s) n r col -> left_powered (s_ctx s) n r col b ->
  operand_at (s_ctx s) n r col 0 v -> reads (s_ctx s) v z ->
  exists c', runs E I_NC r col s E_OK c'
    /\ powered c' n r col (b && (z =? 0))
    /\ effect (s_ctx s) c' [(n, r, col)] None [v].
Proof. exact C01_normally_closed_l. Qed.
Print Assumptions C01_normally_closed.

(** C01: the left rail is on at column 0. *)
Theorem C01_left_rail : forall E s n r v z,
  executing (s_ctx s) n r 0 -> operand_at (s_ctx s) n r 0 0 v -> reads (s_ctx s) v z ->
  exists c1 c2, runs E I_NO r 0 s E_OK c1 /\ powered c1 n r 0 (negb (z =? 0))
    /\ runs E I_NC r 0 s E_OK c2 /\ powered c2 n r 0 (z =? 0).
Proof. exact C01_left_rail_l. Qed.
Print Assumptions C01_left_rail.
(* A contact on D1 = -3 right of a powered contact; a contact on the missing register M9. *)
Example C01_case :
  let c := demo [[on (cellv I_NO [V R_M 0]); cellv I_NO [V R_D 1]; cellv I_NC [V R_M 9]]] in
  executing c 0 0 1 /\ left_powered c 0 0 1 true /\ operand_at c 0 0 1 0 (V R_D 1) /\ reads c (V R_D 1) (-3)
  /\ executing c 0 0 2 /\ left_powered c 0 0 2 false /\ operand_at c 0 0 2 0 (V R_M 9) /\ reads c (V R_M 9) 0
  /\ 9 >= Z.of_nat (q_m (x_q c)).
Proof.
  demo_case.
Qed.

(** ** C02 *)

(** C02: a wire copies the power on its left. *)
Theorem C02_wire : forall E s n r col b,
  executing (s_ctx s) n r col -> left_powered (s_ctx s) n r col b ->
  exists c', runs E I_CONN r col s E_OK c' /\ powered c' n r col b /\ effect (s_ctx s) c' [(n, r, col)] None [].
Proof. exact C02_wire_l. Qed.
Print Assumptions C02_wire.

(** C02: an inverter negates it. *)
Theorem C02_inverter : forall E s n r col b,
  executing (s_ctx s) n r col -> left_powered (s_ctx s) n r col b ->
  exists c', runs E I_NEG r col s E_OK c' /\ powered c' n r col (negb b) /\ effect (s_ctx s) c' [(n, r, col)] None [].
Proof. exact C02_inverter_l. Qed.
Print Assumptions C02_inverter.

(** C02: an empty cell does nothing at all when executed. *)
Theorem C02_empty : forall E s r col, runs E I_NOP r col s E_OK (s_ctx s).
Proof. exact C02_empty_l. Qed.
Print Assumptions C02_empty.
Example C02_case :
  let c := demo [[on (cellv I_CONN []); cellv I_NEG []]] in
  executing c 0 0 1 /\ left_powered c 0 0 1 true /\ powered c 0 0 1 false /\ executing c 0 0 0.
Proof. demo_case. Qed.

(** ** C05 *)

(** C05: a coil forwards the power, stores 1 or 0 at the place its operand addresses, and changes nothing else. *)
Theorem C05_coil : forall E s n r col b v,
  executing (s_ctx s) n r col -> left_powered (s_ctx s) n r col b ->
  operand_at (s_ctx s) n r col 0 v -> stores_ok (s_ctx s) ->
  exists c', runs E I_COIL r col s E_OK c'
    /\ powered c' n r col b
    /\ stores (s_ctx s) v (b2z b) c'
    /\ effect (s_ctx s) c' [(n, r, col)] (Some v) [].
Proof. exact C05_coil_l. Qed.
Print Assumptions C05_coil.

(** C05: the flag registers and outputs receive exactly 1 or 0. *)
Theorem C05_flag_values : forall E s n r col b v l,
  executing (s_ctx s) n r col -> left_powered (s_ctx s) n r col b ->
  operand_at (s_ctx s) n r col 0 v -> stores_ok (s_ctx s) -> target (s_ctx s) v = Some l ->
  exists c', runs E I_COIL r col s E_OK c' /\ holds c' l (if b then 1 else 0).
Proof. exact C05_flag_values_l. Qed.
Print Assumptions C05_flag_values.

(** C05: an operand that addresses no place changes nothing besides the power of the coil's own cell. *)
Theorem C05_no_place : forall E s n r col b v,
  executing (s_ctx s) n r col -> left_powered (s_ctx s) n r col b ->
  operand_at (s_ctx s) n r col 0 v -> stores_ok (s_ctx s) -> target (s_ctx s) v = None ->
  exists c', runs E I_COIL r col s E_OK c' /\ powered c' n r col b
    /\ changes_only (s_ctx s) c' (eq (LPow n r col)).
Proof. exact C05_no_place_l. Qed.
Print Assumptions C05_no_place.
(* A powered coil on output 0.1, one on M5 (only four flags are configured), one on a negative flag number. *)
Example C05_case :
  let c := demo [[on (cellv I_NO [V R_M 0]); cellv I_COIL [V R_Q 256]];
                 [cellv I_COIL [V R_M 5]; cellv I_COIL [V R_M (-1)]]] in
  executing c 0 0 1 /\ left_powered c 0 0 1 true /\ operand_at c 0 0 1 0 (V R_Q 256) /\ stores_ok c
  /\ target c (V R_Q 256) = Some (LOut 0 K_Q 1)
  /\ executing c 0 1 0 /\ operand_at c 0 1 0 0 (V R_M 5) /\ target c (V R_M 5) = None
  /\ operand_at c 0 1 1 0 (V R_M (-1)) /\ target c (V R_M (-1)) = None.
Proof.
  demo_case.
Qed.

(** ** C19 *)

(** C19: a powered comparison powers its cell exactly when the relation holds. *)
Theorem C19_compare : forall E s n r col i rel v0 v1 a b,
  compares i = Some rel ->
  executing (s_ctx s) n r col -> left_powered (s_ctx s) n r col true ->
  operand_at (s_ctx s) n r col 0 v0 -> operand_at (s_ctx s) n r col 1 v1 ->
  reads (s_ctx s) v0 a -> reads (s_ctx s) v1 b ->
  exists c' q, runs E i r col s E_OK c' /\ powered c' n r col q /\ (q = true <-> rel a b)
    /\ effect (s_ctx s) c' [(n, r, col)] None [v0; v1].
Proof. exact C19_compare_l. Qed.
Print Assumptions C19_compare.

(** C19: without power on its left it is off and reads nothing. *)
Theorem C19_unpowered : forall E s n r col i rel,
  compares i = Some rel -> executing (s_ctx s) n r col -> left_powered (s_ctx s) n r col false ->
  exists c', runs E i r col s E_OK c' /\ powered c' n r col false /\ effect (s_ctx s) c' [(n, r, col)] None [].
Proof. exact C19_unpowered_l. Qed.
Print Assumptions C19_unpowered.
Example C19_case :
  let c := demo [[on (cellv I_NO [V R_M 0]); cellv I_GT [V R_D 2; V R_IW 256]]] in
  compares I_GT = Some (fun a b => a > b) /\
  executing c 0 0 1 /\ left_powered c 0 0 1 true /\ operand_at c 0 0 1 0 (V R_D 2) /\ operand_at c 0 0 1 1 (V R_IW 256)
  /\ reads c (V R_D 2) 2147483647 /\ reads c (V R_IW 256) (-5).
Proof.
  demo_case.
Qed.
