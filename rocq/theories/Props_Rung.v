(** Property theorems: whole programs of ladder logic (C02, C03, C04, C15, C48, C49). *)
From Verif Require Import P_Rung Demo.

(** ** C03 *)

(** C03: in a program without vertical bars the scan evaluates every cell once, row by row from left to right, each
    from the power of the cell on its left and the registers as the cells before left them; the registers after the
    scan are those after the last cell, and the power of every cell is what that cell made. *)
Theorem C03_program : forall E s m, logic_ready E (s_ctx s) m -> no_bars (s_ctx s) ->
  exists s' c' P, scans E s s' /\ evaluates P P (reading_order (s_ctx s)) (s_ctx s) c'
    /\ same_registers c' (s_ctx s') /\ has_power (s_ctx s) (s_ctx s') P.
Proof. exact C03_program_l. Qed.
Print Assumptions C03_program.

(** C03: this evaluation determines the power of all cells and all registers. *)
Theorem C03_determined : forall P P' l c c1 c2,
  (forall before n r k after, l = before ++ (n, r, S k) :: after -> In (n, r, k) before) ->
  evaluates P P l c c1 -> evaluates P' P' l c c2 ->
  unchanged c1 c2 /\ forall n r col, In (n, r, col) l -> P' n r col = P n r col.
Proof. exact C03_determined_l. Qed.
Print Assumptions C03_determined.

(** C03: the order of evaluation meets the condition of that statement. *)
Theorem C03_order : forall c before n r k after,
  reading_order c = before ++ (n, r, S k) :: after -> In (n, r, k) before.
Proof. exact C03_order_l. Qed.
Print Assumptions C03_order.

(** C03: the power behind contacts in series is on exactly if all of them conduct, and they change nothing. *)
Theorem C03_series : forall P c c' n r k,
  (forall col, (col < k)%nat -> contact (code_at c n r col) = true) -> (0 < k)%nat ->
  evaluates P P (map (fun col => (n, r, col)) (seq 0 k)) c c' ->
  unchanged c c' /\ (P n r (k - 1)%nat = true <-> forall col, (col < k)%nat -> closed c n r col).
Proof. exact C03_series_l. Qed.
Print Assumptions C03_series.

(** C03: contacts in series with a coil behind them write to the coil's register whether all of them conduct. *)
Theorem C03_rung : forall P c c' n r k l,
  (forall col, (col < k)%nat -> contact (code_at c n r col) = true) -> (0 < k)%nat ->
  code_at c n r k = I_COIL -> target c (arg c n r k 0) = Some l ->
  evaluates P P (map (fun col => (n, r, col)) (seq 0 (S k))) c c' ->
  exists q, (q = true <-> forall col, (col < k)%nat -> closed c n r col) /\ stored c l (b2z q) c'.
Proof. exact C03_rung_l. Qed.
Print Assumptions C03_rung.
(* Two networks without bars. M0 = 1, M1 = 0: (M0 and not M1) -> M3; D0 > 5 and M3 -> Q0, an inverter; then M3 -> M1. *)
Definition C03_demo : ctx := demo_nets
  [net_on true [[cellv I_NO [V R_M 0]; cellv I_NC [V R_M 1]; cellv I_COIL [V R_M 3]];
                [cellv I_GT [V R_D 0; V R_NONE 5]; cellv I_NO [V R_M 3]; cellv I_COIL [V R_Q 0]];
                [cellv I_NO [V R_M 1]; cellv I_NEG []; cellv I_NOP []]];
   net_on true [[cellv I_NO [V R_M 3]; cellv I_COIL [V R_M 1]]]].
Example C03_case : logic_ready quiet_env C03_demo 1000 /\ no_bars C03_demo /\ length (reading_order C03_demo) = 11%nat
  /\ peek (scan_of quiet_env C03_demo) (LReg B_M 3) = Some (VZ 1) /\ peek (scan_of quiet_env C03_demo) (LReg B_M 1) = Some (VZ 1)
  /\ peek (scan_of quiet_env C03_demo) (LOut 0 K_Q 0) = Some (VZ 1) /\ powered (scan_of quiet_env C03_demo) 0 2 1 true
  /\ powered (scan_of quiet_env C03_demo) 0 2 2 false.
Proof. split; [apply (logic_readyb_ok C03_demo); vm_compute; reflexivity|]. split; [apply no_barsb_ok; vm_compute; reflexivity|]. repeat split; vm_compute; reflexivity. Qed.
(* The first rung on its own: both contacts conduct, so the coil writes 1. *)
Example C03_rung_case :
  (forall col, (col < 2)%nat -> contact (code_at C03_demo 0 0 col) = true) /\ code_at C03_demo 0 0 2 = I_COIL
  /\ target C03_demo (arg C03_demo 0 0 2 0) = Some (LReg B_M 3) /\ forall col, (col < 2)%nat -> closed C03_demo 0 0 col.
Proof.
  split; [intros [|[|col]] H; try lia; reflexivity|]. split; [reflexivity|]. split; [reflexivity|].
  intros [|[|col]] H; try lia; unfold closed; simpl code_at; cbv beta iota zeta.
  - exists 1. split; [decide_reads|lia].
  - decide_reads.
Qed.

(** ** C04 *)

(** C04: the scan of any ladder logic program, whatever its bars: the networks are worked through step by step as the
    plan says. In every step of a column the cells of the joined rows are evaluated top to bottom, each from the power on
    its own left, and afterwards all of them carry the OR of the results. *)
Theorem C04_any_program : forall E s m, logic_ready E (s_ctx s) m ->
  exists s' c' P, scans E s s' /\ nets_do (s_ctx s) P (seq 0 (q_nets (x_q (s_ctx s)))) (s_ctx s) c'
    /\ same_registers c' (s_ctx s') /\ has_power (s_ctx s) (s_ctx s') P.
Proof. exact C04_any_program_l. Qed.
Print Assumptions C04_any_program.

(** C04: networks made of groups of joined rows. Every group is one rung: its columns are executed from left to right, in
    a column the rows top to bottom; in every column all rows of the group carry the OR of what their cells made, so the
    next column starts from this OR in every row. *)
Theorem C04_groups : forall E s m hs, logic_ready E (s_ctx s) m ->
  (forall n rows cols, scanned (s_ctx s) n rows cols -> groups_from (s_ctx s) n cols 0 (hs n) /\ total (hs n) = rows) ->
  exists s' c' P Q, scans E s s'
    /\ evaluates P Q (flat_map (fun n => group_cells n (snd (size_of (s_ctx s) n)) 0 (hs n)) (seq 0 (q_nets (x_q (s_ctx s))))) (s_ctx s) c'
    /\ (forall n rows cols, scanned (s_ctx s) n rows cols -> ors cols (P n) (Q n) 0 (hs n))
    /\ same_registers c' (s_ctx s') /\ has_power (s_ctx s) (s_ctx s') P.
Proof. exact C04_groups_l. Qed.
Print Assumptions C04_groups.
(* One network: rows 0 to 2 are three parallel branches in both columns, row 3 stands alone. *)
Definition C04_demo : ctx := demo_nets
  [net_on true [[cellv I_NO [V R_M 1]; cellv I_CONN []]; [bar (cellv I_NO [V R_M 0]); bar (cellv I_NO [V R_M 3])];
                [bar (cellv I_NC [V R_M 2]); bar (cellv I_COIL [V R_M 1])]; [cellv I_NO [V R_M 1]; cellv I_COIL [V R_M 3]]]].
Example C04_case : logic_ready quiet_env C04_demo 1000
  /\ (forall n rows cols, scanned C04_demo n rows cols -> groups_from C04_demo n cols 0 [3; 1]%nat /\ total [3; 1]%nat = rows)
  /\ peek (scan_of quiet_env C04_demo) (LReg B_M 1) = Some (VZ 1) /\ peek (scan_of quiet_env C04_demo) (LReg B_M 3) = Some (VZ 1)
  /\ powered (scan_of quiet_env C04_demo) 0 0 0 true /\ powered (scan_of quiet_env C04_demo) 0 2 0 true.
Proof.
  split; [apply (logic_readyb_ok C04_demo); vm_compute; reflexivity|]. split; [|repeat split; vm_compute; reflexivity].
  intros n rows cols [N P]. simpl in N. destruct n as [|n]; [|lia]. vm_compute in P. injection P as <- <-. split; [|reflexivity].
  cbn [groups_from]. repeat match goal with |- _ /\ _ => split end; try lia; try reflexivity; try exact I;
    intros [|[|col]] C; try lia; (split; [reflexivity|]); intros [|[|[|i]]] I0; try lia; reflexivity.
Qed.

(** ** C02 *)

(** C02: in a program without vertical bars an empty cell has no power after the scan. *)
Theorem C02_empty_in_scan : forall E s m, logic_ready E (s_ctx s) m -> no_bars (s_ctx s) ->
  exists s', scans E s s' /\ forall n rows cols r col, scanned (s_ctx s) n rows cols -> (r < rows)%nat -> (col < cols)%nat ->
    code_at (s_ctx s) n r col = I_NOP -> multi (code_at (s_ctx s) n r 0) = false -> powered (s_ctx s') n r col false.
Proof. exact C02_empty_in_scan_l. Qed.
Print Assumptions C02_empty_in_scan.

(** ** C48 *)

(** C48, what happens instead: a branch that joins the main rung only at a column [k] > 0 contributes nothing. Behind the
    join the main rung has power only if it has power in front of it, whatever the contacts of the branch do. *)
Theorem C48_branch_ignored_actual : forall E s m n rows cols g k, logic_ready E (s_ctx s) m -> scanned (s_ctx s) n rows cols ->
  joined_at (s_ctx s) n rows cols g k ->
  contact (code_at (s_ctx s) n g k) = true -> contact (code_at (s_ctx s) n (S g) k) = true ->
  exists s' before behind, scans E s s' /\ powered (s_ctx s') n g (k - 1) before /\ powered (s_ctx s') n g k behind
    /\ (behind = true -> before = true).
Proof. exact C48_branch_ignored_actual_l. Qed.
Print Assumptions C48_branch_ignored_actual.

(** C48 is violated: a branch whose contacts all conduct up to the join leaves the main rung without power. *)
Theorem C48_branch_refuted : exists E s s' m n rows cols g k,
  logic_ready E (s_ctx s) m /\ scanned (s_ctx s) n rows cols /\ joined_at (s_ctx s) n rows cols g k
  /\ (forall col, (col <= k)%nat -> closed (s_ctx s) n (S g) col) /\ scans E s s' /\ powered (s_ctx s') n g k false.
Proof. exact C48_branch_refuted_l. Qed.
Print Assumptions C48_branch_refuted.
(* The universal statement applies to that program. *)
Example C48_case : logic_ready quiet_env branch_prog 1000 /\ scanned branch_prog 0 2 3 /\ joined_at branch_prog 0 2 3 0 1
  /\ contact (code_at branch_prog 0 0 1) = true /\ contact (code_at branch_prog 0 1 1) = true.
Proof.
  split; [apply (logic_readyb_ok branch_prog); vm_compute; reflexivity|]. split; [split; [simpl; lia|reflexivity]|]. split; [|split; reflexivity].
  split; [lia|]. split; [lia|]. split; [|reflexivity]. intros [|[|[|col]]] C; try lia; split; try reflexivity; split; try reflexivity; intros; lia.
Qed.

(** ** C15 *)

(** C15 is violated: with the contact in front of the second row closed and the count input open, the counter is not
    reset. *)
Theorem C15_reset_input_refuted : exists E s s' m i,
  scan_ready E (fun _ => False) (s_ctx s) m /\ scanned (s_ctx s) 0 2 2
  /\ code_at (s_ctx s) 0 0 1 = I_CTU /\ operand_at (s_ctx s) 0 0 1 0 (mk_value R_NONE i None) /\ multi (code_at (s_ctx s) 0 1 1) = true
  /\ code_at (s_ctx s) 0 0 0 = I_NO /\ ~ closed (s_ctx s) 0 0 0 /\ code_at (s_ctx s) 0 1 0 = I_NO /\ closed (s_ctx s) 0 1 0
  /\ scans E s s' /\ peek (s_ctx s) (LReg B_C (ix i)) = Some (VZ 7) /\ peek (s_ctx s') (LReg B_C (ix i)) = Some (VZ 7).
Proof. exact C15_reset_input_refuted_l. Qed.
Print Assumptions C15_reset_input_refuted.

(** ** C49 *)

(** C49 is violated: placing an ADD below a rung (and filling in its operands) energises the coil of that rung, whose
    contact is open before and after. *)
Theorem C49_merge_refuted : exists E c c1 c2 s s' m,
  fn_cell true 0 1 0 I_ADD 0 c = Ok (true, c1) /\ changes_only c1 c2 (fun l => exists i, l = LData 0 1 0 i)
  /\ scan_ready E (fun _ => False) c m /\ scan_ready E (fun _ => False) c2 m
  /\ scans E (mk_st c []) s /\ scans E (mk_st c2 []) s'
  /\ code_at c 0 0 0 = I_NO /\ ~ closed c 0 0 0 /\ ~ closed c2 0 0 0 /\ code_at c 0 0 1 = I_COIL /\ target c (arg c 0 0 1 0) = Some (LReg B_M 3)
  /\ peek (s_ctx s) (LReg B_M 3) = Some (VZ 0) /\ peek (s_ctx s') (LReg B_M 3) = Some (VZ 1).
Proof. exact C49_merge_refuted_l. Qed.
Print Assumptions C49_merge_refuted.
