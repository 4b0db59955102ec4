(** Property theorems: scans of programs made of any instructions (C02, C04, C15, C48). *)
From Verif Require Import P_Order Demo.

(** ** C04 *)

(** C04, for programs of any instructions: every scan that ends executes the cells of the program in order, group by
    group; after each group all its rows carry the OR of what their instructions left, and nothing else happens in
    between except what the code outside the library does. A scan that is broken off did the first part of that. *)
Theorem C04_any_instruction : forall E W s s' m, scan_ready E W (s_ctx s) m -> scans E s s' ->
  exists lg done, scan_run E W lg s done s'
    /\ (done = true -> map place_of lg = program_cells (s_ctx s) /\ Forall (fun t => returned t = E_OK) lg)
    /\ exists rest, program_cells (s_ctx s) = map place_of lg ++ rest.
Proof. exact C04_any_instruction_l. Qed.
Print Assumptions C04_any_instruction.
(* Two counters and a joined pair of contacts: the hypotheses hold and the scan ends. *)
Definition mixed_prog : ctx := demo_nets
  [net_on true [[cellv I_NO [V R_M 0]; cellv I_CTU [V R_NONE 1; V R_NONE 9]]; [bar (cellv I_NC [V R_M 1]); cellv I_MULTI []];
                [cellv I_CONN []; cellv I_COIL [V R_M 2]]]].
Example C04_any_case : scan_ready quiet_env (fun _ => False) mixed_prog 1000 /\ scans quiet_env (start mixed_prog) (scan_st quiet_env mixed_prog)
  /\ program_cells mixed_prog = [(0, 0, 0); (0, 1, 0); (0, 0, 1); (0, 2, 0); (0, 2, 1)]%nat.
Proof. split; [apply (readyb_ok mixed_prog); vm_compute; reflexivity|]. split; vm_compute; reflexivity. Qed.

(** ** C02 *)

(** C02, for programs of any instructions: a scan that is not broken off leaves an empty cell without power unless a
    vertical bar joins it to a row above or below. *)
Theorem C02_empty_any_instruction : forall E W s s' m, scan_ready E W (s_ctx s) m -> marked (s_ctx s) -> scans E s s' ->
  exists lg done, scan_run E W lg s done s'
    /\ (done = true -> forall n rows cols r col, scanned (s_ctx s) n rows cols -> (r < rows)%nat -> (col < cols)%nat ->
          code_at (s_ctx s) n r col = I_NOP -> bar_at (s_ctx s) n r col = false -> bar_at (s_ctx s) n (S r) col = false ->
          ~ W (LPow n r col) -> powered (s_ctx s') n r col false).
Proof. exact C02_empty_any_instruction_l. Qed.
Print Assumptions C02_empty_any_instruction.

(** ** C48 *)

(** C48, for programs of any instructions: an instruction finds power on its left only if the instruction there was
    executed before it in the same scan. A branch whose cells are executed after the join contributes nothing. *)
Theorem C48_left_executed_first_actual : forall E W s s' m, scan_ready E W (s_ctx s) m -> marked (s_ctx s) -> scans E s s' ->
  exists lg done, scan_run E W lg s done s'
    /\ forall earlier t later n rows cols r col, lg = earlier ++ t :: later -> at_net t = n ->
         scanned (s_ctx s) n rows cols -> (r < rows)%nat -> (col < cols)%nat -> multi (code_at (s_ctx s) n r col) = false ->
         ~ W (LPow n r col) -> ~ In (n, r, col) (map place_of earlier) -> powered (s_ctx (pre_of t)) n r col false.
Proof. exact C48_left_executed_first_actual_l. Qed.
Print Assumptions C48_left_executed_first_actual.
(* In the branch program of C48 the connection in the lower row is executed, the contact in front of it never. *)
Example C48_any_case : scan_ready quiet_env (fun _ => False) branch_prog 1000 /\ scans quiet_env (start branch_prog) (scan_st quiet_env branch_prog)
  /\ program_cells branch_prog = [(0, 0, 0); (0, 0, 1); (0, 1, 1); (0, 0, 2)]%nat.
Proof. split; [apply (readyb_ok branch_prog); vm_compute; reflexivity|]. split; vm_compute; reflexivity. Qed.

(** ** C15 *)

(** C15, what happens instead: whenever a counter right of column 0 is executed, its reset input is off unless a
    vertical bar joins the cell in front of the reset input to the one in front of the count input, and then the two
    inputs are equal. (Continuation marks of multi-row instructions in front of the counter excepted.) *)
Theorem C15_reset_input_actual : forall E W s s' m, scan_ready E W (s_ctx s) m -> marked (s_ctx s) -> scans E s s' ->
  exists lg done, scan_run E W lg s done s'
    /\ forall t k rows cols n r, In t lg -> place_of t = (n, r, S k) -> scanned (s_ctx s) n rows cols -> (S r < rows)%nat ->
         is_counter (code_at (s_ctx s) n r (S k)) ->
         multi (code_at (s_ctx s) n (S r) k) = false -> ~ W (LPow n (S r) k) ->
         (bar_at (s_ctx s) n (S r) k = false -> powered (s_ctx (pre_of t)) n (S r) k false)
         /\ (bar_at (s_ctx s) n (S r) k = true -> multi (code_at (s_ctx s) n r k) = false -> ~ W (LPow n r k) ->
             forall v, powered (s_ctx (pre_of t)) n r k v <-> powered (s_ctx (pre_of t)) n (S r) k v).
Proof. exact C15_reset_input_actual_l. Qed.
Print Assumptions C15_reset_input_actual.

(** Hence no scan of any such program resets a counter whose count input is off. *)
Theorem C15_no_reset_actual : forall E W s s' m, scan_ready E W (s_ctx s) m -> marked (s_ctx s) -> scans E s s' ->
  exists lg done, scan_run E W lg s done s'
    /\ forall t k rows cols n r i p, In t lg -> place_of t = (n, r, S k) -> scanned (s_ctx s) n rows cols -> (S r < rows)%nat ->
         is_counter (code_at (s_ctx s) n r (S k)) -> counter_cell (s_ctx (pre_of t)) n r k i p -> counter_exists (s_ctx (pre_of t)) i ->
         multi (code_at (s_ctx s) n r k) = false -> ~ W (LPow n r k) -> multi (code_at (s_ctx s) n (S r) k) = false -> ~ W (LPow n (S r) k) ->
         powered (s_ctx (pre_of t)) n r k false ->
         peek (s_ctx (post_of t)) (LReg B_C i) = peek (s_ctx (pre_of t)) (LReg B_C i).
Proof. exact C15_no_reset_actual_l. Qed.
Print Assumptions C15_no_reset_actual.
(* The program of the refutation meets the hypotheses. *)
Example C15_actual_case : scan_ready quiet_env (fun _ => False) reset_prog 1000 /\ marked reset_prog
  /\ scans quiet_env (start reset_prog) (scan_st quiet_env reset_prog) /\ scanned reset_prog 0 2 2 /\ is_counter (code_at reset_prog 0 0 1)
  /\ In (0, 0, 1)%nat (program_cells reset_prog) /\ multi (code_at reset_prog 0 1 0) = false /\ multi (code_at reset_prog 0 0 0) = false
  /\ counter_exists reset_prog 1.
Proof.
  split; [apply (readyb_ok reset_prog); vm_compute; reflexivity|]. split.
  - intros n rows cols r col k [SN1 SN2] R C F NE. simpl in SN1. destruct n; [|lia]. vm_compute in SN2. injection SN2 as <- <-.
    destruct r as [|[|r]]; destruct col as [|[|col]]; try lia; vm_compute in F; intuition (subst; try congruence; reflexivity).
  - split; [vm_compute; reflexivity|]. split; [split; [simpl; lia|reflexivity]|]. split; [exact I|]. split; [vm_compute; tauto|]. split; [reflexivity|]. split; [reflexivity|].
    exists 7, 0, 0. split; [vm_compute; reflexivity|]. split; split; vm_compute; auto.
Qed.
