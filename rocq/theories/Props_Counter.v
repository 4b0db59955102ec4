(** Property theorems: counters (C13, C14). *)
From Verif Require Import P_Counter Demo.

(** ** C13 *)

(** C13: executing CTU (right of column 0) always succeeds, calls nothing, and changes nothing but its own counter and
    the power of its two cells. *)
Theorem C13_frame : forall E s n r col i p on rst,
  counter_cell (s_ctx s) n r col i p -> counter_exists (s_ctx s) i ->
  powered (s_ctx s) n r col on -> powered (s_ctx s) n (S r) col rst ->
  exists c', runs E I_CTU r (S col) s E_OK c'
    /\ changes_only (s_ctx s) c' (fun l => In l (counter_regs i) \/ l = LPow n r (S col) \/ l = LPow n (S r) (S col)).
Proof. exact C13_frame_l. Qed.
Print Assumptions C13_frame.

(** C13: over any history from a reset counter, the count is the number of rising edges of the input since the last
    execution with a powered reset input (the reset execution itself counts when the input is on), capped at the
    preset; the done flag is on exactly when the preset was reached, and then the first row is powered. *)
Theorem C13_count : forall E n r col i p pre post on rst K,
  1 <= p < 2 ^ 31 -> counter_fresh (s_ctx (pre 0%nat)) i 0 -> counter_history E I_CTU n r col i p pre post on rst K ->
  forall k, (k <= K)%nat ->
    (exists j, last_reset rst j k)
    /\ forall j, last_reset rst j k ->
       let e := edges on j (k - j) in
       counter_is (s_ctx (post k)) i (Z.min p e) (p <=? e) /\ (p <= e -> powered (s_ctx (post k)) n r (S col) true).
Proof. exact C13_count_l. Qed.
Print Assumptions C13_count.

(** C13: a powered reset input, with the count input off, zeroes the count and the done flag and unpowers both rows. *)
Theorem C13_reset_partial : forall E s n r col i p,
  1 <= p < 2 ^ 31 -> counter_cell (s_ctx s) n r col i p -> counter_exists (s_ctx s) i ->
  powered (s_ctx s) n r col false -> powered (s_ctx s) n (S r) col true ->
  exists c', runs E I_CTU r (S col) s E_OK c' /\ counter_is c' i 0 false /\ outputs c' n r (S col) false false.
Proof. exact C13_reset_partial_l. Qed.
Print Assumptions C13_reset_partial.

(** C13, finding: with the count input on, a powered reset input does not zero the count: it is 1 after every such
    execution. *)
Theorem C13_reset_while_counting_actual : forall E s n r col i p,
  1 <= p < 2 ^ 31 -> counter_cell (s_ctx s) n r col i p -> counter_exists (s_ctx s) i ->
  powered (s_ctx s) n r col true -> powered (s_ctx s) n (S r) col true ->
  exists c', runs E I_CTU r (S col) s E_OK c' /\ counter_is c' i 1 (p <=? 1) /\ outputs c' n r (S col) (p <=? 1) true.
Proof. exact C13_reset_while_counting_actual_l. Qed.
Print Assumptions C13_reset_while_counting_actual.

(** C13: the power of the two rows when the preset is not reached: the first row is switched off by a reset and is left
    alone otherwise; the second row is switched on by a counted edge, off by an idle input, and left alone otherwise. *)
Theorem C13_outputs : forall E s n r col i p on rst z d a b0 b1,
  1 <= p < 2 ^ 31 -> counter_cell (s_ctx s) n r col i p ->
  holds (s_ctx s) (LReg B_C i) z -> holds (s_ctx s) (LReg B_Cd i) (b2z d) -> holds (s_ctx s) (LReg B_Cr i) (b2z a) ->
  outputs (s_ctx s) n r (S col) b0 b1 -> 0 <= z -> z + 1 < p ->
  powered (s_ctx s) n r col on -> powered (s_ctx s) n (S r) col rst ->
  exists c', runs E I_CTU r (S col) s E_OK c'
    /\ outputs c' n r (S col) (if rst then false else b0)
         (if on then (if rst then true else if a || d then b1 else true) else false)
    /\ holds c' (LReg B_Cr i) (b2z (if on then (if rst then true else if d then a else true) else false)).
Proof. exact C13_outputs_l. Qed.
Print Assumptions C13_outputs.

(** C13: one execution from any state of the counter: a powered reset input zeroes it first; then an input that is on, was not
    on, and finds the counter not done, counts one; then the counter is done, and the first row on, if the count is at or
    above the preset (as unsigned 32-bit numbers), however it got there. *)
Theorem C13_any_state : forall E s n r col i p on rst z d a b0 b1,
  counter_cell (s_ctx s) n r col i p ->
  holds (s_ctx s) (LReg B_C i) z -> holds (s_ctx s) (LReg B_Cd i) (b2z d) -> holds (s_ctx s) (LReg B_Cr i) (b2z a) ->
  outputs (s_ctx s) n r (S col) b0 b1 -> powered (s_ctx s) n r col on -> powered (s_ctx s) n (S r) col rst ->
  let base := if rst then 0 else z in
  let was_done := negb rst && d in
  let was_on := negb rst && a in
  let edge := on && negb was_on && negb was_done in
  let count := if edge then (base + 1) mod 2 ^ 32 else base in
  let reached := p mod 2 ^ 32 <=? count in
  exists c', runs E I_CTU r (S col) s E_OK c' /\ counter_is c' i count (was_done || reached)
    /\ holds c' (LReg B_Cr i) (b2z (on && (was_on || edge)))
    /\ outputs c' n r (S col) (reached || (negb rst && b0)) (on && (edge || (negb rst && b1))).
Proof. exact C13_any_state_l. Qed.
Print Assumptions C13_any_state.
(* The count 7 is above the preset 2; the input is on, was off, and nothing resets. *)
Example C13_any_state_case : let c := s_ctx (play quiet_env I_CTU (fun _ => true) (block I_CTU [V R_C 1; V R_NONE 2]) 0) in
  counter_cell c 0 0 0 1 2 /\ holds c (LReg B_C 1) 7 /\ holds c (LReg B_Cd 1) (b2z false) /\ holds c (LReg B_Cr 1) (b2z false)
  /\ outputs c 0 0 1 false false /\ powered c 0 0 0 true /\ powered c 0 1 0 false
  /\ counter_is (after quiet_env I_CTU 0 1 c) 1 8 true.
Proof.
  cbv zeta. split; [split; [decide_exec|split; [do 3 eexists; reflexivity|split; eexists; split; reflexivity]]|].
  repeat match goal with |- _ /\ _ => split end; repeat split; vm_compute; reflexivity.
Qed.

(** C13, finding: at column 0 a counter is reset at every execution of a running program, so it never gets beyond 1. *)
Theorem C13_column_zero_actual : forall E s n r i v0 v1,
  executing (s_ctx s) n r 0 -> cell_exists (s_ctx s) n (S r) 0 -> peek (s_ctx s) LState = Some (VState S_RUNNING) ->
  peek (s_ctx s) (LData n r 0 0) = Some (VVal v0) -> v_raw v0 = Z.of_nat i ->
  peek (s_ctx s) (LData n r 0 1) = Some (VVal v1) -> 2 <= v_raw v1 < 2 ^ 31 -> counter_exists (s_ctx s) i ->
  exists c', runs E I_CTU r 0 s E_OK c' /\ counter_is c' i 1 false.
Proof. exact C13_column_zero_actual_l. Qed.
Print Assumptions C13_column_zero_actual.
Definition ctu_demo : ctx := block I_CTU [V R_C 2; V R_NONE 2].
(** Input off, on, on, off, on: two edges. *)
Definition ctu_on (k : nat) : bool := nth k [false; true; true; false; true] false.
Example C13_case : let pre := play quiet_env I_CTU ctu_on ctu_demo in
  counter_fresh (s_ctx (pre 0%nat)) 2 0
  /\ counter_history quiet_env I_CTU 0 0 0 2 2 pre (fun k => step1 quiet_env I_CTU (pre k)) ctu_on (fun _ => false) 4
  /\ last_reset (fun _ => false) 0 4 /\ edges ctu_on 0 4 = 2.
Proof.
  cbv zeta. split; [repeat split; reflexivity|]. split; [chist_case 5 (V R_C 2) (V R_NONE 2)|].
  split; [split; [lia|split; auto]|reflexivity].
Qed.
Example C13_reset_case : let c := demo [[cellv I_CONN []; cellv I_CTU [V R_C 1; V R_NONE 9]]; [on (cellv I_CONN []); cellv I_MULTI []]] in
  counter_cell c 0 0 0 1 9 /\ counter_exists c 1 /\ powered c 0 0 0 false /\ powered c 0 1 0 true /\ holds c (LReg B_C 1) 7.
Proof.
  cbv zeta. split; [split; [decide_exec|split; [do 3 eexists; reflexivity|split; eexists; split; reflexivity]]|].
  split; [exists 7, 0, 0; repeat split; auto|]. repeat split.
Qed.

(** ** C14 *)

(** C14: executing CTD (right of column 0) always succeeds, calls nothing, and changes nothing but its own counter and
    the power of its two cells. *)
Theorem C14_frame : forall E s n r col i p on rst,
  counter_cell (s_ctx s) n r col i p -> counter_exists (s_ctx s) i ->
  powered (s_ctx s) n r col on -> powered (s_ctx s) n (S r) col rst ->
  exists c', runs E I_CTD r (S col) s E_OK c'
    /\ changes_only (s_ctx s) c' (fun l => In l (counter_regs i) \/ l = LPow n r (S col) \/ l = LPow n (S r) (S col)).
Proof. exact C14_frame_l. Qed.
Print Assumptions C14_frame.

(** C14: over any history from a counter loaded with its preset, the count is the preset minus the number of rising
    edges since the last execution with a powered reset input (which reloads the preset), never below 0; the done flag
    is on exactly when the count is 0, and then the first row is powered. *)
Theorem C14_count : forall E n r col i p pre post on rst K,
  1 <= p < 2 ^ 31 -> counter_fresh (s_ctx (pre 0%nat)) i p -> counter_history E I_CTD n r col i p pre post on rst K ->
  forall k, (k <= K)%nat ->
    (exists j, last_reset rst j k)
    /\ forall j, last_reset rst j k ->
       let e := edges on j (k - j) in
       counter_is (s_ctx (post k)) i (Z.max 0 (p - e)) (Z.max 0 (p - e) =? 0)
       /\ (p <= e -> powered (s_ctx (post k)) n r (S col) true).
Proof. exact C14_count_l. Qed.
Print Assumptions C14_count.

(** C14: a powered reset input, with the count input off, loads the preset, clears done and unpowers both rows. *)
Theorem C14_reset : forall E s n r col i p,
  1 <= p < 2 ^ 31 -> counter_cell (s_ctx s) n r col i p -> counter_exists (s_ctx s) i ->
  powered (s_ctx s) n r col false -> powered (s_ctx s) n (S r) col true ->
  exists c', runs E I_CTD r (S col) s E_OK c' /\ counter_is c' i p false /\ outputs c' n r (S col) false false.
Proof. exact C14_reset_l. Qed.
Print Assumptions C14_reset.

(** C14: the power of the two rows when the count stays above zero. *)
Theorem C14_outputs : forall E s n r col i p on rst z d a b0 b1,
  2 <= p < 2 ^ 31 -> counter_cell (s_ctx s) n r col i p ->
  holds (s_ctx s) (LReg B_C i) z -> holds (s_ctx s) (LReg B_Cd i) (b2z d) -> holds (s_ctx s) (LReg B_Cr i) (b2z a) ->
  outputs (s_ctx s) n r (S col) b0 b1 -> 2 <= z < 2 ^ 32 ->
  powered (s_ctx s) n r col on -> powered (s_ctx s) n (S r) col rst ->
  exists c', runs E I_CTD r (S col) s E_OK c'
    /\ outputs c' n r (S col) (if rst then false else b0)
         (if on then (if rst then true else if a || d then b1 else true) else false)
    /\ holds c' (LReg B_Cr i) (b2z (if on then (if rst then true else if d then a else true) else false)).
Proof. exact C14_outputs_l. Qed.
Print Assumptions C14_outputs.

(** C14: one execution from any state of the counter: a powered reset input loads the preset first; then an input that is on,
    was not on, and finds the counter not done, takes one away, wrapping below 0; then the counter is done, and the first
    row on, if the count is 0. *)
Theorem C14_any_state : forall E s n r col i p on rst z d a b0 b1,
  counter_cell (s_ctx s) n r col i p ->
  holds (s_ctx s) (LReg B_C i) z -> holds (s_ctx s) (LReg B_Cd i) (b2z d) -> holds (s_ctx s) (LReg B_Cr i) (b2z a) ->
  outputs (s_ctx s) n r (S col) b0 b1 -> powered (s_ctx s) n r col on -> powered (s_ctx s) n (S r) col rst ->
  let base := if rst then p mod 2 ^ 32 else z in
  let was_done := negb rst && d in
  let was_on := negb rst && a in
  let edge := on && negb was_on && negb was_done in
  let count := if edge then (base + -1) mod 2 ^ 32 else base in
  let reached := count =? 0 in
  exists c', runs E I_CTD r (S col) s E_OK c' /\ counter_is c' i count (was_done || reached)
    /\ holds c' (LReg B_Cr i) (b2z (on && (was_on || edge)))
    /\ outputs c' n r (S col) (reached || (negb rst && b0)) (on && (edge || (negb rst && b1))).
Proof. exact C14_any_state_l. Qed.
Print Assumptions C14_any_state.
(* The count 7 is above the preset 2; the input is on, was off, and nothing resets. *)
Example C14_any_state_case : let c := s_ctx (play quiet_env I_CTD (fun _ => true) (block I_CTD [V R_C 1; V R_NONE 2]) 0) in
  counter_cell c 0 0 0 1 2 /\ holds c (LReg B_C 1) 7 /\ holds c (LReg B_Cd 1) (b2z false) /\ holds c (LReg B_Cr 1) (b2z false)
  /\ outputs c 0 0 1 false false /\ powered c 0 0 0 true /\ powered c 0 1 0 false
  /\ counter_is (after quiet_env I_CTD 0 1 c) 1 6 false.
Proof.
  cbv zeta. split; [split; [decide_exec|split; [do 3 eexists; reflexivity|split; eexists; split; reflexivity]]|].
  repeat match goal with |- _ /\ _ => split end; repeat split; vm_compute; reflexivity.
Qed.

(** C14, finding: a counter that was never loaded (count 0, not done) wraps to 2^32 - 1 on its first edge. *)
Theorem C14_unloaded_actual : forall E s n r col i p,
  counter_cell (s_ctx s) n r col i p -> counter_fresh (s_ctx s) i 0 ->
  powered (s_ctx s) n r col true -> powered (s_ctx s) n (S r) col false ->
  exists c', runs E I_CTD r (S col) s E_OK c' /\ counter_is c' i (2 ^ 32 - 1) false.
Proof. exact C14_unloaded_actual_l. Qed.
Print Assumptions C14_unloaded_actual.
Example C14_case : let pre := play quiet_env I_CTD ctu_on (block I_CTD [V R_C 1; V R_NONE 7]) in
  counter_fresh (s_ctx (pre 0%nat)) 1 7
  /\ counter_history quiet_env I_CTD 0 0 0 1 7 pre (fun k => step1 quiet_env I_CTD (pre k)) ctu_on (fun _ => false) 4
  /\ last_reset (fun _ => false) 0 4 /\ edges ctu_on 0 4 = 2.
Proof.
  cbv zeta. split; [repeat split; reflexivity|]. split; [chist_case 5 (V R_C 1) (V R_NONE 7)|].
  split; [split; [lia|split; auto]|reflexivity].
Qed.
