(** Property theorems: edges and latches over cycles (C06 to C08). *)
From Verif Require Import P_Edge Demo.
From Verif Require Import DemoTask.

(** ** C06 *)

(** C06: with the histories up to date (as they are after every cycle, C32_run), the contact RE conducts, in every cycle and
    each time it is executed, iff there is power on its left and its operand is non-zero now and was zero when the cycle began. *)
Theorem C06_rising : forall E W m s s' nx, cycle_ready E W (s_ctx s) m -> cycle E s = Ok (nx, s') -> remembers (s_ctx s) ->
  exists a b t0, begins W s a t0 /\ scans E a b /\ forall n r col t e t' v z o p, reaches E W a n r col t e t' ->
    code_at (s_ctx s) n r col = I_RE -> operand_at (s_ctx s) n r col 0 v -> has_history (s_ctx s) v ->
    left_powered (s_ctx t) n r col p -> reads (s_ctx t) v z -> reads (s_ctx s) v o -> powered (s_ctx t') n r col (p && negb (z =? 0) && (o =? 0)).
Proof. exact C06_rising_l. Qed.
Print Assumptions C06_rising.

(** C06: the contact FE conducts on the opposite transition. *)
Theorem C06_falling : forall E W m s s' nx, cycle_ready E W (s_ctx s) m -> cycle E s = Ok (nx, s') -> remembers (s_ctx s) ->
  exists a b t0, begins W s a t0 /\ scans E a b /\ forall n r col t e t' v z o p, reaches E W a n r col t e t' ->
    code_at (s_ctx s) n r col = I_FE -> operand_at (s_ctx s) n r col 0 v -> has_history (s_ctx s) v ->
    left_powered (s_ctx t) n r col p -> reads (s_ctx t) v z -> reads (s_ctx s) v o -> powered (s_ctx t') n r col (p && (z =? 0) && negb (o =? 0)).
Proof. exact C06_falling_l. Qed.
Print Assumptions C06_falling.

(** C06: an operand that nothing sets during a scan has, at every instruction of a cycle, the value it has at the end of the
    cycle; for an input this is the value read in this cycle. So the contacts compare the ends of successive cycles. *)
Theorem C06_steady : forall E W m s s', cycle_ready E W (s_ctx s) m -> cycle E s = Ok (T_continue, s') ->
  exists a b t0, begins W s a t0 /\ scans E a b /\ forall n r col t e t' v l z, reaches E W a n r col t e t' ->
    place_now v = Some l -> left_alone W (s_ctx s) l -> reads (s_ctx t) v z <-> reads (s_ctx s') v z.
Proof. exact C06_steady_l. Qed.
Print Assumptions C06_steady.

(** C06: one pulse per edge. In a run of the task, a contact RE on an input that nothing sets during scans, standing at the left
    rail, conducts in exactly those cycles in which the input is non-zero after having been zero in the cycle before. *)
Theorem C06_run : forall E W m k s s' n r v l z,
  cycle_ready E W (s_ctx s) m -> remembers (s_ctx s) -> in_time (s_ctx s) m -> goes E W k s s' ->
  In (n, r, 0%nat) (program_cells (s_ctx s)) -> code_at (s_ctx s) n r 0 = I_RE -> operand_at (s_ctx s) n r 0 0 v ->
  v_type v = R_I -> has_history (s_ctx s) v -> place_now v = Some l -> left_alone W (s_ctx s) l -> reads (s_ctx s) v z ->
  exists lg, length lg = k /\ log E W (contact_cycle E W n r 0 v) s lg s' /\ map snd lg = rises (negb (z =? 0)) (map fst lg).
Proof. exact C06_run_l. Qed.
Print Assumptions C06_run.

(** C06: and FE in exactly those cycles in which it is zero after having been non-zero. *)
Theorem C06_run_falling : forall E W m k s s' n r v l z,
  cycle_ready E W (s_ctx s) m -> remembers (s_ctx s) -> in_time (s_ctx s) m -> goes E W k s s' ->
  In (n, r, 0%nat) (program_cells (s_ctx s)) -> code_at (s_ctx s) n r 0 = I_FE -> operand_at (s_ctx s) n r 0 0 v ->
  v_type v = R_I -> has_history (s_ctx s) v -> place_now v = Some l -> left_alone W (s_ctx s) l -> reads (s_ctx s) v z ->
  exists lg, length lg = k /\ log E W (contact_cycle E W n r 0 v) s lg s' /\ map snd lg = falls (negb (z =? 0)) (map fst lg).
Proof. exact C06_run_falling_l. Qed.
Print Assumptions C06_run_falling.
(* Six cycles in which input 0 is 0, 0, 1, 1, 0, 0: RE pulses in the third and FE in the fifth. *)
Definition edge_env (d : Z) : env := task_env (fun k => 5 * Z.of_nat k) (fun k i => if (i =? 0)%nat then (Z.of_nat k / d) mod 2 else 0) (fun _ => None).
Definition edge_prog : ctx := synced (demo_task [[cellv I_RE [V R_I 0]; cellv I_COIL [V R_M 1]]; [cellv I_FE [V R_I 0]; cellv I_COIL [V R_Q 0]]]).
Example C06_case :
  let s' := ran (edge_env 22) 6 edge_prog in
  cycle_ready (edge_env 22) task_w edge_prog 1000 /\ remembers edge_prog /\ in_time edge_prog 1000 /\ goes (edge_env 22) task_w 6 (start edge_prog) s'
  /\ In (0, 0, 0)%nat (program_cells edge_prog) /\ code_at edge_prog 0 0 0 = I_RE /\ operand_at edge_prog 0 0 0 0 (V R_I 0)
  /\ has_history edge_prog (V R_I 0) /\ place_now (V R_I 0) = Some (LIn 0 K_I 0) /\ left_alone task_w edge_prog (LIn 0 K_I 0)
  /\ reads edge_prog (V R_I 0) 1 /\ rises true [false; false; true; true; false; false] = [false; false; true; false; false; false]
  /\ map (fun k => peek (s_ctx (ran (edge_env 22) k edge_prog)) (LReg B_M 1)) [1; 2; 3; 4; 5; 6]%nat = map (fun z => Some (VZ z)) [0; 0; 1; 0; 0; 0]
  /\ map (fun k => peek (s_ctx (ran (edge_env 22) k edge_prog)) (LOut 0 K_Q 0)) [1; 2; 3; 4; 5; 6]%nat = map (fun z => Some (VZ z)) [1; 0; 0; 0; 1; 0].
Proof.
  cbv zeta. split; [unfold edge_env, edge_prog; decide_cycle|]. split; [apply synced_remembers|]. split; [apply in_timeb_ok; vm_compute; reflexivity|].
  split; [apply cycles_goes; vm_compute; reflexivity|]. split; [vm_compute; auto 10|]. split; [reflexivity|]. split; [decide_op|].
  split. { exists (LIn 0 K_I 0). split; [reflexivity|]. split; [|auto]. right; right. exists 0%nat. do 3 eexists. exists 0%nat. split; [vm_compute; lia|]. split; [reflexivity|].
    left. split; [reflexivity|]. split; [vm_compute; lia|]. split; vm_compute; discriminate. }
  split; [reflexivity|].
  split. { split; [|intros (ev & S & K); destruct ev; simpl in S, K; contradiction].
    apply input_alone. vm_compute. reflexivity. }
  split; [decide_reads|]. repeat split; vm_compute; reflexivity.
Qed.

(** ** C07 *)

(** C07: in a cycle in which the latch is the last instruction that may set its operand, the operand ends as 1 if it was non-zero
    when the cycle began or there was power on the left of the latch, and as 0 otherwise. *)
Theorem C07_latch : forall E W m s s' n r col v l z,
  cycle_ready E W (s_ctx s) m -> remembers (s_ctx s) -> in_time (s_ctx s) m -> stores_ok (s_ctx s) -> cycle E s = Ok (T_continue, s') ->
  last_writer W (s_ctx s) n r col l -> code_at (s_ctx s) n r col = I_COILL -> operand_at (s_ctx s) n r col 0 v ->
  has_history (s_ctx s) v -> place_now v = Some l -> reads (s_ctx s) v z ->
  exists a b t0 t t' p, begins W s a t0 /\ scans E a b /\ visits E W a b n r col t t' /\ left_powered (s_ctx t) n r col p
    /\ holds (s_ctx s') l (b2z (negb (z =? 0) || p)).
Proof. exact C07_latch_l. Qed.
Print Assumptions C07_latch.

(** C07: likewise the unlatch leaves 1 only if the operand was non-zero and there was no power on its left. *)
Theorem C07_unlatch : forall E W m s s' n r col v l z,
  cycle_ready E W (s_ctx s) m -> remembers (s_ctx s) -> in_time (s_ctx s) m -> stores_ok (s_ctx s) -> cycle E s = Ok (T_continue, s') ->
  last_writer W (s_ctx s) n r col l -> code_at (s_ctx s) n r col = I_COILU -> operand_at (s_ctx s) n r col 0 v ->
  has_history (s_ctx s) v -> place_now v = Some l -> reads (s_ctx s) v z ->
  exists a b t0 t t' p, begins W s a t0 /\ scans E a b /\ visits E W a b n r col t t' /\ left_powered (s_ctx t) n r col p
    /\ holds (s_ctx s') l (b2z (negb (z =? 0) && negb p)).
Proof. exact C07_unlatch_l. Qed.
Print Assumptions C07_unlatch.

(** C07: in a run of the task, a latch that is the last to set its operand makes it the disjunction of all the powers it had
    on its left so far (and the value at the beginning). *)
Theorem C07_run : forall E W m k s s' n r col v l z,
  cycle_ready E W (s_ctx s) m -> remembers (s_ctx s) -> in_time (s_ctx s) m -> stores_ok (s_ctx s) -> goes E W k s s' ->
  last_writer W (s_ctx s) n r col l -> code_at (s_ctx s) n r col = I_COILL -> operand_at (s_ctx s) n r col 0 v ->
  has_history (s_ctx s) v -> place_now v = Some l -> reads (s_ctx s) v z ->
  exists lg, length lg = k /\ log E W (coil_cycle E W n r col l) s lg s' /\ map snd lg = sets (negb (z =? 0)) (map fst lg).
Proof. exact C07_run_l. Qed.
Print Assumptions C07_run.

(** C07: and an unlatch clears it for ever from the first cycle with power on its left. *)
Theorem C07_run_unlatch : forall E W m k s s' n r col v l z,
  cycle_ready E W (s_ctx s) m -> remembers (s_ctx s) -> in_time (s_ctx s) m -> stores_ok (s_ctx s) -> goes E W k s s' ->
  last_writer W (s_ctx s) n r col l -> code_at (s_ctx s) n r col = I_COILU -> operand_at (s_ctx s) n r col 0 v ->
  has_history (s_ctx s) v -> place_now v = Some l -> reads (s_ctx s) v z ->
  exists lg, length lg = k /\ log E W (coil_cycle E W n r col l) s lg s' /\ map snd lg = resets (negb (z =? 0)) (map fst lg).
Proof. exact C07_run_unlatch_l. Qed.
Print Assumptions C07_run_unlatch.

(** C07: what [sets] and [resets] mean: once on, on for ever; once off, off for ever. *)
Theorem C07_for_ever : forall x ps i j, (i <= j < length ps)%nat ->
  (nth i ps false = true -> nth j (sets x ps) false = true) /\ (nth i ps false = true -> nth j (resets x ps) true = false)
  /\ (nth i (sets x ps) false = true -> nth j (sets x ps) false = true) /\ (nth i (resets x ps) true = false -> nth j (resets x ps) true = false).
Proof. exact C07_for_ever_l. Qed.
Print Assumptions C07_for_ever.
(* A latch with input 0 on its left, which is 0, 0, 1, 1, 0, 0: the flag is set in the third cycle and stays so. *)
Definition latch_prog (i : ins) (x : nat) : ctx := synced (demo_task [[cellv (match x with O => I_NO | _ => I_NC end) [V R_I 0]; cellv i [V R_M (Z.of_nat (1 + x))]]]).
Example C07_case :
  let c := latch_prog I_COILL 0 in
  cycle_ready (edge_env 16) task_w c 1000 /\ remembers c /\ in_time c 1000 /\ stores_ok c /\ goes (edge_env 16) task_w 6 (start c) (ran (edge_env 16) 6 c)
  /\ last_writer task_w c 0 0 1 (LReg B_M 1) /\ code_at c 0 0 1 = I_COILL /\ operand_at c 0 0 1 0 (V R_M 1)
  /\ has_history c (V R_M 1) /\ place_now (V R_M 1) = Some (LReg B_M 1) /\ reads c (V R_M 1) 0
  /\ sets false [false; false; true; true; false; false] = [false; false; true; true; true; true]
  /\ map (fun k => peek (s_ctx (ran (edge_env 16) k c)) (LReg B_M 1)) [1; 2; 3; 4; 5; 6]%nat = map (fun z => Some (VZ z)) [0; 0; 1; 1; 1; 1].
Proof.
  cbv zeta. split; [unfold edge_env, latch_prog; decide_cycle|]. split; [apply synced_remembers|]. split; [apply in_timeb_ok; vm_compute; reflexivity|].
  split; [decide_stores|]. split; [apply cycles_goes; vm_compute; reflexivity|].
  split. { split; [intros (ev & S & K); destruct ev; simpl in S, K; contradiction|]. exists [(0, 0, 0)%nat], []. split; [vm_compute; reflexivity|]. intros ? ? ? []. }
  split; [reflexivity|]. split; [decide_op|].
  split. { exists (LReg B_M 1). split; [reflexivity|]. split; [|right; right; simpl; lia]. left. exists B_M, 1%nat. split; [simpl; auto|]. split; [vm_compute; lia|reflexivity]. }
  split; [reflexivity|]. split; [decide_reads|]. split; vm_compute; reflexivity.
Qed.
(* An unlatch on memory 2, which is 1 at first, with the negated input on its left. *)
Example C07_unlatch_case :
  let c := latch_prog I_COILU 1 in
  cycle_ready (edge_env 16) task_w c 1000 /\ last_writer task_w c 0 0 1 (LReg B_M 2) /\ code_at c 0 0 1 = I_COILU /\ reads c (V R_M 2) 1
  /\ map (fun k => peek (s_ctx (ran (edge_env 16) k c)) (LReg B_M 2)) [0; 1; 2; 3; 4; 5]%nat = map (fun z => Some (VZ z)) [1; 0; 0; 0; 0; 0].
Proof.
  cbv zeta. split; [unfold edge_env, latch_prog; decide_cycle|].
  split. { split; [intros (ev & S & K); destruct ev; simpl in S, K; contradiction|]. exists [(0, 0, 0)%nat], []. split; [vm_compute; reflexivity|]. intros ? ? ? []. }
  split; [reflexivity|]. split; [decide_reads|]. vm_compute; reflexivity.
Qed.

(** ** C08 *)

(** C08, finding: when a latch and an unlatch name the same flag, only the one executed last counts, since both start from
    the value of the previous cycle. If the unlatch is the last, the flag can never be set: once zero it stays zero whatever
    power the latch has. *)
Theorem C08_unlatch_last_actual : forall E W m k s s' n r col v l,
  cycle_ready E W (s_ctx s) m -> remembers (s_ctx s) -> in_time (s_ctx s) m -> stores_ok (s_ctx s) -> goes E W k s s' ->
  last_writer W (s_ctx s) n r col l -> code_at (s_ctx s) n r col = I_COILU -> operand_at (s_ctx s) n r col 0 v ->
  has_history (s_ctx s) v -> place_now v = Some l -> reads (s_ctx s) v 0 ->
  reads (s_ctx s') v 0.
Proof. exact C08_unlatch_last_actual_l. Qed.
Print Assumptions C08_unlatch_last_actual.

(** C08, finding: if the latch is the last, the flag can never be cleared: once set it stays set whatever power the unlatch
    has. *)
Theorem C08_latch_last_actual : forall E W m k s s' n r col v l z,
  cycle_ready E W (s_ctx s) m -> remembers (s_ctx s) -> in_time (s_ctx s) m -> stores_ok (s_ctx s) -> goes E W k s s' ->
  last_writer W (s_ctx s) n r col l -> code_at (s_ctx s) n r col = I_COILL -> operand_at (s_ctx s) n r col 0 v ->
  has_history (s_ctx s) v -> place_now v = Some l -> reads (s_ctx s) v z -> z <> 0 ->
  exists z', z' <> 0 /\ reads (s_ctx s') v z'.
Proof. exact C08_latch_last_actual_l. Qed.
Print Assumptions C08_latch_last_actual.

(** C08 is false: a latch before an unlatch on the same flag, which is 0; only the latch has power, by an input that is 1, and
    the flag stays 0. *)
Theorem C08_refuted : exists E W s s',
  cycle_ready E W (s_ctx s) 1000 /\ remembers (s_ctx s) /\ cycle E s = Ok (T_continue, s')
  /\ program_cells (s_ctx s) = [(0, 0, 0); (0, 0, 1); (0, 1, 0); (0, 1, 1)]%nat
  /\ code_at (s_ctx s) 0 0 0 = I_NO /\ operand_at (s_ctx s) 0 0 0 0 (V R_I 0) /\ code_at (s_ctx s) 0 0 1 = I_COILL /\ operand_at (s_ctx s) 0 0 1 0 (V R_M 1)
  /\ code_at (s_ctx s) 0 1 0 = I_NO /\ operand_at (s_ctx s) 0 1 0 0 (V R_I 256) /\ code_at (s_ctx s) 0 1 1 = I_COILU /\ operand_at (s_ctx s) 0 1 1 0 (V R_M 1)
  /\ reads (s_ctx s') (V R_I 0) 1 /\ powered (s_ctx s') 0 0 0 true /\ reads (s_ctx s') (V R_I 256) 0 /\ powered (s_ctx s') 0 1 0 false
  /\ reads (s_ctx s) (V R_M 1) 0 /\ reads (s_ctx s') (V R_M 1) 0.
Proof. exact C08_refuted_l. Qed.
Print Assumptions C08_refuted.
(* The universal findings on the same shape of program, with the coils in either order. *)
Definition pair_prog (i j : ins) (x : Z) : ctx := synced (demo_task [[cellv I_NO [V R_I 0]; cellv i [V R_M x]]; [cellv I_NO [V R_I 256]; cellv j [V R_M x]]]).
Example C08_case :
  let c := pair_prog I_COILL I_COILU 1 in
  cycle_ready (edge_env 16) task_w c 1000 /\ remembers c /\ in_time c 1000 /\ stores_ok c /\ goes (edge_env 16) task_w 6 (start c) (ran (edge_env 16) 6 c)
  /\ last_writer task_w c 0 1 1 (LReg B_M 1) /\ code_at c 0 1 1 = I_COILU /\ operand_at c 0 1 1 0 (V R_M 1)
  /\ has_history c (V R_M 1) /\ place_now (V R_M 1) = Some (LReg B_M 1) /\ reads c (V R_M 1) 0.
Proof.
  cbv zeta. split; [unfold edge_env, pair_prog; decide_cycle|]. split; [apply synced_remembers|]. split; [apply in_timeb_ok; vm_compute; reflexivity|].
  split; [decide_stores|]. split; [apply cycles_goes; vm_compute; reflexivity|].
  split. { split; [intros (ev & S & K); destruct ev; simpl in S, K; contradiction|]. exists [(0, 0, 0); (0, 0, 1); (0, 1, 0)]%nat, []. split; [vm_compute; reflexivity|]. intros ? ? ? []. }
  split; [reflexivity|]. split; [decide_op|].
  split. { exists (LReg B_M 1). split; [reflexivity|]. split; [|right; right; simpl; lia]. left. exists B_M, 1%nat. split; [simpl; auto|]. split; [vm_compute; lia|reflexivity]. }
  split; [reflexivity|]. decide_reads.
Qed.
