(** Property theorems: timers (C09 to C12). *)
From Verif Require Import P_Timer Demo.

(** ** C09 *)

(** C09: executing TON always succeeds and changes nothing but its own timer and the power of its two cells; the only
    calls it makes are clock readings. *)
Theorem C09_frame : forall E s n r col i v1 f on,
  quiet_clock E -> basetime (v_type v1) = Some f -> timer_cell (s_ctx s) n r col i v1 -> timer_exists (s_ctx s) i ->
  left_powered (s_ctx s) n r col on ->
  exists s', outcome E I_TON r col s = Some (Ok (E_OK, s'))
    /\ changes_only (s_ctx s) (s_ctx s') (fun l => In l (timer_regs i) \/ l = LPow n r col \/ l = LPow n (S r) col)
    /\ exists readings, s_tr s' = map EvMillis readings ++ s_tr s.
Proof. exact C09_frame_l. Qed.
Print Assumptions C09_frame.

(** C09: one execution from any state of the timer, whatever the preset: without power it is reset. With power it starts if it is
    neither running nor done; while it runs the accumulator follows the clock, until preset x basetime milliseconds (as an
    unsigned 32-bit number) have passed since the start: then it is done and the accumulator is the preset. *)
Theorem C09_any_state : forall E s n r col i v1 f on running done ts acc,
  quiet_clock E -> basetime (v_type v1) = Some f -> timer_cell (s_ctx s) n r col i v1 -> left_powered (s_ctx s) n r col on ->
  timer_is (s_ctx s) i running done acc -> holds (s_ctx s) (LTs i) ts ->
  let starts := on && negb running && negb done in
  let active := on && (running || starts) in
  let start := if starts then reading E s 0 else ts in
  let seen := reading E s (if starts then 1 else 0) in
  let over := (v_raw v1 * f) mod 2 ^ 32 <=? elapsed start (reading E s (if starts then 2 else 1)) in
  exists s', outcome E I_TON r col s = Some (Ok (E_OK, s'))
    /\ timer_is (s_ctx s') i (active && negb over) (on && (done || (active && over)))
         (if on then if active then if over then v_raw v1 mod 2 ^ 32 else (elapsed start seen / f) mod 2 ^ 16 else acc else 0)
    /\ holds (s_ctx s') (LTs i) start
    /\ outputs (s_ctx s') n r col (on && (done || (active && over))) (active && negb over).
Proof. exact C09_any_state_l. Qed.
Print Assumptions C09_any_state.
(* Running, with the preset -1, which counts as 2^32 - 10 milliseconds. *)
Example C09_any_state_case : let s := play quiet_env I_TON (fun k => true) (block I_TON [V R_T 2; V R_M (-1)]) 2 in
  quiet_clock quiet_env /\ basetime (v_type (V R_M (-1))) = Some 10 /\ timer_cell (s_ctx s) 0 0 1 2 (V R_M (-1))
  /\ left_powered (s_ctx s) 0 0 1 true /\ timer_is (s_ctx s) 2 true false 3 /\ holds (s_ctx s) (LTs 2) 0
  /\ timer_is (s_ctx (step1 quiet_env I_TON s)) 2 true false 5.
Proof.
  cbv zeta. split; [intros k t c; reflexivity|]. split; [reflexivity|]. norm_play.
  split; [split; [decide_exec|split; [do 3 eexists; reflexivity|split; [exists (V R_T 2); split; reflexivity|reflexivity]]]|].
  split; [vm_compute; reflexivity|]. split; [repeat split; vm_compute; reflexivity|]. split; [vm_compute; reflexivity|].
  repeat split; vm_compute; reflexivity.
Qed.

(** C09: over any history of executions starting idle: an execution with the input off leaves timer and outputs reset;
    with the input on since execution [j], the timer is done (accumulator = preset) once preset x basetime
    milliseconds were seen to have passed, and running until then, the accumulator showing the elapsed units. *)
Theorem C09_on_delay : forall E n r col i v1 f pre post on K,
  quiet_clock E -> basetime (v_type v1) = Some f -> 0 <= v_raw v1 * f < 2 ^ 32 ->
  timer_idle (s_ctx (pre 0%nat)) i -> timer_history E I_TON n r col i v1 pre post on K ->
  forall k, (k <= K)%nat ->
    (on k = false -> timer_is (s_ctx (post k)) i false false 0 /\ outputs (s_ctx (post k)) n r col false false)
    /\ (forall j, since on j k -> expired E pre (v_raw v1 * f) j k ->
          timer_is (s_ctx (post k)) i false true (v_raw v1) /\ outputs (s_ctx (post k)) n r col true false)
    /\ (forall j, since on j k -> ~ expired E pre (v_raw v1 * f) j k ->
          timer_is (s_ctx (post k)) i true false ((elapsed (stamp E pre j) (shown E pre j k) / f) mod 2 ^ 16)
          /\ outputs (s_ctx (post k)) n r col false true).
Proof. exact C09_on_delay_l. Qed.
Print Assumptions C09_on_delay.

(** C09: so the done output is on exactly when the input has been on without interruption for the preset time. *)
Theorem C09_done_iff : forall E n r col i v1 f pre post on K,
  quiet_clock E -> basetime (v_type v1) = Some f -> 0 <= v_raw v1 * f < 2 ^ 32 ->
  timer_idle (s_ctx (pre 0%nat)) i -> timer_history E I_TON n r col i v1 pre post on K ->
  forall k, (k <= K)%nat ->
    (powered (s_ctx (post k)) n r col true <-> exists j, since on j k /\ expired E pre (v_raw v1 * f) j k)
    /\ (powered (s_ctx (post k)) n (S r) col true <-> exists j, since on j k /\ ~ expired E pre (v_raw v1 * f) j k).
Proof. exact C09_done_iff_l. Qed.
Print Assumptions C09_done_iff.

(** C09: when no two readings of one execution go backwards, the accumulator never exceeds the preset. *)
Theorem C09_accumulator : forall E n r col i v1 f pre post on K,
  quiet_clock E -> basetime (v_type v1) = Some f -> 0 <= v_raw v1 * f < 2 ^ 32 ->
  timer_idle (s_ctx (pre 0%nat)) i -> timer_history E I_TON n r col i v1 pre post on K ->
  (forall j k, since on j k -> elapsed (stamp E pre j) (shown E pre j k) <= elapsed (stamp E pre j) (compared E pre j k)) ->
  forall k, (k <= K)%nat -> exists acc, holds (s_ctx (post k)) (LAcc i) acc /\ 0 <= acc <= v_raw v1.
Proof. exact C09_accumulator_l. Qed.
Print Assumptions C09_accumulator.

(** C09: on a clock whose elapsed time since the start never decreases, the comparison with the current execution's
    reading decides. *)
Theorem C09_monotone : forall E n r col i v1 f pre post on K,
  quiet_clock E -> basetime (v_type v1) = Some f -> 0 <= v_raw v1 * f < 2 ^ 32 ->
  timer_idle (s_ctx (pre 0%nat)) i -> timer_history E I_TON n r col i v1 pre post on K ->
  forall j k, (k <= K)%nat -> since on j k ->
  (forall m, (j <= m <= k)%nat -> elapsed (stamp E pre j) (compared E pre j m) <= elapsed (stamp E pre j) (compared E pre j k)) ->
  (holds (s_ctx (post k)) (LReg B_Td i) 1 <-> v_raw v1 * f <= elapsed (stamp E pre j) (compared E pre j k)).
Proof. exact C09_monotone_l. Qed.
Print Assumptions C09_monotone.
Definition ton_demo : ctx := block I_TON [V R_T 2; V R_M 3].
(** A 30 ms timer on a clock of 10 ms per reading, input on from execution 1 to 3, then off. *)
Definition ton_on (k : nat) : bool := (1 <=? k)%nat && (k <=? 3)%nat.
Example C09_case : let pre := play quiet_env I_TON ton_on ton_demo in
  quiet_clock quiet_env /\ basetime R_M = Some 10 /\ timer_idle (s_ctx (pre 0%nat)) 2
  /\ timer_history quiet_env I_TON 0 0 1 2 (V R_M 3) pre (fun k => step1 quiet_env I_TON (pre k)) ton_on 4
  /\ since ton_on 1 3 /\ ~ expired quiet_env pre 30 1 1 /\ expired quiet_env pre 30 1 3.
Proof.
  cbv zeta. split; [intros k t c; reflexivity|]. split; [reflexivity|]. split; [|split; [|split; [|split]]].
  - idle_case.
  - hist_case 5 2.
  - split; [lia|]. split; [intros m Hm; unfold ton_on; do 4 (destruct m as [|m]; [try lia; auto|]); lia|right; reflexivity].
  - intros (m & Hm & H). assert (m = 1%nat) by lia. subst. vm_compute in H. congruence.
  - exists 3%nat. split; [lia|]. vm_compute. congruence.
Qed.

(** ** C10 *)

(** C10: executing TOF always succeeds and changes nothing but its own timer and the power of its two cells. *)
Theorem C10_frame : forall E s n r col i v1 f on,
  quiet_clock E -> basetime (v_type v1) = Some f -> timer_cell (s_ctx s) n r col i v1 -> timer_exists (s_ctx s) i ->
  left_powered (s_ctx s) n r col on ->
  exists s', outcome E I_TOF r col s = Some (Ok (E_OK, s'))
    /\ changes_only (s_ctx s) (s_ctx s') (fun l => In l (timer_regs i) \/ l = LPow n r col \/ l = LPow n (S r) col)
    /\ exists readings, s_tr s' = map EvMillis readings ++ s_tr s.
Proof. exact C10_frame_l. Qed.
Print Assumptions C10_frame.

(** C10: one execution from any state of the timer, whatever the preset: with power it is reset and the output is on. Without power
    it starts if it is neither running nor done, and the output stays on while it runs. *)
Theorem C10_any_state : forall E s n r col i v1 f on running done ts acc,
  quiet_clock E -> basetime (v_type v1) = Some f -> timer_cell (s_ctx s) n r col i v1 -> left_powered (s_ctx s) n r col on ->
  timer_is (s_ctx s) i running done acc -> holds (s_ctx s) (LTs i) ts ->
  let starts := negb on && negb running && negb done in
  let active := negb on && (running || starts) in
  let start := if starts then reading E s 0 else ts in
  let seen := reading E s (if starts then 1 else 0) in
  let over := (v_raw v1 * f) mod 2 ^ 32 <=? elapsed start (reading E s (if starts then 2 else 1)) in
  exists s', outcome E I_TOF r col s = Some (Ok (E_OK, s'))
    /\ timer_is (s_ctx s') i (active && negb over) (negb on && (done || (active && over)))
         (if on then 0 else if active then if over then v_raw v1 mod 2 ^ 32 else (elapsed start seen / f) mod 2 ^ 16 else acc)
    /\ holds (s_ctx s') (LTs i) start
    /\ outputs (s_ctx s') n r col (on || (active && negb over)) (active && negb over).
Proof. exact C10_any_state_l. Qed.
Print Assumptions C10_any_state.
(* Running, with the preset -1, which counts as 2^32 - 10 milliseconds. *)
Example C10_any_state_case : let s := play quiet_env I_TOF (fun k => false) (block I_TOF [V R_T 2; V R_M (-1)]) 2 in
  quiet_clock quiet_env /\ basetime (v_type (V R_M (-1))) = Some 10 /\ timer_cell (s_ctx s) 0 0 1 2 (V R_M (-1))
  /\ left_powered (s_ctx s) 0 0 1 false /\ timer_is (s_ctx s) 2 true false 3 /\ holds (s_ctx s) (LTs 2) 0
  /\ timer_is (s_ctx (step1 quiet_env I_TOF s)) 2 true false 5.
Proof.
  cbv zeta. split; [intros k t c; reflexivity|]. split; [reflexivity|]. norm_play.
  split; [split; [decide_exec|split; [do 3 eexists; reflexivity|split; [exists (V R_T 2); split; reflexivity|reflexivity]]]|].
  split; [vm_compute; reflexivity|]. split; [repeat split; vm_compute; reflexivity|]. split; [vm_compute; reflexivity|].
  repeat split; vm_compute; reflexivity.
Qed.

(** C10: over any history starting idle: with the input on the output is on and the timer reset; with the input off
    since execution [j] the output stays on until preset x basetime milliseconds were seen to have passed, and is off
    from then on. *)
Theorem C10_off_delay : forall E n r col i v1 f pre post on K,
  quiet_clock E -> basetime (v_type v1) = Some f -> 0 <= v_raw v1 * f < 2 ^ 32 ->
  timer_idle (s_ctx (pre 0%nat)) i -> timer_history E I_TOF n r col i v1 pre post on K ->
  let off k := negb (on k) in
  forall k, (k <= K)%nat ->
    (on k = true -> timer_is (s_ctx (post k)) i false false 0 /\ outputs (s_ctx (post k)) n r col true false)
    /\ (forall j, since off j k -> expired E pre (v_raw v1 * f) j k ->
          timer_is (s_ctx (post k)) i false true (v_raw v1) /\ outputs (s_ctx (post k)) n r col false false)
    /\ (forall j, since off j k -> ~ expired E pre (v_raw v1 * f) j k ->
          timer_is (s_ctx (post k)) i true false ((elapsed (stamp E pre j) (shown E pre j k) / f) mod 2 ^ 16)
          /\ outputs (s_ctx (post k)) n r col true true).
Proof. exact C10_off_delay_l. Qed.
Print Assumptions C10_off_delay.

(** C10: the output is off exactly when the input has been off without interruption for the preset time. *)
Theorem C10_off_iff : forall E n r col i v1 f pre post on K,
  quiet_clock E -> basetime (v_type v1) = Some f -> 0 <= v_raw v1 * f < 2 ^ 32 ->
  timer_idle (s_ctx (pre 0%nat)) i -> timer_history E I_TOF n r col i v1 pre post on K ->
  forall k, (k <= K)%nat ->
    (powered (s_ctx (post k)) n r col false
     <-> exists j, since (fun k => negb (on k)) j k /\ expired E pre (v_raw v1 * f) j k).
Proof. exact C10_off_iff_l. Qed.
Print Assumptions C10_off_iff.

(** C10, finding: a TOF whose input was never on starts with its output on. *)
Theorem C10_never_on_actual : forall E n r col i v1 f pre post on K,
  quiet_clock E -> basetime (v_type v1) = Some f -> 0 <= v_raw v1 * f < 2 ^ 32 ->
  timer_idle (s_ctx (pre 0%nat)) i -> timer_history E I_TOF n r col i v1 pre post on K ->
  on 0%nat = false -> elapsed (reading E (pre 0%nat) 0) (reading E (pre 0%nat) 2) < v_raw v1 * f ->
  powered (s_ctx (post 0%nat)) n r col true.
Proof. exact C10_never_on_actual_l. Qed.
Print Assumptions C10_never_on_actual.
Definition tof_demo : ctx := block I_TOF [V R_T 1; V R_M 3].
(** A 30 ms timer: input on, then off from execution 1. *)
Definition tof_on (k : nat) : bool := (k =? 0)%nat.
Example C10_case : let pre := play quiet_env I_TOF tof_on tof_demo in
  quiet_clock quiet_env /\ basetime R_M = Some 10 /\ timer_idle (s_ctx (pre 0%nat)) 1
  /\ timer_history quiet_env I_TOF 0 0 1 1 (V R_M 3) pre (fun k => step1 quiet_env I_TOF (pre k)) tof_on 3
  /\ since (fun k => negb (tof_on k)) 1 3
  /\ ~ expired quiet_env pre 30 1 1
  /\ expired quiet_env pre 30 1 3.
Proof.
  cbv zeta. split; [intros k t c; reflexivity|]. split; [reflexivity|]. split; [|split; [|split; [|split]]].
  - idle_case.
  - hist_case 4 1.
  - split; [lia|]. split; [intros m Hm; unfold tof_on; do 4 (destruct m as [|m]; [try lia; auto|]); lia|right; reflexivity].
  - intros (m & Hm & H). assert (m = 1%nat) by lia. subst. vm_compute in H. congruence.
  - exists 3%nat. split; [lia|]. vm_compute. congruence.
Qed.

(** ** C11 *)

(** C11: executing TP always succeeds and changes nothing but its own timer and the power of its two cells. *)
Theorem C11_frame : forall E s n r col i v1 f on,
  quiet_clock E -> basetime (v_type v1) = Some f -> timer_cell (s_ctx s) n r col i v1 -> pulse_cell (s_ctx s) n r col i ->
  timer_exists (s_ctx s) i -> left_powered (s_ctx s) n r col on ->
  exists s', outcome E I_TP r col s = Some (Ok (E_OK, s'))
    /\ changes_only (s_ctx s) (s_ctx s') (fun l => In l (timer_regs i) \/ l = LPow n r col \/ l = LPow n (S r) col)
    /\ exists readings, s_tr s' = map EvMillis readings ++ s_tr s.
Proof. exact C11_frame_l. Qed.
Print Assumptions C11_frame.

(** C11: one execution from any state of the timer, whatever the preset: with power it starts if it is not running and the
    accumulator is 0. It is never reset: once over, the accumulator stays at the preset. *)
Theorem C11_any_state : forall E s n r col i v1 f on running done ts acc,
  quiet_clock E -> basetime (v_type v1) = Some f -> timer_cell (s_ctx s) n r col i v1 -> pulse_cell (s_ctx s) n r col i ->
  left_powered (s_ctx s) n r col on ->
  timer_is (s_ctx s) i running done acc -> holds (s_ctx s) (LTs i) ts ->
  let starts := on && (acc mod 2 ^ 32 =? 0) && negb running in
  let active := running || starts in
  let start := if starts then reading E s 0 else ts in
  let seen := reading E s (if starts then 1 else 0) in
  let over := (v_raw v1 * f) mod 2 ^ 32 <=? elapsed start (reading E s (if starts then 2 else 1)) in
  exists s', outcome E I_TP r col s = Some (Ok (E_OK, s'))
    /\ timer_is (s_ctx s') i (active && negb over) (done || (active && over))
         (if active then if over then v_raw v1 mod 2 ^ 32 else (elapsed start seen / f) mod 2 ^ 16 else acc)
    /\ holds (s_ctx s') (LTs i) start
    /\ outputs (s_ctx s') n r col (active && negb over) (active && negb over).
Proof. exact C11_any_state_l. Qed.
Print Assumptions C11_any_state.
(* Running, with the preset -1, which counts as 2^32 - 10 milliseconds. *)
Example C11_any_state_case : let s := play quiet_env I_TP (fun k => true) (block I_TP [V R_T 2; V R_M (-1)]) 2 in
  quiet_clock quiet_env /\ basetime (v_type (V R_M (-1))) = Some 10 /\ timer_cell (s_ctx s) 0 0 1 2 (V R_M (-1))
  /\ left_powered (s_ctx s) 0 0 1 true /\ timer_is (s_ctx s) 2 true false 3 /\ holds (s_ctx s) (LTs 2) 0
  /\ timer_is (s_ctx (step1 quiet_env I_TP s)) 2 true false 5.
Proof.
  cbv zeta. split; [intros k t c; reflexivity|]. split; [reflexivity|]. norm_play.
  split; [split; [decide_exec|split; [do 3 eexists; reflexivity|split; [exists (V R_T 2); split; reflexivity|reflexivity]]]|].
  split; [vm_compute; reflexivity|]. split; [repeat split; vm_compute; reflexivity|]. split; [vm_compute; reflexivity|].
  repeat split; vm_compute; reflexivity.
Qed.

(** C11: over any history from an idle timer with accumulator 0: nothing until the first powered execution [j]; from
    then on the output stays on, whatever the input does, until preset x basetime milliseconds were seen to have
    passed since [j]; then it goes off. What is missing: the second pulse (see the findings below). *)
Theorem C11_pulse_partial : forall E n r col i v1 f pre post on K,
  quiet_clock E -> basetime (v_type v1) = Some f -> 0 <= v_raw v1 * f < 2 ^ 32 ->
  timer_idle (s_ctx (pre 0%nat)) i -> holds (s_ctx (pre 0%nat)) (LAcc i) 0 ->
  timer_history E I_TP n r col i v1 pre post on K -> (forall k, (k <= K)%nat -> pulse_cell (s_ctx (pre k)) n r col i) ->
  forall k, (k <= K)%nat ->
    ((forall m, (m <= k)%nat -> on m = false) ->
       timer_is (s_ctx (post k)) i false false 0 /\ outputs (s_ctx (post k)) n r col false false)
    /\ (forall j, (j <= k)%nat -> (forall m, (m < j)%nat -> on m = false) -> on j = true ->
         (~ expired E pre (v_raw v1 * f) j k ->
            timer_is (s_ctx (post k)) i true false ((elapsed (stamp E pre j) (shown E pre j k) / f) mod 2 ^ 16)
            /\ outputs (s_ctx (post k)) n r col true true)
         /\ (expired E pre (v_raw v1 * f) j k ->
            timer_is (s_ctx (post k)) i false true (v_raw v1) /\ outputs (s_ctx (post k)) n r col false false)).
Proof. exact C11_pulse_partial_l. Qed.
Print Assumptions C11_pulse_partial.

(** C11, finding: so after the first pulse there is never a second one, whatever the input does. *)
Theorem C11_no_second_pulse_actual : forall E n r col i v1 f pre post on K,
  quiet_clock E -> basetime (v_type v1) = Some f -> 0 <= v_raw v1 * f < 2 ^ 32 ->
  timer_idle (s_ctx (pre 0%nat)) i -> holds (s_ctx (pre 0%nat)) (LAcc i) 0 ->
  timer_history E I_TP n r col i v1 pre post on K -> (forall k, (k <= K)%nat -> pulse_cell (s_ctx (pre k)) n r col i) ->
  forall m k, (m <= k <= K)%nat -> (exists j, (j <= m)%nat /\ (forall q, (q < j)%nat -> on q = false) /\ on j = true
    /\ expired E pre (v_raw v1 * f) j m) -> powered (s_ctx (post k)) n r col false.
Proof. exact C11_no_second_pulse_actual_l. Qed.
Print Assumptions C11_no_second_pulse_actual.

(** C11, finding: "a rising input after the pulse ended starts a new pulse" is false. *)
Theorem C11_retrigger_refuted : exists E n r col i v1 f pre post on K,
  quiet_clock E /\ basetime (v_type v1) = Some f /\ 0 < v_raw v1 * f < 2 ^ 32
  /\ timer_idle (s_ctx (pre 0%nat)) i /\ holds (s_ctx (pre 0%nat)) (LAcc i) 0
  /\ timer_history E I_TP n r col i v1 pre post on K /\ (forall k, (k <= K)%nat -> pulse_cell (s_ctx (pre k)) n r col i)
  /\ exists k, (0 < k <= K)%nat /\ powered (s_ctx (post (k - 1)%nat)) n r col false /\ on (k - 1)%nat = false /\ on k = true
  /\ powered (s_ctx (post k)) n r col false.
Proof. exact C11_retrigger_refuted_l. Qed.
Print Assumptions C11_retrigger_refuted.
(** The clock of [quiet_env] advances 10 ms per reading; the pulse of 40 ms started at execution 1 is over at 2. *)
Example C11_case : let c := block I_TP [V R_T 2; V R_M 4] in let on k := (k =? 1)%nat in
  let pre := play quiet_env I_TP on c in
  quiet_clock quiet_env /\ basetime R_M = Some 10 /\ timer_idle (s_ctx (pre 0%nat)) 2 /\ holds (s_ctx (pre 0%nat)) (LAcc 2) 0
  /\ timer_history quiet_env I_TP 0 0 1 2 (V R_M 4) pre (fun k => step1 quiet_env I_TP (pre k)) on 3
  /\ (forall k, (k <= 3)%nat -> pulse_cell (s_ctx (pre k)) 0 0 1 2)
  /\ ~ expired quiet_env pre 40 1 1 /\ expired quiet_env pre 40 1 3.
Proof.
  cbv zeta. split; [intros k t c; reflexivity|]. split; [reflexivity|]. split; [idle_case|]. split; [reflexivity|].
  split; [hist_case 4 2|]. split.
  { intros k Hk. do 4 (destruct k as [|k]; [norm_play; exists (V R_T 2); split; [decide_op|split; reflexivity]|]). lia. }
  split.
  - intros (m & Hm & H). assert (m = 1%nat) by lia. subst. vm_compute in H. congruence.
  - exists 3%nat. split; [lia|]. vm_compute. congruence.
Qed.

(** ** C12 *)

(** C12, finding: for a preset of any size (any sign) TON times preset x basetime modulo 2^32 milliseconds, and shows
    the elapsed units modulo 2^16 meanwhile. *)
Theorem C12_wrapped_actual : forall E n r col i v1 f pre post on K,
  quiet_clock E -> basetime (v_type v1) = Some f ->
  timer_idle (s_ctx (pre 0%nat)) i -> timer_history E I_TON n r col i v1 pre post on K ->
  forall j k, (k <= K)%nat -> since on j k ->
    (expired E pre ((v_raw v1 * f) mod 2 ^ 32) j k -> timer_is (s_ctx (post k)) i false true (v_raw v1 mod 2 ^ 32))
    /\ (~ expired E pre ((v_raw v1 * f) mod 2 ^ 32) j k ->
        timer_is (s_ctx (post k)) i true false ((elapsed (stamp E pre j) (shown E pre j k) / f) mod 2 ^ 16)).
Proof. exact C12_wrapped_actual_l. Qed.
Print Assumptions C12_wrapped_actual.

(** C12, finding: the same for TOF. *)
Theorem C12_wrapped_off_actual : forall E n r col i v1 f pre post on K,
  quiet_clock E -> basetime (v_type v1) = Some f ->
  timer_idle (s_ctx (pre 0%nat)) i -> timer_history E I_TOF n r col i v1 pre post on K ->
  forall j k, (k <= K)%nat -> since (fun k => negb (on k)) j k ->
    (expired E pre ((v_raw v1 * f) mod 2 ^ 32) j k -> timer_is (s_ctx (post k)) i false true (v_raw v1 mod 2 ^ 32))
    /\ (~ expired E pre ((v_raw v1 * f) mod 2 ^ 32) j k ->
        timer_is (s_ctx (post k)) i true false ((elapsed (stamp E pre j) (shown E pre j k) / f) mod 2 ^ 16)).
Proof. exact C12_wrapped_off_actual_l. Qed.
Print Assumptions C12_wrapped_off_actual.

(** C12, finding: a timer of 71583 minutes reports done after 12.704 seconds. *)
Theorem C12_early_refuted : exists E n r col i v1 f pre post on K j k,
  quiet_clock E /\ basetime (v_type v1) = Some f /\ fits (v_raw v1) /\ 2 ^ 32 <= v_raw v1 * f
  /\ timer_idle (s_ctx (pre 0%nat)) i /\ timer_history E I_TON n r col i v1 pre post on K
  /\ (k <= K)%nat /\ since on j k /\ ~ expired E pre (v_raw v1 * f) j k
  /\ timer_is (s_ctx (post k)) i false true (v_raw v1).
Proof. exact C12_early_refuted_l. Qed.
Print Assumptions C12_early_refuted.

(** C12, finding: the accumulator of a running timer can decrease while the elapsed time increases. *)
Theorem C12_backwards_refuted : exists E n r col i v1 f pre post on K a b,
  quiet_clock E /\ basetime (v_type v1) = Some f /\ 0 < v_raw v1 * f < 2 ^ 32
  /\ timer_idle (s_ctx (pre 0%nat)) i /\ timer_history E I_TON n r col i v1 pre post on K /\ (2 <= K)%nat
  /\ since on 0 2
  /\ elapsed (stamp E pre 0) (shown E pre 0 1) < elapsed (stamp E pre 0) (shown E pre 0 2)
  /\ timer_is (s_ctx (post 1%nat)) i true false a /\ timer_is (s_ctx (post 2%nat)) i true false b /\ b < a.
Proof. exact C12_backwards_refuted_l. Qed.
Print Assumptions C12_backwards_refuted.
Example C12_case : let c := block I_TON [V R_T 2; V R_Cd 71583] in
  let pre := play quiet_env I_TON (fun _ => true) c in
  basetime R_Cd = Some 60000 /\ timer_idle (s_ctx (pre 0%nat)) 2
  /\ timer_history quiet_env I_TON 0 0 1 2 (V R_Cd 71583) pre (fun k => step1 quiet_env I_TON (pre k)) (fun _ => true) 3
  /\ since (fun _ => true) 0 3.
Proof.
  cbv zeta. split; [reflexivity|]. split; [idle_case|]. split; [hist_case 4 2|]. split; [lia|]. split; auto.
Qed.
