(** Vocabulary for timers and counters in a running program. *)
From Verif Require Export SpecTask.

(** The instruction at (n, r, col) is executed once in a scan and is the only one that may set a place of the list [regs]; code outside
    the library sets none of them. *)
Definition sole_user (W : event -> loc -> Prop) (c : ctx) (n r col : nat) (regs : list loc) : Prop :=
  (exists before after, program_cells c = before ++ (n, r, col) :: after /\ ~ In (n, r, col) (before ++ after)
     /\ forall n' r' col' l, In (n', r', col') (before ++ after) -> In l regs -> ~ names c (code_at c n' r' col') n' r' col' l)
  /\ forall ev l, In l regs -> ~ W ev l.
(** What is noted of one cycle of a run: the machine before and after the execution of the block, the power at its input, the power
    at its second input, and the machine at the end of the cycle. *)
Record note : Type := mk_note { at_pre : st; at_post : st; at_on : bool; at_second : bool; at_end : st }.
(** The cycle from [s] to [s'] executes the timer at (n, r, col) as noted. The timer [i] reaches it as the last cycle left it, and the
    cycle ends with the timer as the execution left it. *)
Definition timer_cycle (E : env) (W : event -> loc -> Prop) (n r col i : nat) (s s' : st) (x : note) : Prop :=
  (exists a b t0, begins W s a t0 /\ scans E a b /\ visits E W a b n r col (at_pre x) (at_post x))
  /\ left_powered (s_ctx (at_pre x)) n r col (at_on x) /\ at_end x = s'
  /\ same_timer i (s_ctx s) (s_ctx (at_pre x)) /\ same_timer i (s_ctx (at_post x)) (s_ctx s').
(** The same for a counter right of column [col]. *)
Definition counter_cycle (E : env) (W : event -> loc -> Prop) (n r col i : nat) (s s' : st) (x : note) : Prop :=
  (exists a b t0, begins W s a t0 /\ scans E a b /\ visits E W a b n r (S col) (at_pre x) (at_post x))
  /\ powered (s_ctx (at_pre x)) n r col (at_on x) /\ powered (s_ctx (at_pre x)) n (S r) col (at_second x) /\ at_end x = s'
  /\ same_counter i (s_ctx s) (s_ctx (at_pre x)) /\ same_counter i (s_ctx (at_post x)) (s_ctx s').
(** The notes of a run by number. *)
Definition pre_at (lg : list note) (d : st) (k : nat) : st := nth k (map at_pre lg) d.
Definition post_at (lg : list note) (d : st) (k : nat) : st := nth k (map at_post lg) d.
Definition on_at (lg : list note) (k : nat) : bool := nth k (map at_on lg) false.
Definition second_at (lg : list note) (k : nat) : bool := nth k (map at_second lg) false.
Definition end_at (lg : list note) (d : st) (k : nat) : st := nth k (map at_end lg) d.
(** The program has at (n, r, col) the timer instruction [code], two rows high, on timer [i] with the preset [v1]. *)
Definition timer_block (c : ctx) (code : ins) (n r col i : nat) (v1 : value) : Prop :=
  code_at c n r col = code /\ cell_exists c n (S r) col
  /\ (exists v0, operand_at c n r col 0 v0 /\ v_raw v0 = Z.of_nat i) /\ operand_at c n r col 1 v1.
(** The program has right of (n, r, col) the counter instruction [code], two rows high, on counter [i] with the preset [p]. *)
Definition counter_block (c : ctx) (code : ins) (n r col i : nat) (p : Z) : Prop :=
  code_at c n r (S col) = code /\ cell_exists c n (S r) (S col)
  /\ (exists v0, operand_at c n r (S col) 0 v0 /\ v_raw v0 = Z.of_nat i) /\ (exists v1, operand_at c n r (S col) 1 v1 /\ v_raw v1 = p).

(** ** What the runs of these blocks look like *)

(** On-delay. At the end of the cycles of the run noted in [lg], starting in [d]: with the input off the timer is reset; once a cycle
    saw the preset time over since the input came on, it is done; until then it runs and shows the elapsed time. *)
Definition on_delay (E : env) (n r col i : nat) (v1 : value) (f : Z) (lg : list note) (d : st) : Prop :=
  forall q x, nth_error lg q = Some x -> let pre := pre_at lg d in let on := on_at lg in
    (at_on x = false -> timer_is (s_ctx (at_end x)) i false false 0 /\ outputs (s_ctx (at_post x)) n r col false false)
    /\ (forall j, since on j q -> expired E pre (v_raw v1 * f) j q ->
          timer_is (s_ctx (at_end x)) i false true (v_raw v1) /\ outputs (s_ctx (at_post x)) n r col true false)
    /\ (forall j, since on j q -> ~ expired E pre (v_raw v1 * f) j q ->
          timer_is (s_ctx (at_end x)) i true false ((elapsed (stamp E pre j) (shown E pre j q) / f) mod 2 ^ 16)
          /\ outputs (s_ctx (at_post x)) n r col false true).
(** Off-delay: the same with the input negated; the output is on until the time is over. *)
Definition off_delay (E : env) (n r col i : nat) (v1 : value) (f : Z) (lg : list note) (d : st) : Prop :=
  forall q x, nth_error lg q = Some x -> let pre := pre_at lg d in let off := fun j => negb (on_at lg j) in
    (at_on x = true -> timer_is (s_ctx (at_end x)) i false false 0 /\ outputs (s_ctx (at_post x)) n r col true false)
    /\ (forall j, since off j q -> expired E pre (v_raw v1 * f) j q ->
          timer_is (s_ctx (at_end x)) i false true (v_raw v1) /\ outputs (s_ctx (at_post x)) n r col false false)
    /\ (forall j, since off j q -> ~ expired E pre (v_raw v1 * f) j q ->
          timer_is (s_ctx (at_end x)) i true false ((elapsed (stamp E pre j) (shown E pre j q) / f) mod 2 ^ 16)
          /\ outputs (s_ctx (at_post x)) n r col true true).
(** The first pulse: nothing before the input first comes on; then on until the time is over; then off for ever. *)
Definition one_pulse (E : env) (n r col i : nat) (v1 : value) (f : Z) (lg : list note) (d : st) : Prop :=
  forall q x, nth_error lg q = Some x -> let pre := pre_at lg d in let on := on_at lg in
    ((forall j, (j <= q)%nat -> on j = false) -> timer_is (s_ctx (at_end x)) i false false 0 /\ outputs (s_ctx (at_post x)) n r col false false)
    /\ (forall j, (j <= q)%nat -> (forall l, (l < j)%nat -> on l = false) -> on j = true ->
         (~ expired E pre (v_raw v1 * f) j q ->
            timer_is (s_ctx (at_end x)) i true false ((elapsed (stamp E pre j) (shown E pre j q) / f) mod 2 ^ 16)
            /\ outputs (s_ctx (at_post x)) n r col true true)
         /\ (expired E pre (v_raw v1 * f) j q ->
            timer_is (s_ctx (at_end x)) i false true (v_raw v1) /\ outputs (s_ctx (at_post x)) n r col false false)).
(** Counting up to [p] and down from [p]: the edges since the last powered reset input. *)
Definition counts_up (n r col i : nat) (p : Z) (lg : list note) : Prop :=
  forall q x, nth_error lg q = Some x ->
    (exists j, last_reset (second_at lg) j q)
    /\ forall j, last_reset (second_at lg) j q -> let e := edges (on_at lg) j (q - j) in
         counter_is (s_ctx (at_end x)) i (Z.min p e) (p <=? e) /\ (p <= e -> powered (s_ctx (at_post x)) n r (S col) true).
Definition counts_down (n r col i : nat) (p : Z) (lg : list note) : Prop :=
  forall q x, nth_error lg q = Some x ->
    (exists j, last_reset (second_at lg) j q)
    /\ forall j, last_reset (second_at lg) j q -> let e := edges (on_at lg) j (q - j) in
         counter_is (s_ctx (at_end x)) i (Z.max 0 (p - e)) (Z.max 0 (p - e) =? 0)
         /\ (p <= e -> powered (s_ctx (at_post x)) n r (S col) true).

(** ** A switch in front of a block *)

(** In the first column of row [r] stands a normally open contact on the input [v], whose value is at [l]. No vertical bar joins the
    contact to another row. Nothing sets the input during a scan, and code outside the library leaves the power of the contact alone.
    The contact is executed before the cell right of it. *)
Record switch (W : event -> loc -> Prop) (c : ctx) (n r : nat) (v : value) (l : loc) : Prop := {
  sw_code : code_at c n r 0 = I_NO;
  sw_operand : operand_at c n r 0 0 v;
  sw_input : v_type v = R_I;
  sw_there : has_history c v;
  sw_place : place_now v = Some l;
  sw_alone : left_alone W c l;
  sw_above : bar_at c n r 0 = false;
  sw_below : bar_at c n (S r) 0 = false;
  sw_power : ~ during_scan W (LPow n r 0);
  sw_first : exists before after, program_cells c = before ++ (n, r, 1%nat) :: after /\ In (n, r, 0%nat) before }.
(** In [s] the input [v] is on. *)
Definition input_is (v : value) (s : st) (on : bool) : Prop := exists z, reads (s_ctx s) v z /\ on = negb (z =? 0).
(** The cell in front of the second row of a block at (n, r, col + 1) is not joined by a bar to the one above it. It is not part of an
    instruction above it, and code outside the library leaves its power alone. *)
Record unjoined (W : event -> loc -> Prop) (c : ctx) (n r col : nat) : Prop := {
  uj_bar : bar_at c n (S r) col = false;
  uj_cell : multi (code_at c n (S r) col) = false;
  uj_power : ~ during_scan W (LPow n (S r) col);
  uj_row : exists rows cols, scanned c n rows cols /\ (S r < rows)%nat }.
