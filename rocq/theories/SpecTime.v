(** Vocabulary for timers and counters over histories of executions. *)
From Verif Require Export SpecRun.

(** Milliseconds per time unit, selected by the type field of the preset operand (0 to 4). *)
Definition basetime (t : reg) : option Z :=
  match reg_code t with
  | 0 => Some 1 | 1 => Some 10 | 2 => Some 100 | 3 => Some 1000 | 4 => Some 60000 | _ => None
  end.
(** Calling the clock does not change the context. *)
Definition quiet_clock (E : env) : Prop := forall k t c, act E k (EvMillis t) c = c.
(** Reading number [j] of the clock after state [s], an unsigned 64-bit number of milliseconds. *)
Definition reading (E : env) (s : st) (j : nat) : Z := (clk E (length (s_tr s) + j)) mod 2 ^ 64.
(** Time from [a] to [b] on a 64-bit clock that may wrap. *)
Definition elapsed (a b : Z) : Z := (b - a) mod 2 ^ 64.

(** The four registers of timer [i]: running flag, done flag, start stamp, accumulator. *)
Definition timer_regs (i : nat) : list loc := [LReg B_Tr i; LReg B_Td i; LTs i; LAcc i].
Definition same_timer (i : nat) (c c' : ctx) : Prop := forall l, In l (timer_regs i) -> peek c' l = peek c l.
(** The cell is a timer block on timer [i]: two rows high, first operand the timer, second the preset. *)
Definition timer_cell (c : ctx) (n r col i : nat) (v1 : value) : Prop :=
  executing c n r col /\ cell_exists c n (S r) col
  /\ (exists v0, peek c (LData n r col 0) = Some (VVal v0) /\ v_raw v0 = Z.of_nat i)
  /\ peek c (LData n r col 1) = Some (VVal v1).
(** Timer [i] exists and its flags are 0 or 1. *)
Definition timer_exists (c : ctx) (i : nat) : Prop :=
  exists a b ts acc, holds_flag c (LReg B_Tr i) a /\ holds_flag c (LReg B_Td i) b
    /\ holds c (LTs i) ts /\ holds c (LAcc i) acc.

(** A history: execution number [k] of the block goes from [pre k] to [post k] with power [on k] on its left, for
    [k] up to [K]. Between two executions anything may happen except to the timer itself. *)
Definition timer_history (E : env) (code : ins) (n r col i : nat) (v1 : value)
    (pre post : nat -> st) (on : nat -> bool) (K : nat) : Prop :=
  (forall k, (k <= K)%nat ->
     timer_cell (s_ctx (pre k)) n r col i v1 /\ left_powered (s_ctx (pre k)) n r col (on k)
     /\ outcome E code r col (pre k) = Some (Ok (E_OK, post k)))
  /\ (forall k, (k < K)%nat -> same_timer i (s_ctx (post k)) (s_ctx (pre (S k)))).
(** Neither running nor done. *)
Definition timer_idle (c : ctx) (i : nat) : Prop :=
  timer_exists c i /\ holds c (LReg B_Tr i) 0 /\ holds c (LReg B_Td i) 0.
(** Running flag, done flag and accumulator of timer [i]. *)
Definition timer_is (c : ctx) (i : nat) (running done : bool) (acc : Z) : Prop :=
  holds c (LReg B_Tr i) (b2z running) /\ holds c (LReg B_Td i) (b2z done) /\ holds c (LAcc i) acc.
(** Power leaving the two rows of a block. *)
Definition outputs (c : ctx) (n r col : nat) (first second : bool) : Prop :=
  powered c n r col first /\ powered c n (S r) col second.

(** [j] is the first of the uninterrupted executions up to [k] in which [ph] holds. *)
Definition since (ph : nat -> bool) (j k : nat) : Prop :=
  (j <= k)%nat /\ (forall m, (j <= m <= k)%nat -> ph m = true) /\ (j = 0%nat \/ ph (j - 1)%nat = false).
(** The clock readings of an execution: the one that starts timing takes its stamp first, then reads the clock for
    the accumulator and for the comparison with the preset. *)
Definition stamp (E : env) (pre : nat -> st) (j : nat) : Z := reading E (pre j) 0.
Definition shown (E : env) (pre : nat -> st) (j k : nat) : Z := reading E (pre k) (if (k =? j)%nat then 1 else 0).
Definition compared (E : env) (pre : nat -> st) (j k : nat) : Z := reading E (pre k) (if (k =? j)%nat then 2 else 1).
(** A timing of [D] milliseconds started at execution [j] has been seen to be over by execution [k]. *)
Definition expired (E : env) (pre : nat -> st) (D : Z) (j k : nat) : Prop :=
  exists m, (j <= m <= k)%nat /\ D <= elapsed (stamp E pre j) (compared E pre j m).

(** For TP: the first operand is moreover written as timer register T[i] (TP looks at its value). *)
Definition pulse_cell (c : ctx) (n r col i : nat) : Prop :=
  exists v0, operand_at c n r col 0 v0 /\ v_type v0 = R_T /\ v_raw v0 = Z.of_nat i.

(** ** Counters *)

(** The three registers of counter [i]: count, done flag, armed flag. *)
Definition counter_regs (i : nat) : list loc := [LReg B_C i; LReg B_Cd i; LReg B_Cr i].
Definition same_counter (i : nat) (c c' : ctx) : Prop := forall l, In l (counter_regs i) -> peek c' l = peek c l.
Definition counter_is (c : ctx) (i : nat) (count : Z) (done : bool) : Prop :=
  holds c (LReg B_C i) count /\ holds c (LReg B_Cd i) (b2z done).
(** Counter [i] exists and its flags are 0 or 1. *)
Definition counter_exists (c : ctx) (i : nat) : Prop :=
  exists z a b, holds c (LReg B_C i) z /\ holds_flag c (LReg B_Cd i) a /\ holds_flag c (LReg B_Cr i) b.
(** A counter block on counter [i], right of column 0: first operand the counter, second the preset [p]. *)
Definition counter_cell (c : ctx) (n r col i : nat) (p : Z) : Prop :=
  executing c n r (S col) /\ cell_exists c n (S r) (S col)
  /\ (exists v0, peek c (LData n r (S col) 0) = Some (VVal v0) /\ v_raw v0 = Z.of_nat i)
  /\ (exists v1, peek c (LData n r (S col) 1) = Some (VVal v1) /\ v_raw v1 = p).
(** A history: in execution [k] the count input is [on k] and the reset input [rst k]; between executions the counter
    itself is not touched. *)
Definition counter_history (E : env) (code : ins) (n r col i : nat) (p : Z)
    (pre post : nat -> st) (on rst : nat -> bool) (K : nat) : Prop :=
  (forall k, (k <= K)%nat ->
     counter_cell (s_ctx (pre k)) n r col i p
     /\ powered (s_ctx (pre k)) n r col (on k) /\ powered (s_ctx (pre k)) n (S r) col (rst k)
     /\ outcome E code r (S col) (pre k) = Some (Ok (E_OK, post k)))
  /\ (forall k, (k < K)%nat -> same_counter i (s_ctx (post k)) (s_ctx (pre (S k)))).
(** A counter just reset to [z]. *)
Definition counter_fresh (c : ctx) (i : nat) (z : Z) : Prop :=
  holds c (LReg B_C i) z /\ holds c (LReg B_Cd i) 0 /\ holds c (LReg B_Cr i) 0.
(** [j] is the last execution up to [k] with a powered reset input, or the first one if there was none. *)
Definition last_reset (rst : nat -> bool) (j k : nat) : Prop :=
  (j <= k)%nat /\ (rst j = true \/ (j = 0%nat /\ rst j = false)) /\ (forall m, (j < m <= k)%nat -> rst m = false).
(** Number of off-to-on transitions of the count input in executions [j] to [j + d], taking it as off before [j]. *)
Fixpoint edges (on : nat -> bool) (j d : nat) : Z :=
  match d with
  | O => if on j then 1 else 0
  | S d' => edges on j d' + (if on (j + d)%nat && negb (on (j + d')%nat) then 1 else 0)
  end.
