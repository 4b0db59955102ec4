(** Vocabulary for statements about programs without timers. *)
From Verif Require Export SpecCall.

(** The instructions that look at the clock. *)
Definition timer_ins (i : ins) : bool := match i with I_TON | I_TOF | I_TP => true | _ => false end.
(** No cell of the program holds one. *)
Definition no_timers (c : ctx) : Prop := forall n r col bar i dq, peek c (LCell n r col) = Some (VCell bar i dq) -> timer_ins i = false.
Definition is_millis (ev : event) : bool := match ev with EvMillis _ => true | _ => false end.
(** The call belongs to a machine of the shape of [c0] and is not a reading of the clock. *)
Definition timeless (c0 : ctx) (ev : event) : Prop := called c0 ev /\ is_millis ev = false.
(** The environments behave alike in all calls that belong to a machine of the shape of [c0], except that their clocks and calendars
    may differ, and what happens when the clock is read. *)
Record alike_but_time (c0 : ctx) (E E' : env) : Prop := {
  ab_act : forall k ev c, shape c = shape c0 -> due c ev -> is_millis ev = false -> act E k ev c = act E' k ev c;
  ab_foreign : forall k id col row c, shape c = shape c0 -> due c (EvForeign id col row) -> fexec E k id col row c = fexec E' k id col row c }.

(** ** The task *)

(** The second machine is the first one with other statistics: the times may differ, the limits and the number of scans do not. *)
Definition differ_in_stats (c c' : ctx) : Prop := exists v, c' = set_x_si v c
  /\ si_maxcyc v = si_maxcyc (x_si c) /\ si_target v = si_target (x_si c) /\ si_count v = si_count (x_si c).
(** The same call, or two readings of the clock. *)
Definition like_call (ev ev' : event) : Prop := ev = ev' \/ is_millis ev = true /\ is_millis ev' = true.
(** What the functions of the two environments do is the same up to the statistics, does not depend on the statistics, and sets no
    target for the duration of a scan; their clocks may differ. *)
Record indifferent (c0 : ctx) (E E' : env) : Prop := {
  in_wall : forall k, wall E k = wall E' k;
  in_act : forall k ev ev' c c', shape c = shape c0 -> due c ev -> like_call ev ev' -> differ_in_stats c c' ->
    differ_in_stats (act E k ev c) (act E' k ev' c');
  in_target : forall k ev c, shape c = shape c0 -> due c ev -> si_target (x_si c) <= 0 -> si_target (x_si (act E k ev c)) <= 0;
  in_foreign : forall k id col row c c', shape c = shape c0 -> due c (EvForeign id col row) -> differ_in_stats c c' ->
    fst (fexec E k id col row c) = fst (fexec E' k id col row c')
    /\ differ_in_stats (snd (fexec E k id col row c)) (snd (fexec E' k id col row c'));
  in_foreign_target : forall k id col row c, shape c = shape c0 -> due c (EvForeign id col row) -> si_target (x_si c) <= 0 ->
    si_target (x_si (snd (fexec E k id col row c))) <= 0 }.
(** The two runs end alike: with the same answer on machines that differ in their statistics, after like calls, or both with the
    same undefined behaviour. *)
Definition same_run {A} (m m' : res (A * st)) : Prop :=
  match m, m' with
  | Ok (a, s), Ok (a', s') => a = a' /\ differ_in_stats (s_ctx s) (s_ctx s') /\ Forall2 like_call (s_tr s) (s_tr s')
  | Bad u, Bad u' => u = u'
  | NoFuel, NoFuel => True
  | _, _ => False end.
