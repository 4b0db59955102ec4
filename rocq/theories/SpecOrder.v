(** Vocabulary for statements about scans of programs made of any instructions: every execution of an instruction with
    the machine before and after it, and what happens to the power of cells between them. *)
From Verif Require Export SpecScan.

(** One execution of an instruction: its cell, the machine before it, the error it returned, the machine after it. *)
Record turn : Type := mk_turn { at_net : nat; at_row : nat; at_col : nat; pre_of : st; returned : err; post_of : st }.
Definition place_of (t : turn) : nat * nat * nat := (at_net t, at_row t, at_col t).

(** All listed rows of column [col] carry in [s'] the OR of the power they had in [s]; nothing else changed. *)
Definition carries_or (n col : nat) (rs : list nat) (s s' : st) : Prop :=
  exists b, (b = true <-> exists r, In r rs /\ powered (s_ctx s) n r col true)
    /\ (forall r, In r rs -> powered (s_ctx s') n r col b)
    /\ changes_only (s_ctx s) (s_ctx s') (fun l => exists r, In r rs /\ l = LPow n r col).
(** Network [n] becomes the one being scanned and all its cells are switched off. *)
Definition starts_net (n rows cols : nat) (s s' : st) : Prop :=
  peek (s_ctx s') LExec = Some (VExec (Some n))
  /\ (forall r col, (r < rows)%nat -> (col < cols)%nat -> powered (s_ctx s') n r col false)
  /\ changes_only (s_ctx s) (s_ctx s') (fun l => l = LExec \/ exists r col, l = LPow n r col).
(** The record of the last instruction, and places in [W]. *)
Definition noted (W : loc -> Prop) (l : loc) : Prop := l = LErr \/ l = LLast \/ W l.

(** Runs of the program [prog]. Code outside the library changes only places in [W]. A run lists the turns taken; it is
    complete or, with [false], was broken off. *)
Section Run.
Variables (E : env) (W : loc -> Prop) (prog : ctx).
(** The instructions of the listed rows of a column, in this order, up to the first that fails. *)
Inductive group_run (n col : nat) : list nat -> list turn -> st -> bool -> st -> Prop :=
| gr_nil s : group_run n col [] [] s true s
| gr_mark r rs lg s s1 b s' : multi (code_at prog n r col) = true ->
    changes_only (s_ctx s) (s_ctx s1) (noted W) -> group_run n col rs lg s1 b s' -> group_run n col (r :: rs) lg s b s'
| gr_exec r rs lg s s1 s2 s3 b s' : multi (code_at prog n r col) = false ->
    changes_only (s_ctx s) (s_ctx s1) (noted W) -> executed E n r col s1 E_OK s2 ->
    changes_only (s_ctx s2) (s_ctx s3) (noted W) -> group_run n col rs lg s3 b s' ->
    group_run n col (r :: rs) (mk_turn n r col s1 E_OK s2 :: lg) s b s'
| gr_fail r rs s s1 e s2 s' : multi (code_at prog n r col) = false ->
    changes_only (s_ctx s) (s_ctx s1) (noted W) -> executed E n r col s1 e s2 -> e <> E_OK ->
    changes_only (s_ctx s2) (s_ctx s') (eq LErr) -> peek (s_ctx s') LErr = Some (VErr e) ->
    group_run n col (r :: rs) [mk_turn n r col s1 e s2] s false s'.
(** The steps of a plan: all rows of a group carry the OR of what its instructions made before the next group starts. *)
Inductive steps_run (n : nat) : list step -> list turn -> st -> bool -> st -> Prop :=
| sr_nil s : steps_run n [] [] s true s
| sr_tick l lg s s1 b s' : changes_only (s_ctx s) (s_ctx s1) W -> steps_run n l lg s1 b s' -> steps_run n (Tick :: l) lg s b s'
| sr_over l s s' : changes_only (s_ctx s) (s_ctx s') (fun x => x = LErr \/ x = LState \/ W x) ->
    peek (s_ctx s') LErr = Some (VErr E_OVERFLOW) -> peek (s_ctx s') LState = Some (VState S_ERROR) ->
    steps_run n (Tick :: l) [] s false s'
| sr_run col rs l lg lg2 s s1 s2 b s' : group_run n col rs lg s true s1 -> carries_or n col rs s1 s2 ->
    steps_run n l lg2 s2 b s' -> steps_run n (Run col rs :: l) (lg ++ lg2) s b s'
| sr_fault col rs l lg s s1 s' : group_run n col rs lg s false s1 -> changes_only (s_ctx s1) (s_ctx s') (eq LState) ->
    peek (s_ctx s') LState = Some (VState S_INV) -> steps_run n (Run col rs :: l) lg s false s'
| sr_close l lg s s1 b s' : changes_only (s_ctx s) (s_ctx s1) W -> steps_run n l lg s1 b s' -> steps_run n (Close :: l) lg s b s'.
(** The listed networks, one after the other. *)
Inductive nets_run : list nat -> list turn -> st -> bool -> st -> Prop :=
| nr_nil s : nets_run [] [] s true s
| nr_skip n l rows cols lg s b s' : peek prog (LNet n) = Some (VNet false rows cols) ->
    nets_run l lg s b s' -> nets_run (n :: l) lg s b s'
| nr_done n l rows cols lg lg2 s s1 s2 b s' : peek prog (LNet n) = Some (VNet true rows cols) ->
    starts_net n rows cols s s1 -> steps_run n (plan prog n) lg s1 true s2 -> nets_run l lg2 s2 b s' ->
    nets_run (n :: l) (lg ++ lg2) s b s'
| nr_stop n l rows cols lg s s1 s' : peek prog (LNet n) = Some (VNet true rows cols) ->
    starts_net n rows cols s s1 -> steps_run n (plan prog n) lg s1 false s' -> nets_run (n :: l) lg s false s'.
End Run.
(** A scan from [s] to [s'] that takes these turns: first the cron jobs, then the networks in order. *)
Definition scan_run (E : env) (W : loc -> Prop) (lg : list turn) (s : st) (done : bool) (s' : st) : Prop :=
  exists s0, cron_step E s s0 /\ nets_run E W (s_ctx s) (seq 0 (q_nets (x_q (s_ctx s)))) lg s0 done s'.

(** Below an instruction that sets the power of several rows there are continuation marks. *)
Definition marked (c : ctx) : Prop :=
  forall n rows cols r col k, scanned c n rows cols -> (r < rows)%nat -> (col < cols)%nat ->
    In k (footprint (code_at c n r col) r) -> k <> r -> multi (code_at c n k col) = true.
