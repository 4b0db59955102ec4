(** Vocabulary for statements about cron jobs. *)
From Verif Require Export SpecTask.

(** The same rule read job by job: the flag of an auto-reset job is cleared, and then the job fires if it is its time. *)
Definition job_done (t : tm) (f : Z -> option Z) (j : job) : Z -> option Z := fired t (flags_cleared [j] f) j.
Definition job_by_job (t : tm) (js : list job) (f : Z -> option Z) : Z -> option Z := fold_left (job_done t) js f.
(** No auto-reset job has a flag that an earlier job sets or reads. *)
Fixpoint orderly (js : list job) : Prop :=
  match js with
  | [] => True
  | j :: t => (forall j', In j' t -> j_en j' = true -> j_auto j' = true -> j_en j = true -> j_flag j' <> j_flag j /\ j_flag j' <> j_enreg j) /\ orderly t
  end.
(** The cron structure is there but has no job in use, as after ladder_ctx_init. *)
Definition jobless (c : ctx) : Prop := exists k, peek c LCron = Some (VCron (Some k)) /\ cr_used k = 0%nat.
(** The bit maps have the sizes of lwdtc.h. *)
Definition full_map (k : cronmap) : Prop :=
  length (k_sec k) = 8%nat /\ length (k_min k) = 8%nat /\ length (k_hour k) = 3%nat /\ length (k_mday k) = 4%nat /\ length (k_mon k) = 2%nat
  /\ length (k_wday k) = 1%nat /\ length (k_year k) = 13%nat.
(** Slot [i] of the job table. *)
Definition slot (k : cron) (i : nat) : option job := match cr_jobs k with Some js => nth_error js i | None => None end.
(** The job names two M registers below [n]. *)
Definition inside_m (n : nat) (j : job) : Prop := 0 <= j_enreg j < Z.of_nat n /\ 0 <= j_flag j < Z.of_nat n.
(** A job table as the functions of the library leave it: as many slots as declared, no more in use than there are, and
    every job in use names M registers that exist. *)
Record table_ok (n : nat) (k : cron) : Prop := {
  tb_size : match cr_jobs k with Some js => length js = cr_qty k | None => cr_qty k = 0%nat end;
  tb_used : (cr_used k <= cr_qty k)%nat;
  tb_maps : forall i j, slot k i = Some j -> full_map (j_map j);
  tb_jobs : forall i j, (i < cr_used k)%nat -> slot k i = Some j -> inside_m n j }.
(** The calls that set up cron jobs. *)
Inductive setup_call : Type := InitJobs (alloc : bool) (n : nat) | AddJob (auto : bool) (enreg flag : Z) (s : list Z).
Definition setup (x : setup_call) (c : ctx) : res (err * ctx) :=
  match x with InitJobs al n => cron_init al n c | AddJob a e f s => cron_add a e f s c end.
(** The registers are numbers of type uint32_t. *)
Definition u32_call (x : setup_call) : Prop := match x with InitJobs _ _ => True | AddJob _ e f _ => 0 <= e < 2 ^ 32 /\ 0 <= f < 2 ^ 32 end.
(** The context after a series of calls that all returned. *)
Inductive set_up : list setup_call -> ctx -> ctx -> Prop :=
| su_none c : set_up [] c c
| su_call x xs c e c1 c2 : u32_call x -> setup x c = Ok (e, c1) -> set_up xs c1 c2 -> set_up (x :: xs) c c2.
