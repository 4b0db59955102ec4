(** Vocabulary for statements about the example application. *)
From Coq Require Import String.
From Verif Require Export App SpecFiles SpecFlow SpecPrint SpecCalm SpecPort SpecSchema.
Open Scope list_scope.
Open Scope Z_scope.

(** The environment is the example port, the initialisation of modules and of the foreign function included. *)
Record app_port (keys : nat -> list Z) (al : nat -> nat -> bool) (tv : nat -> Z * Z) (now : nat -> tm) (E : env) : Prop := {
  ap_follows : follows true keys al tv now E;
  ap_init : forall k, ext_ok E k = al k 0%nat && al k 1%nat && al k 2%nat;
  ap_foreign : forall k d, finit E k d = dummy_init d }.
(** There is memory for everything the application sets up; the initialisation functions of the port are the calls number [k]
    and [k + 1]. *)
Definition memory_for_setup (H : host) (al : nat -> nat -> bool) (k : nat) : Prop :=
  (forall i, ho_init H i = true) /\ (forall i, ho_read H i = true) /\ (forall i, ho_write H i = true) /\ ho_cron H = true /\ ho_foreign H = true
  /\ forall i, al k i = true /\ al (S k) i = true.

(** The machine the application sets up: 18 memory bits, 8 counters, timers, data and real registers, all 0; three networks of 7 rows and 6
    columns, not enabled and empty; timers of 0; every hook and the clock installed; a delay of 10 when not running, no watchdog,
    outputs kept on a fault, at most 1000000 cells in a scan, a scan every 100 milliseconds; one module of 8 inputs and one of 8
    outputs, written and read by the port; three jobs; one foreign function; running. *)
Record app_machine (c : ctx) : Prop := {
  am_state : peek c LState = Some (VState S_RUNNING);
  am_sizes : q_m (x_q c) = 18%nat /\ q_c (x_q c) = 8%nat /\ q_t (x_q c) = 8%nat /\ q_d (x_q c) = 8%nat /\ q_r (x_q c) = 8%nat /\ q_nets (x_q c) = 3%nat;
  am_zero : forall b i, (i < bank_qty b (x_q c))%nat -> holds c (LReg b i) 0;
  am_timers : forall i, (i < 8)%nat -> holds c (LTs i) 0 /\ holds c (LAcc i) 0;
  am_hooks : exists h, peek c LHooks = Some (VHooks h)
    /\ [h_millis h; h_delay h; h_scan_end h; h_instr h; h_before h; h_after h; h_panic h; h_end h] = repeat true 8;
  am_limits : q_delay (x_q c) = 10 /\ q_wdg (x_q c) = 0 /\ peek c LWof = Some (VB true)
    /\ exists t, peek c LStats = Some (VStats t) /\ si_maxcyc t = 1000000 /\ si_target t = 100 /\ si_count t = 0 /\ si_over t = false;
  am_port : exists h, peek c LIo = Some (VIo h) /\ elem (io_rd h) 0 = Some true /\ elem (io_wr h) 0 = Some true
    /\ elem (io_ird h) 0 = Some true /\ elem (io_iwr h) 0 = Some true;
  am_nets : forall n, (n < 3)%nat -> peek c (LNet n) = Some (VNet false 7 6) /\ forall r col, (r < 7)%nat -> (col < 6)%nat -> blank c n r col;
  am_modules : io_rq (x_io c) = 1%nat /\ io_wq (x_io c) = 1%nat /\ peek c (LInMeta 0) = Some (VMeta 0 8 8) /\ peek c (LOutMeta 0) = Some (VMeta 0 8 8);
  am_jobs : exists k m1 m2 m3, peek c LCron = Some (VCron (Some k)) /\ cr_used k = 3%nat
    /\ cr_jobs k = Some [mk_job true false 10 11 m1; mk_job true false 12 13 m2; mk_job true false 14 15 m3]
    /\ forall t, calendar t ->
         (matches t m1 = true <-> tm_sec t < 60 /\ tm_sec t mod 2 = 0)
         /\ (matches t m2 = true <-> tm_sec t < 60 /\ tm_sec t mod 10 = 0)
         /\ (matches t m3 = true <-> tm_hour t = 22 /\ tm_min t = 58 /\ tm_sec t = 0);
  am_foreign : exists f d, peek c LForeign = Some (VForeign f) /\ fo_qty f = 1%nat /\ elem (fo_fn f) 0 = Some d /\ f_iocd d = mk_iocd 3 3 3 3 }.

(** ** Documents and programs the application can handle *)

(** What the checker does not look at and the application relies on: no foreign functions (whose figure cannot be drawn), no strings
    (which cannot be saved), reals that are numbers, no operand in the module after the last one, tables of TMOVE
    inside the program, at least one cell, no network without rows, and networks that fit into the limit of cycles. *)
Record handled (c : ctx) : Prop := {
  hd_foreign : forall n r col, program_cell c n r col -> code_at c n r col <> I_FOREIGN;
  hd_reals : forall n r col d v, program_cell c n r col -> operand_at c n r col d v -> v_type v = R_R -> writable v;
  hd_strings : no_strings c;
  hd_modules : ~ one_too_many c;
  hd_tables : tables_known c;
  hd_cells : has_cells c;
  hd_rows : forall n, (n < q_nets (x_q c))%nat -> peek c (LRows n) <> None;
  hd_room : roomy c }.
(** A document that can be loaded into the machine [c] without leaving any array, whose networks have columns, and whose program, if it
    is one, is as above. *)
Record suitable (L : outside) (al : site -> bool) (js : list json) (c : ctx) : Prop := {
  st_tame : Forall (tame_element L) js;
  st_memory : forall i, al (A_cells i) = true;
  st_columns : columns_given js;
  st_program : forall c', json_to_program L al (F_doc (JArr js)) c = Ok (J_OK, c') -> handled c' }.
(** The validator reads numbers as int. *)
Definition small_numbers (j : json) : Prop := forall d, contains j (JNum d) -> exists z, truncates d z /\ - 2 ^ 31 <= z < 2 ^ 31.
(** Events of the setup and the release of the machine. *)
Definition service_event (ev : event) : Prop :=
  match ev with EvInitRead _ _ | EvInitWrite _ _ | EvForeignInit _ | EvForeignDeinit _ => True | _ => False end.
(** Everything the machine owned is given back. *)
Record given_back (c : ctx) : Prop := {
  gb_banks : forall b, peek c (LRegLen b) = None;
  gb_timers : peek c LTmLen = None;
  gb_modules : x_in c = None /\ x_out c = None;
  gb_tables : io_rd (x_io c) = None /\ io_wr (x_io c) = None /\ io_ird (x_io c) = None /\ io_iwr (x_io c) = None;
  gb_foreign : fo_fn (x_for c) = None;
  gb_cron : x_cron c = None }.
(** The library can print the document in both ways and read it again. *)
Definition passes_through (K : codec) (j : json) : Prop :=
  (exists t, k_pretty K j = Some t /\ prints K j t) /\ exists u, k_compact K j = Some u /\ prints K j u.
(** Nothing goes wrong outside the program: there is memory, the files of the project are in place and readable, the two that the
    application makes can be written and read, and texts are compared correctly. *)
Record undisturbed (H : host) (d : disk) (program schema : json) : Prop := {
  un_load : forall i, ho_load H i = true;
  un_save : ho_save H = None;
  un_texts : forall x t, ho_cmp H x (JStr t) = true <-> x = JStr t;
  un_program : file_of (ho_codec H) (ho_world H 0) d prg_load = F_doc program /\ file_of (ho_codec H) (ho_world H 1) d prg_load = F_doc program;
  un_schema : file_of (ho_codec H) (ho_world H 0) d prg_schema = F_doc schema;
  un_write : w_write (ho_world H 2) prg_save = true /\ w_write (ho_world H 3) prg_compact = true;
  un_read : can_read (ho_world H 3) prg_save;
  un_sent : delivers (ho_world H 2) /\ delivers (ho_world H 3) }.
