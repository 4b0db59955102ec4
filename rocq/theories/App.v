(** The example application: test/ladderlib_test.c:143-268, with OPTIONAL_CRON. Its first lines run the project's own tests of the
    instructions, which are in Suite.v; here they have passed. What is printed on the terminal is left out. *)
From Coq Require Import String.
From Verif Require Export Files Check Print Port Cron.
Open Scope list_scope.
Open Scope Z_scope.

(** ladderlib_test.c:136-141, 160: the arguments of ladder_ctx_init. *)
Definition app_args : init_args := mk_init_args 6 7 3 18 8 8 8 8 10 0 true true 1000000 100.
(** ladderlib_test.c:144-145, 219, 237 *)
Definition prg_load : path := txt "ladder_networks.json".
Definition prg_save : path := txt "ladder_networks_save.json".
Definition prg_schema : path := txt "ladder_networks_schema.json".
Definition prg_compact : path := txt "compact.json".

(** What the application meets: the outcomes of allocations, the files during validating (0), loading (1), saving (2) and compacting (3),
    the cJSON library, and what is outside the tables of the loader. *)
Record host : Type := mk_host {
  ho_init : nat -> bool;
  ho_read : nat -> bool;
  ho_write : nat -> bool;
  ho_cron : bool;
  ho_foreign : bool;
  ho_load : site -> bool;
  ho_save : option nat;
  ho_print : nat -> bool;
  ho_world : nat -> world;
  ho_codec : codec;
  ho_cmp : comparison;
  ho_out : outside;
  ho_name : nat -> list Z }.

(** A call of a function that has no external calls. *)
Definition call_with {A} (f : ctx -> res (A * ctx)) : M A :=
  fun s => let? x := f (s_ctx s) in Ok (fst x, mk_st (snd x) (s_tr s)).
Definition succeeds (e : err) : bool := match e with E_OK => true | _ => false end.
(** ladderlib_test.c:193-206 *)
Definition app_job (enreg flag : Z) (s : string) : M bool := e <- call_with (cron_add false enreg flag (txt s)) ;; ret (succeeds e).
(** ladderlib_test.c:178-185 *)
Definition app_hooks : hooks := mk_hooks true true true true true true true true.
(** ladderlib_test.c:156-216; [false]: the application ends with exit status 1. *)
Definition app_setup (E : env) (H : host) : M bool :=
  i <- call_with (fun c => Ok (ctx_init (ho_init H) app_args c)) ;;
  if negb i then ret false else
  r <- add_read_fn E (ho_read H) true true ;;
  if negb r then ret false else
  w <- add_write_fn E (ho_write H) true true ;;
  if negb w then ret false else
  modc (set_x_h app_hooks) ;;;
  e <- call_with (cron_init (ho_cron H) 3) ;;
  if negb (succeeds e) then ret false else
  j1 <- app_job 10 11 "*/2 * * * * * *" ;;
  if negb j1 then ret false else
  j2 <- app_job 12 13 "*/10 * * * * * *" ;;
  if negb j2 then ret false else
  j3 <- app_job 14 15 "0 58 22 * * * *" ;;
  if negb j3 then ret false else
  set_state S_RUNNING ;;;
  f <- add_foreign E (ho_foreign H) true 5 ;;
  ret f.

(** How the application ends; all but [A_failed] have exit status 0. [A_ran Running]: the task is still running. *)
Inductive ending : Type :=
| A_failed | A_schema | A_load (e : jerr) | A_save (e : fstat) | A_compact (e : fstat) | A_check (p : pstatus) | A_ran (r : tend).
Definition is_joked (e : jerr) : bool := match e with J_OK => true | _ => false end.
Definition is_pok (e : perr) : bool := match e with P_OK => true | _ => false end.
(** ladderlib_test.c:94-134, 246-247: the name of the instruction in the report. *)
Definition name_of_code (i : ins) : res unit := match i with I_OTHER _ => Bad UB_oob | _ => Ok tt end.
(** ladderlib_test.c:218-254. If the program has no cells the status of the checker is not initialised. *)
Definition app_run (E : env) (H : host) (d : disk) (n : nat) : M (ending * disk) :=
  v <- lift (validate_path (ho_codec H) (ho_world H 0) d (ho_cmp H) prg_load prg_schema) ;;
  if negb v then ret (A_schema, d) else
  e <- call_with (load_path (ho_codec H) (ho_world H 1) d (ho_out H) (ho_load H) prg_load) ;;
  if negb (is_joked e) then ret (A_load e, d) else
  c <- getc ;;
  x <- lift (save_path (ho_codec H) (ho_world H 2) d (ho_out H) (ho_save H) prg_save c) ;;
  match x with
  | (ST_ok, d1) =>
      match compact_path (ho_codec H) (ho_world H 3) d1 prg_save prg_compact with
      | (ST_ok, d2) =>
          p <- lift (program_check c) ;;
          match p with
          | None => bad UB_indet
          | Some p =>
              if is_pok (ps_err p) then
                lift (ladder_print (ho_name H) (ho_print H) c) ;;;
                r <- ladder_task E n ;;
                ret (A_ran r, d2)
              else lift (name_of_code (ps_code p)) ;;; ret (A_check p, d2)
          end
      | (e, d2) => ret (A_compact e, d2)
      end
  | (e, d1) => ret (A_save e, d1)
  end.
(** ladderlib_test.c:143-268; [n] cycles of the task are looked at. *)
Definition app_main (E : env) (H : host) (d : disk) (n : nat) : M (ending * disk) :=
  b <- app_setup E H ;;
  if negb b then ret (A_failed, d) else
  x <- app_run E H d n ;;
  match fst x with A_ran Running => ret x | _ => ctx_deinit E ;;; ret x end.
