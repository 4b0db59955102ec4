(** The project's own tests run on the model. This file claims nothing: it checks the model against what the authors of the code
    observed. Each test of test/ladderlib_test_functions.c is transcribed statement by statement. *)
From Verif Require Export Demo Task.

(** ** The callbacks of the tests *)

(** test_functions.c:164-170: sets the cell's power. *)
Definition foreign_exec (row col : nat) (c : ctx) : err * ctx :=
  match x_exec c with
  | None => (E_OK, c)
  | Some n => match upd_cell n row col (set_c_state true) c with Ok c' => (E_OK, c') | _ => (E_FAIL, c) end
  end.
(** test_functions.c:188-251: the callbacks do nothing, except that the one after a cycle asks for the end of the task. The clock is a
    parameter. test_functions.c:172-186 for the registration of the foreign function. *)
Definition test_env (clock : nat -> Z) : env :=
  mk_env clock (fun _ ev c => match ev with EvAfter => set_x_state S_EXIT_TSK c | _ => c end) (fun _ _ col row c => foreign_exec row col c)
    (fun _ => mk_tm 0 0 0 1 0 0 120) (fun _ => true) (fun _ d => (true, mk_fdesc 0 (mk_iocd 1 1 1 0) false)).
(** test_functions.c:253-284. *)
Definition test_init (E : env) : M bool :=
  modc (fun c => snd (ctx_init (fun _ => true) (mk_init_args 5 5 3 18 8 8 8 8 10 0 true true 1000000 100) c)) ;;;
  updc clear_program ;;;
  a <- add_read_fn E (fun _ => true) true true ;;
  b <- add_write_fn E (fun _ => true) true true ;;
  modc (set_x_h (mk_hooks true true true true true true true true)) ;;; modc (set_x_cron None) ;;; set_state S_RUNNING ;;;
  ret (a && b).

(** ** The statements of the tests *)

(** A statement has no result or the result of a check. *)
Definition step : Type := env -> M (option bool).
Definition quietly (m : env -> M unit) : step := fun E => m E ;;; ret None.
Definition set (b : bank) (i z : Z) : step := quietly (fun _ => updc (bk_put b i z)).
Definition clear_M (n : nat) : step := quietly (fun _ => updc (fun c => let? a := pmemset0 (arr_of B_M c) n in Ok (set_arr B_M a c))).
Definition clear_acc (i : nat) : step :=
  quietly (fun _ => modc (fun c => set_x_tm (option_map (fun l => lset l i (set_t_acc 0 (nth i l (mk_timer 0 0)))) (x_tm c)) c)).
(** ladder_fn_cell; its result counts as a check. *)
Definition place (n r col : nat) (i : ins) : step :=
  fun E s => match fn_cell true n r col i 0 (s_ctx s) with Ok (b, c) => Ok (Some b, mk_st c (s_tr s)) | Bad u => Bad u | NoFuel => NoFuel end.
Definition data_upd (n r col k : nat) (f : value -> value) (c : ctx) : res ctx :=
  let? nt := net_at n c in let? x := cell_in nt r col in
  let? v := pget (c_data x) (Z.of_nat k) in
  let? d := pset (c_data x) (Z.of_nat k) (f v) in
  upd_cell n r col (set_c_data d) c.
Definition typ (n r col k : nat) (t : reg) : step := quietly (fun _ => updc (data_upd n r col k (fun v => set_v_type t v))).
Definition val (n r col k : nat) (z : Z) : step := quietly (fun _ => updc (data_upd n r col k (fun v => set_v_raw z v))).
Definition pow (n r col : nat) (b : bool) : step := quietly (fun _ => updc (upd_cell n r col (set_c_state b))).
Definition enable (n : nat) (b : bool) : step :=
  quietly (fun _ => updc (fun c => let? nt := net_at n c in
    match x_net c with None => Bad UB_null | Some l => Ok (set_x_net (Some (lset l n (set_n_en b nt))) c) end)).
(** data = calloc(1, sizeof(ladder_value_t)) and data_qty of a table cell. *)
Definition table (n : nat) : step := quietly (fun _ => updc (upd_cell n 0 0 (set_c_data (Some [value0])))).
Definition table_qty (n k : nat) : step := quietly (fun _ => updc (upd_cell n 0 0 (set_c_dq k))).
Definition task : step := quietly (fun E => ladder_task E 1000 ;;; ret tt).
Definition resume : step := quietly (fun _ => set_state S_RUNNING).
Definition foreign : step := fun E => b <- add_foreign E true true 1 ;; ret (Some b).
Definition check_eq (b : bank) (i z : Z) : step := fun E => c <- getc ;; v <- lift (bk_get b i c) ;; ret (Some (v =? z)).
Definition check_pow (n r col : nat) (b : bool) : step :=
  fun E => c <- getc ;; nt <- lift (net_at n c) ;; x <- lift (cell_in nt r col) ;; ret (Some (Bool.eqb (c_state x) b)).
Definition check_val (n r col k : nat) (z : Z) : step :=
  fun E => c <- getc ;; nt <- lift (net_at n c) ;; x <- lift (cell_in nt r col) ;; v <- lift (pget (c_data x) (Z.of_nat k)) ;; ret (Some (v_raw v =? z)).
Definition check_ok : step := fun E => c <- getc ;; ret (Some (match l_err (x_last c) with E_OK => true | _ => false end)).
Fixpoint run_steps (l : list step) : env -> M (list bool) :=
  fun E => match l with
  | [] => ret []
  | x :: t => a <- x E ;; b <- run_steps t E ;; ret (match a with Some q => q :: b | None => b end)
  end.
Definition repeat_step (n : nat) (l : list step) : step := quietly (fun E => run_steps (List.concat (repeat l n)) E ;;; ret tt).
(** The results of the checks of one test, [None] if it runs into undefined behaviour. *)
Definition results (E : env) (l : list step) : option (list bool) :=
  match (b <- test_init E ;; q <- run_steps l E ;; ctx_deinit E ;;; ret (b :: q)) (mk_st garbage []) with Ok (q, _) => Some q | _ => None end.

(** ** The tests *)

(** test_fn_ADD, lines 293-322 *)
Definition test_ADD : list step :=
  [set B_D 0 10; set B_D 1 20; set B_D 2 0; place 0 0 0 I_ADD; typ 0 0 0 0 R_D; val 0 0 0 0 0; typ 0 0 0 1 R_D; val 0 0 0 1 1;
   typ 0 0 0 2 R_D; val 0 0 0 2 2; enable 0 true; task; check_eq B_D 2 30].
(** test_fn_AND, lines 324-345 *)
Definition test_AND : list step :=
  [set B_D 0 1; set B_D 1 1; set B_D 2 0; place 0 0 0 I_AND; typ 0 0 0 0 R_D; val 0 0 0 0 0; typ 0 0 0 1 R_D; val 0 0 0 1 1;
   typ 0 0 0 2 R_D; val 0 0 0 2 2; enable 0 true; task; check_eq B_D 2 1].
(** test_fn_COIL, lines 347-381 *)
Definition test_COIL : list step :=
  [clear_M 18; set B_M 1 0; place 0 0 0 I_NO; typ 0 0 0 0 R_M; val 0 0 0 0 1; place 0 0 1 I_COIL; typ 0 0 1 0 R_M;
   val 0 0 1 0 0; enable 0 true; set B_M 1 1; task; check_eq B_M 0 1; set B_M 1 0; resume; task; check_eq B_M 0 0].
(** test_fn_COILL, lines 383-407 *)
Definition test_COILL : list step :=
  [set B_M 0 0; place 0 0 0 I_COILL; typ 0 0 0 0 R_M; val 0 0 0 0 0; enable 0 true; set B_Mh 0 0; pow 0 0 0 true; task;
   check_eq B_M 0 1; set B_Mh 0 1; pow 0 0 0 false; task; check_eq B_M 0 1].
(** test_fn_COILU, lines 409-443 *)
Definition test_COILU : list step :=
  [set B_M 1 0; place 0 0 0 I_NO; typ 0 0 0 0 R_M; val 0 0 0 0 1; place 0 0 1 I_COILU; typ 0 0 1 0 R_M; val 0 0 1 0 0;
   enable 0 true; set B_M 0 1; set B_M 1 0; set B_Mh 0 1; task; check_eq B_M 0 1; set B_M 1 1; set B_Mh 0 1; resume; task;
   check_eq B_M 0 0].
(** test_fn_CONN, lines 445-457 *)
Definition test_CONN : list step :=
  [place 0 0 0 I_CONN; enable 0 true; pow 0 0 0 true; task; check_pow 0 0 0 true].
(** test_fn_CTD, lines 459-503 *)
Definition test_CTD : list step :=
  [set B_C 0 5; set B_Cd 0 0; set B_Cr 0 0; set B_M 2 0; place 0 0 0 I_NO; typ 0 0 0 0 R_M; val 0 0 0 0 2; place 0 0 1 I_CTD;
   typ 0 0 1 0 R_C; val 0 0 1 0 0; typ 0 0 1 1 R_D; val 0 0 1 1 0; set B_D 0 5; pow 0 1 1 false; enable 0 true;
   repeat_step 3 [resume; set B_M 2 1; task; resume; set B_M 2 0; task]; check_eq B_C 0 2].
(** test_fn_CTU, lines 505-537 *)
Definition test_CTU : list step :=
  [set B_C 0 0; set B_Cd 0 0; set B_Cr 0 0; place 0 0 1 I_CTU; typ 0 0 1 0 R_C; val 0 0 1 0 0; typ 0 0 1 1 R_D; val 0 0 1 1 0;
   set B_D 0 5; enable 0 true; repeat_step 5 [resume; pow 0 0 1 true; task; resume; pow 0 0 1 false; task]; check_eq B_Cd 0 1].
(** test_fn_DIV, lines 539-568 *)
Definition test_DIV : list step :=
  [set B_D 0 20; set B_D 1 4; set B_D 2 0; place 0 0 0 I_DIV; typ 0 0 0 0 R_D; val 0 0 0 0 0; typ 0 0 0 1 R_D; val 0 0 0 1 1;
   typ 0 0 0 2 R_D; val 0 0 0 2 2; enable 0 true; pow 0 0 0 true; task; check_eq B_D 2 5; set B_D 1 0; resume; task;
   check_eq B_D 2 0].
(** test_fn_EQ, lines 570-595 *)
Definition test_EQ : list step :=
  [set B_D 0 5; set B_D 1 5; place 0 0 0 I_EQ; typ 0 0 0 0 R_D; val 0 0 0 0 0; typ 0 0 0 1 R_D; val 0 0 0 1 1; enable 0 true;
   pow 0 0 0 true; task; check_pow 0 0 0 true; set B_D 1 6; resume; task; check_pow 0 0 0 false].
(** test_fn_FE, lines 597-622 *)
Definition test_FE : list step :=
  [set B_M 0 0; set B_Mh 0 1; place 0 0 0 I_FE; typ 0 0 0 0 R_M; val 0 0 0 0 0; enable 0 true; pow 0 0 0 true; task;
   check_pow 0 0 0 true; set B_Mh 0 0; resume; task; check_pow 0 0 0 false].
(** test_fn_FOREIGN, lines 624-640 *)
Definition test_FOREIGN : list step :=
  [foreign; place 0 0 0 I_FOREIGN; enable 0 true; task; check_pow 0 0 0 true].
(** test_fn_GE, lines 642-667 *)
Definition test_GE : list step :=
  [set B_D 0 5; set B_D 1 3; place 0 0 0 I_GE; typ 0 0 0 0 R_D; val 0 0 0 0 0; typ 0 0 0 1 R_D; val 0 0 0 1 1; enable 0 true;
   pow 0 0 0 true; task; check_pow 0 0 0 true; set B_D 0 2; resume; task; check_pow 0 0 0 false].
(** test_fn_GT, lines 669-694 *)
Definition test_GT : list step :=
  [set B_D 0 5; set B_D 1 3; place 0 0 0 I_GT; typ 0 0 0 0 R_D; val 0 0 0 0 0; typ 0 0 0 1 R_D; val 0 0 0 1 1; enable 0 true;
   pow 0 0 0 true; task; check_pow 0 0 0 true; set B_D 0 3; resume; task; check_pow 0 0 0 false].
(** test_fn_LE, lines 696-721 *)
Definition test_LE : list step :=
  [set B_D 0 3; set B_D 1 5; place 0 0 0 I_LE; typ 0 0 0 0 R_D; val 0 0 0 0 0; typ 0 0 0 1 R_D; val 0 0 0 1 1; enable 0 true;
   pow 0 0 0 true; task; check_pow 0 0 0 true; set B_D 0 6; resume; task; check_pow 0 0 0 false].
(** test_fn_LT, lines 723-748 *)
Definition test_LT : list step :=
  [set B_D 0 3; set B_D 1 5; place 0 0 0 I_LT; typ 0 0 0 0 R_D; val 0 0 0 0 0; typ 0 0 0 1 R_D; val 0 0 0 1 1; enable 0 true;
   pow 0 0 0 true; task; check_pow 0 0 0 true; set B_D 0 5; resume; task; check_pow 0 0 0 false].
(** test_fn_MOD, lines 750-773 *)
Definition test_MOD : list step :=
  [set B_D 0 10; set B_D 1 3; set B_D 2 0; place 0 0 0 I_MOD; typ 0 0 0 0 R_D; val 0 0 0 0 0; typ 0 0 0 1 R_D; val 0 0 0 1 1;
   typ 0 0 0 2 R_D; val 0 0 0 2 2; enable 0 true; pow 0 0 0 true; task; check_eq B_D 2 1].
(** test_fn_MOVE, lines 775-794 *)
Definition test_MOVE : list step :=
  [set B_D 0 42; set B_D 1 0; place 0 0 0 I_MOVE; typ 0 0 0 0 R_D; val 0 0 0 0 0; typ 0 0 0 1 R_D; val 0 0 0 1 1;
   enable 0 true; pow 0 0 0 true; task; check_eq B_D 1 42].
(** test_fn_MUL, lines 796-818 *)
Definition test_MUL : list step :=
  [set B_D 0 5; set B_D 1 6; set B_D 2 0; place 0 0 0 I_MUL; typ 0 0 0 0 R_D; val 0 0 0 0 0; typ 0 0 0 1 R_D; val 0 0 0 1 1;
   typ 0 0 0 2 R_D; val 0 0 0 2 2; enable 0 true; pow 0 0 0 true; task; check_eq B_D 2 30].
(** test_fn_NC, lines 820-842 *)
Definition test_NC : list step :=
  [set B_M 0 0; place 0 0 0 I_NC; typ 0 0 0 0 R_M; val 0 0 0 0 0; enable 0 true; pow 0 0 0 true; task; check_pow 0 0 0 true;
   set B_M 0 1; resume; task; check_pow 0 0 0 false].
(** test_fn_NE, lines 844-869 *)
Definition test_NE : list step :=
  [set B_D 0 5; set B_D 1 3; place 0 0 0 I_NE; typ 0 0 0 0 R_D; val 0 0 0 0 0; typ 0 0 0 1 R_D; val 0 0 0 1 1; enable 0 true;
   pow 0 0 0 true; task; check_pow 0 0 0 true; set B_D 1 5; resume; task; check_pow 0 0 0 false].
(** test_fn_NEG, lines 871-897 *)
Definition test_NEG : list step :=
  [set B_M 1 0; place 0 0 0 I_NO; typ 0 0 0 0 R_M; val 0 0 0 0 1; place 0 0 1 I_NEG; enable 0 true; set B_M 1 1; task;
   check_pow 0 0 1 false; set B_M 1 0; resume; task; check_pow 0 0 1 true].
(** test_fn_NO, lines 899-921 *)
Definition test_NO : list step :=
  [set B_M 0 1; place 0 0 0 I_NO; typ 0 0 0 0 R_M; val 0 0 0 0 0; enable 0 true; pow 0 0 0 true; task; check_pow 0 0 0 true;
   set B_M 0 0; resume; task; check_pow 0 0 0 false].
(** test_fn_NOP, lines 923-934 *)
Definition test_NOP : list step :=
  [place 0 0 0 I_NOP; enable 0 true; task; check_ok].
(** test_fn_NOT, lines 936-955 *)
Definition test_NOT : list step :=
  [set B_D 0 15; set B_D 1 0; place 0 0 0 I_NOT; typ 0 0 0 0 R_D; val 0 0 0 0 0; typ 0 0 0 1 R_D; val 0 0 0 1 1; enable 0 true;
   pow 0 0 0 true; task; check_eq B_D 1 (-16)].
(** test_fn_OR, lines 957-979 *)
Definition test_OR : list step :=
  [set B_D 0 15; set B_D 1 48; set B_D 2 0; place 0 0 0 I_OR; typ 0 0 0 0 R_D; val 0 0 0 0 0; typ 0 0 0 1 R_D; val 0 0 0 1 1;
   typ 0 0 0 2 R_D; val 0 0 0 2 2; enable 0 true; pow 0 0 0 true; task; check_eq B_D 2 63].
(** test_fn_RE, lines 981-1005 *)
Definition test_RE : list step :=
  [set B_M 0 1; set B_Mh 0 0; place 0 0 0 I_RE; typ 0 0 0 0 R_M; val 0 0 0 0 0; enable 0 true; pow 0 0 0 true; task;
   check_pow 0 0 0 true; set B_Mh 0 1; resume; task; check_pow 0 0 0 false].
(** test_fn_ROL, lines 1007-1026 *)
Definition test_ROL : list step :=
  [set B_D 0 (-2147483647); set B_D 1 1; place 0 0 0 I_ROL; typ 0 0 0 0 R_D; val 0 0 0 0 0; typ 0 0 0 1 R_D; val 0 0 0 1 1;
   enable 0 true; pow 0 0 0 true; task; check_eq B_D 0 3].
(** test_fn_ROR, lines 1030-1049 *)
Definition test_ROR : list step :=
  [set B_D 0 (-2147483647); set B_D 1 1; place 0 0 0 I_ROR; typ 0 0 0 0 R_D; val 0 0 0 0 0; typ 0 0 0 1 R_D; val 0 0 0 1 1;
   enable 0 true; pow 0 0 0 true; task; check_eq B_D 0 (-1073741824)].
(** test_fn_SHL, lines 1051-1070 *)
Definition test_SHL : list step :=
  [set B_D 0 15; set B_D 1 2; place 0 0 0 I_SHL; typ 0 0 0 0 R_D; val 0 0 0 0 0; typ 0 0 0 1 R_D; val 0 0 0 1 1; enable 0 true;
   pow 0 0 0 true; task; check_eq B_D 0 60].
(** test_fn_SHR, lines 1072-1091 *)
Definition test_SHR : list step :=
  [set B_D 0 15; set B_D 1 2; place 0 0 0 I_SHR; typ 0 0 0 0 R_D; val 0 0 0 0 0; typ 0 0 0 1 R_D; val 0 0 0 1 1; enable 0 true;
   pow 0 0 0 true; task; check_eq B_D 0 3].
(** test_fn_SUB, lines 1093-1115 *)
Definition test_SUB : list step :=
  [set B_D 0 10; set B_D 1 3; place 0 0 0 I_SUB; typ 0 0 0 0 R_D; val 0 0 0 0 0; typ 0 0 0 1 R_D; val 0 0 0 1 1;
   typ 0 0 0 2 R_D; val 0 0 0 2 2; enable 0 true; pow 0 0 0 true; task; check_eq B_D 2 7; check_pow 0 0 0 true].
(** test_fn_TMOVE, lines 1117-1180 *)
Definition test_TMOVE : list step :=
  [enable 1 false; table 1; table_qty 1 1; typ 1 0 0 0 R_D; val 1 0 0 0 42; enable 2 false; table 2; table_qty 2 1;
   typ 2 0 0 0 R_D; val 2 0 0 0 0; place 0 0 0 I_TMOVE; typ 0 0 0 0 R_NONE; val 0 0 0 0 2; typ 0 0 0 1 R_NONE; val 0 0 0 1 0;
   typ 0 0 0 2 R_NONE; val 0 0 0 2 1; typ 0 0 0 3 R_NONE; val 0 0 0 3 0; typ 0 0 0 4 R_NONE; val 0 0 0 4 1; enable 0 true;
   pow 0 0 0 true; resume; task; check_val 2 0 0 0 42].
(** test_fn_TOF, lines 1182-1208 *)
Definition test_TOF : list step :=
  [clear_acc 0; set B_Tr 0 0; set B_Td 0 0; place 0 0 1 I_TOF; typ 0 0 1 0 R_T; val 0 0 1 0 0; typ 0 0 1 1 R_NONE;
   val 0 0 1 1 10; enable 0 true; pow 0 0 1 true; task; check_eq B_Td 0 0; pow 0 0 1 false; task; check_eq B_Tr 0 1].
(** test_fn_TON, lines 1210-1231 *)
Definition test_TON : list step :=
  [clear_acc 0; set B_Tr 0 0; set B_Td 0 0; place 0 0 1 I_TON; typ 0 0 1 0 R_T; val 0 0 1 0 0; typ 0 0 1 1 R_NONE;
   val 0 0 1 1 10; enable 0 true; pow 0 0 1 true; task; check_eq B_Td 0 0].
(** test_fn_TP, lines 1233-1262 *)
Definition test_TP : list step :=
  [clear_acc 0; set B_Tr 0 0; set B_Td 0 0; set B_M 2 0; place 0 0 0 I_NO; typ 0 0 0 0 R_M; val 0 0 0 0 2; place 0 0 1 I_TP;
   typ 0 0 1 0 R_T; val 0 0 1 0 0; typ 0 0 1 1 R_NONE; val 0 0 1 1 10; enable 0 true; set B_M 2 1; task; check_eq B_Tr 0 1].
(** test_fn_XOR, lines 1264-1286 *)
Definition test_XOR : list step :=
  [set B_D 0 15; set B_D 1 51; set B_D 2 0; place 0 0 0 I_XOR; typ 0 0 0 0 R_D; val 0 0 0 0 0; typ 0 0 0 1 R_D; val 0 0 0 1 1;
   typ 0 0 0 2 R_D; val 0 0 0 2 2; enable 0 true; pow 0 0 0 true; task; check_eq B_D 2 60].
(** test_ladder_instructions, lines 1290-1340 *)
Definition suite : list (list step) :=
  [test_ADD; test_AND; test_COIL; test_COILL; test_COILU; test_CONN; test_CTD; test_CTU; test_DIV; test_EQ; test_FE; test_FOREIGN; test_GE; test_GT; test_LE; test_LT; test_MOD; test_MOVE; test_MUL; test_NC; test_NE; test_NEG; test_NO; test_NOP; test_NOT; test_OR; test_RE; test_ROL; test_ROR; test_SHL; test_SHR; test_SUB; test_TOF; test_TON; test_TP; test_XOR; test_TMOVE].

(** ** Results *)

(** All checks of all tests succeed on the model, with a clock that shows one more millisecond whenever it is read and with one that
    stands still. *)
Definition passes (clock : nat -> Z) : bool :=
  forallb (fun l => match results (test_env clock) l with Some q => (2 <=? length q)%nat && forallb id q | None => false end) suite.
Example suite_passes : passes (fun k => Z.of_nat k) = true /\ passes (fun _ => 5) = true /\ length suite = 37%nat.
Proof. vm_compute. auto. Qed.
