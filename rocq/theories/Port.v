(** The example port: port/dummy/port_dummy.c, and the example foreign function: foreign_functions/fn_dummy/fn_dummy.c. *)
From Coq Require Import String.
From Verif Require Export Task Json.
Open Scope list_scope.
Open Scope Z_scope.

(** ** Time *)

(** port_dummy.c:114-131: seconds and nanoseconds of the sleep; [None] for a negative delay. nanosleep is repeated with the
    remaining time when interrupted; how often is not modelled. *)
Definition dummy_delay (ms : Z) : option (Z * Z) :=
  if ms <? 0 then None else Some (Z.quot ms 1000, Z.rem ms 1000 * 1000000).
(** port_dummy.c:133-137: from the time of day; long has 64 bits. *)
Definition dummy_millis (sec usec : Z) : res Z :=
  let v := sec * 1000000 + usec in
  if (- 2 ^ 63 <=? v) && (v <? 2 ^ 63) then Ok (u64 (Z.quot v 1000)) else Bad UB_overflow.

(** ** Reading and writing *)

(** port_dummy.c:150-155: the characters waiting at the terminal are all read and the last one counts. Setting the terminal is
    not modelled. *)
Definition dummy_key (typed : list Z) : Z := last typed 0.
(** Elements [n], [n+1], ... of an array are read, [k] of them. *)
Fixpoint touch {A} (p : option (list A)) (n k : nat) : res unit :=
  match k with O => Ok tt | S j => let? x := pget p (Z.of_nat n) in touch p (S n) j end.
(** port_dummy.c:139-174. The text printed is not modelled, only what is read for it. *)
Definition dummy_read (typed : list Z) (m : nat) (c : ctx) : res ctx :=
  let ch := dummy_key typed in
  let c1 := if (ch =? 81) || (ch =? 113) then set_x_state S_EXIT_TSK c else c in
  let? c2 := (if (47 <? ch) && (ch <? 56) then
                let? im := pget (x_in c1) (Z.of_nat m) in
                let? v := pget (i_I im) (ch - 48) in
                in_put K_I (Z.of_nat m) (ch - 48) (if 0 <? v then 0 else 1) c1
              else Ok c1) in
  let? im := pget (x_in c2) (Z.of_nat m) in
  let? x := touch (i_I im) 0 8 in
  Ok c2.
(** port_dummy.c:227-239: the states of all cells are read. *)
Fixpoint touch_cols (nt : network) (r col k : nat) : res unit :=
  match k with O => Ok tt | S j => let? x := cell_in nt r col in touch_cols nt r (S col) j end.
Fixpoint touch_rows (nt : network) (r k : nat) : res unit :=
  match k with O => Ok tt | S j => let? x := touch_cols nt r 0 (n_cols nt) in touch_rows nt (S r) j end.
Fixpoint touch_nets (c : ctx) (n k : nat) : res unit :=
  match k with O => Ok tt | S j => let? nt := net_at n c in let? x := touch_rows nt 0 (n_rows nt) in touch_nets c (S n) j end.
(** port_dummy.c:176-254; [cron] tells whether the add-on was compiled in. Only what is read is modelled, in the order of the
    source; the order inside one printf does not matter. The delay function is called at the end. *)
Definition dummy_write (cron : bool) (m : nat) (c : ctx) : res ctx :=
  let? x := touch (m_M (x_mem c)) 0 8 in
  let? x := (if cron then touch (m_M (x_mem c)) 10 8 else Ok tt) in
  let? om := pget (x_out c) (Z.of_nat m) in
  let? x := touch (o_Q om) 0 8 in
  let? x := touch (m_Td (x_mem c)) 0 7 in
  let? x := touch (m_Tr (x_mem c)) 0 7 in
  let? x := touch (x_tm c) 0 7 in
  let? x := touch (m_Cd (x_mem c)) 0 7 in
  let? x := touch (m_Cr (x_mem c)) 0 7 in
  let? x := touch (r_C (x_regs c)) 0 7 in
  let? x := touch_nets c 0 (q_nets (x_q c)) in
  if h_delay (x_h c) then Ok c else Bad UB_null.

(** ** The report of a panic *)

(** port_dummy.c:52-59 *)
Definition status_str : list string := ["STOPPED"; "RUNNING"; "ERROR"; "EXIT_TSK"; "NULLFN"; "INVALID"]%string.
(** port_dummy.c:61-99 *)
Definition fn_str : list string :=
  ["NOP"; "CONN"; "NEG"; "NO"; "NC"; "RE"; "FE"; "COIL"; "COILL"; "COILU"; "TON"; "TOF"; "TP"; "CTU"; "CTD"; "MOVE"; "SUB"; "ADD"; "MUL"; "DIV";
   "MOD"; "SHL"; "SHR"; "ROL"; "ROR"; "AND"; "OR"; "XOR"; "NOT"; "EQ"; "GT"; "GE"; "LT"; "LE"; "NE"; "FOREIGN"; "TMOVE"]%string.
(** port_dummy.c:101-112 *)
Definition fn_err_str : list string :=
  ["OK"; "GETPREVVAL"; "GETDATAVAL"; "SETDATAVAL"; "NOFOREIGN"; "NOTABLE"; "OUTOFRANGE"; "DIVBYZERO"; "FAIL"]%string.
(** ladder.h:125-132 and 139-153: the numbers of the constants. *)
Definition status_code (s : lstate) : Z :=
  match s with S_STOPPED => 0 | S_RUNNING => 1 | S_ERROR => 2 | S_EXIT_TSK => 3 | S_NULLFN => 4 | S_INV => 5 end.
Definition err_code (e : err) : Z :=
  match e with
  | E_OK => 0 | E_GETPREVVAL => 1 | E_GETDATAVAL => 2 | E_SETDATAVAL => 3 | E_NOFOREIGN => 4 | E_NOTABLE => 5 | E_OUTOFRANGE => 6
  | E_DIVBYZERO => 7 | E_TYPEMISMATCH => 8 | E_OVERFLOW => 9 | E_NULL => 10 | E_FAIL => 11
  end.
(** port_dummy.c:272-280: the names printed, of the state, of the last instruction and of the last error. *)
Definition dummy_on_panic (c : ctx) : res (string * string * string) :=
  let? a := lget status_str (status_code (x_state c)) in
  let? b := lget fn_str (l_instr (x_last c)) in
  let? d := lget fn_err_str (err_code (l_err (x_last c))) in
  Ok (a, b, d).

(** ** Initialisation of modules *)

Definition zeros8 : arr := Some (repeat 0 8).
(** port_dummy.c:285-355; [al k] is the outcome of the k-th calloc. Arrays allocated before one that fails are released again.
    The word history is not touched. *)
Definition dummy_init_read (al : nat -> bool) (m : nat) (init : bool) (c : ctx) : res (bool * ctx) :=
  let? im := pget (x_in c) (Z.of_nat m) in
  let none := mk_inmod (i_id im) 0 0 None None None (i_IWh im) in
  let good := al 0%nat && al 1%nat && al 2%nat in
  let im' := if init && good then mk_inmod (i_id im) 8 8 zeros8 zeros8 zeros8 (i_IWh im) else none in
  let? l := pset (x_in c) (Z.of_nat m) im' in
  Ok (if init then good else true, set_x_in l c).
(** port_dummy.c:357-419 *)
Definition dummy_init_write (al : nat -> bool) (m : nat) (init : bool) (c : ctx) : res (bool * ctx) :=
  let? om := pget (x_out c) (Z.of_nat m) in
  let none := mk_outmod (o_id om) 0 0 None None None (o_QWh om) in
  let good := al 0%nat && al 1%nat && al 2%nat in
  let om' := if init && good then mk_outmod (o_id om) 8 8 zeros8 zeros8 zeros8 (o_QWh om) else none in
  let? l := pset (x_out c) (Z.of_nat m) om' in
  Ok (if init then good else true, set_x_out l c).

(** ** The foreign function *)

(** fn_dummy.c:43-58: the descriptor; the outcome of calloc for the unused data is not looked at. *)
Definition dummy_init (d : fdesc) : bool * fdesc := (true, mk_fdesc (f_id d) (mk_iocd 3 3 3 3) true).
(** fn_dummy.c:60-64 *)
Definition dummy_exec (col row : nat) (c : ctx) : res (err * ctx) :=
  let? b := cleft col row c in
  let? c' := put_state col row b c in
  Ok (E_OK, c').

(** ** As an environment *)

(** A call of the port; what is undefined in C is undefined here. The other hooks (port_dummy.c:256-270, 282-283) do nothing. *)
Definition port_call (cron : bool) (typed : nat -> list Z) (al : nat -> nat -> bool) (k : nat) (ev : event) (c : ctx) : res ctx :=
  match ev with
  | EvRead m => dummy_read (typed k) m c
  | EvWrite m _ _ => dummy_write cron m c
  | EvPanic => let? r := dummy_on_panic c in Ok c
  | EvInitRead m b => let? r := dummy_init_read (al k) m b c in Ok (snd r)
  | EvInitWrite m b => let? r := dummy_init_write (al k) m b c in Ok (snd r)
  | _ => Ok c
  end.
(** The time of day at the k-th call. *)
Definition port_clock (tv : nat -> Z * Z) (k : nat) : Z := match dummy_millis (fst (tv k)) (snd (tv k)) with Ok t => t | _ => 0 end.
(** The port as an environment; undefined calls are given no effect, see [follows] in SpecPort.v. *)
Definition port_env (cron : bool) (typed : nat -> list Z) (al : nat -> nat -> bool) (tv : nat -> Z * Z) (now : nat -> tm) : env :=
  mk_env (port_clock tv)
    (fun k ev c => match port_call cron typed al k ev c with Ok c' => c' | _ => c end)
    (fun _ _ col row c => match dummy_exec col row c with Ok r => r | _ => (E_OK, c) end)
    now (fun k => al k 0%nat && al k 1%nat && al k 2%nat) (fun _ => dummy_init).
