(** Context management: source/ladder_general.c. The context argument is assumed non-NULL (fn_cell would
    dereference it, the other functions return false). *)
From Verif Require Export Scan.

(** Loop over the first [n] elements of an array reached through a pointer. *)
Definition pmap_first {A} (n : nat) (f : A -> res A) (p : option (list A)) : res (option (list A)) :=
  match n with
  | O => Ok p
  | _ => match p with None => Bad UB_null | Some l => let? l' := map_first n f l in Ok (Some l') end
  end.

(** ** ladder_scan_time, ladder_general.c:44-92 *)

(** ladder_general.c:58-83: the new statistics, given the current millis() value. scan_count is uint32_t and
    wraps to 0, after which the average divides by zero. *)
Definition scan_stats (t : Z) (si : scanint) : res scanint :=
  let diff := if si_start si <=? t then t - si_start si else u64 ((2 ^ 64 - 1 - si_start si) + t + 1) in
  let mn := if si_count si =? 0 then diff else if diff <? si_min si then diff else si_min si in
  let mx := if si_max si <? diff then diff else si_max si in
  let total := u64 (si_total si + diff) in
  let count := u32 (si_count si + 1) in
  if count =? 0 then Bad UB_div else
  Ok (mk_scanint diff t (si_maxcyc si) (si_target si) mn mx total (total / count) count
        ((0 <? si_target si) && (si_target si <? diff))).
Definition scan_time (E : env) : M unit :=
  c <- getc ;;
  if h_millis (x_h c) then
    t <- millis E ;;
    c2 <- getc ;;
    si <- lift (scan_stats t (x_si c2)) ;;
    modc (set_x_si si) ;;;
    if (0 <? q_wdg (x_q c2)) && (q_wdg (x_q c2) <? si_actual si)
    then set_state S_ERROR ;;; panic E else ret tt
  else set_state S_ERROR ;;; panic E.

(** ** Copies between current and previous values *)

(** if (n > 0 && src != NULL && dst != NULL) memcpy(dst, src, n) *)
Definition copy_if (dst src : arr) (n : nat) : res arr :=
  if is_null src || is_null dst then Ok dst else pmemcpy dst src n.

(** ladder_general.c:223-228 *)
Definition out_save (m : outmod) : res outmod :=
  let? h := copy_if (o_Qh m) (o_Q m) (o_qq m) in
  let? hw := copy_if (o_QWh m) (o_QW m) (o_qwq m) in
  Ok (set_o_QWh hw (set_o_Qh h m)).

(** ladder_general.c:200-231 *)
Definition save_previous (c : ctx) : res ctx :=
  let m := x_mem c in let p := x_prev c in let q := x_q c in
  let? a := copy_if (p_M p) (m_M m) (q_m q) in
  let? d := copy_if (p_Cd p) (m_Cd m) (q_c q) in
  let? r := copy_if (p_Cr p) (m_Cr m) (q_c q) in
  let? td := copy_if (p_Td p) (m_Td m) (q_t q) in
  let? tr := copy_if (p_Tr p) (m_Tr m) (q_t q) in
  let? o := (if is_null (x_out c) then Ok (x_out c) else pmap_first (io_wq (x_io c)) out_save (x_out c)) in
  Ok (set_x_out o (set_x_prev (mk_prev a r d tr td) c)).

(** ** ladder_clear_memory, ladder_general.c:233-252 *)
Definition clear_memory (c : ctx) : res ctx :=
  let m := x_mem c in let p := x_prev c in let q := x_q c in
  let? a := pmemset0 (p_M p) (q_m q) in
  let? b := pmemset0 (m_M m) (q_m q) in
  let? cdh := pmemset0 (p_Cd p) (q_c q) in
  let? cd := pmemset0 (m_Cd m) (q_c q) in
  let? crh := pmemset0 (p_Cr p) (q_c q) in
  let? cr := pmemset0 (m_Cr m) (q_c q) in
  let? tdh := pmemset0 (p_Td p) (q_t q) in
  let? td := pmemset0 (m_Td m) (q_t q) in
  let? trh := pmemset0 (p_Tr p) (q_t q) in
  let? tr := pmemset0 (m_Tr m) (q_t q) in
  Ok (set_x_prev (mk_prev a crh cdh trh tdh) (set_x_mem (mk_mem b cr cd tr td) c)).

(** ** ladder_clear_program, ladder_general.c:254-276 *)

(** Reading data[d].type for d < data_qty needs the elements to exist; strings are freed with the data. *)
Definition clear_cell (x : cell) : res cell :=
  match c_data x with
  | None => Ok (mk_cell false false I_NOP (c_dq x) None)
  | Some d => if (c_dq x <=? length d)%nat then Ok (mk_cell false false I_NOP 0 None) else Bad UB_oob
  end.
(** Cells of the first rows x cols rectangle. *)
Definition map_cells (f : cell -> res cell) (nt : network) : res network :=
  if (n_rows nt =? 0)%nat || (n_cols nt =? 0)%nat then Ok nt else
  let? rows := pmap_first (n_rows nt) (map_first (n_cols nt) f) (n_cells nt) in
  Ok (set_n_cells rows nt).
Definition clear_program (c : ctx) : res ctx :=
  let? l := pmap_first (q_nets (x_q c)) (map_cells clear_cell) (x_net c) in
  Ok (set_x_net l c).

(** ** ladder_fault_clear, ladder_general.c:94-198 *)

(** for (i < qty) array[i] = false, without a null check of its own *)
Definition zero_flags (p : arr) (n : nat) : res arr := pmemset0 p n.
(** ladder_general.c:181-193 *)
Definition zero_if (p : arr) (n : nat) : res arr := if is_null p then Ok p else pmemset0 p n.
Definition out_fault_reset (m : outmod) : res outmod :=
  let? q := zero_if (o_Q m) (o_qq m) in
  let? w := zero_if (o_QW m) (o_qwq m) in
  let? qh := copy_if (o_Qh m) q (o_qq m) in
  let? wh := copy_if (o_QWh m) w (o_qwq m) in
  Ok (mk_outmod (o_id m) (o_qq m) (o_qwq m) q w qh wh).
(** Failure exits: state ERROR, panic, return false. *)
Definition clear_fail (E : env) : M bool := set_state S_ERROR ;;; panic E ;;; ret false.
(** One "if qty > 0: if pointer memset else fail" step; the result tells whether to go on. *)
Definition zero_bank (E : env) (b : bank) (n : ctx -> nat) : M bool :=
  c <- getc ;;
  if (n c =? 0)%nat then ret true
  else if is_null (arr_of b c) then clear_fail E
  else updc (fun c => let? a := pmemset0 (arr_of b c) (n c) in Ok (set_arr b a c)) ;;; ret true.
Definition fault_clear (E : env) : M bool :=
  c <- getc ;;
  if negb (lstate_eqb (x_state c) S_ERROR) then ret false else
  set_state S_RUNNING ;;;
  modc (fun c => set_x_si (set_si_actual 0 (x_si c)) c) ;;;
  c1 <- getc ;;
  (if h_millis (x_h c1) then t <- millis E ;; modc (fun c => set_x_si (set_si_start t (x_si c)) c)
   else modc (fun c => set_x_si (set_si_start 0 (x_si c)) c) ;;; panic E) ;;;
  c2 <- getc ;;
  go <- (if (q_t (x_q c2) =? 0)%nat then ret true
         else if is_null (x_tm c2) then clear_fail E
         else updc (fun c =>
                let? tm := pmap_first (q_t (x_q c)) (fun t => Ok (set_t_acc 0 t)) (x_tm c) in
                let? td := zero_flags (m_Td (x_mem c)) (q_t (x_q c)) in
                let? tr := zero_flags (m_Tr (x_mem c)) (q_t (x_q c)) in
                Ok (set_x_tm tm (set_x_mem (set_m_Td td (set_m_Tr tr (x_mem c))) c))) ;;; ret true) ;;
  if negb go then ret false else
  go <- zero_bank E B_C (fun c => q_c (x_q c)) ;; if negb go then ret false else
  go <- zero_bank E B_Cd (fun c => q_c (x_q c)) ;; if negb go then ret false else
  go <- zero_bank E B_Cr (fun c => q_c (x_q c)) ;; if negb go then ret false else
  go <- zero_bank E B_D (fun c => q_d (x_q c)) ;; if negb go then ret false else
  go <- zero_bank E B_R (fun c => q_r (x_q c)) ;; if negb go then ret false else
  updc (fun c => if is_null (x_out c) then Ok c else
                 let? o := pmap_first (io_wq (x_io c)) out_fault_reset (x_out c) in Ok (set_x_out o c)) ;;;
  ret true.

(** ** ladder_ctx_init, ladder_general.c:278-464 *)

Definition cell0 : cell := mk_cell false false I_NOP 0 None.
Definition net0 (rows cols : nat) : network := mk_network false rows cols (Some (repeat (repeat cell0 cols) rows)).
(** Number of calloc calls: networks, rows and columns, 14 register arrays and the cron structure. *)
Definition init_allocs (rows nets : nat) (init : bool) : nat :=
  ((if init then 1 + nets * (1 + rows) else 0) + 15)%nat.
(** Arguments of the call. *)
Record init_args : Type := mk_init_args {
  a_cols : nat; a_rows : nat; a_nets : nat; a_m : nat; a_c : nat; a_t : nat; a_d : nat; a_r : nat;
  a_delay : Z; a_wdg : Z; a_init : bool; a_wof : bool; a_maxcyc : Z; a_target : Z }.
Definition args_ok (a : init_args) : bool :=
  ((a_rows a <=? 32) && (1 <=? a_cols a) && (1 <=? a_rows a) && (1 <=? a_nets a) && (1 <=? a_m a)
   && (1 <=? a_c a) && (1 <=? a_t a) && (1 <=? a_d a) && (1 <=? a_r a))%nat.
Definition zeros (n : nat) : arr := Some (repeat 0 n).
Definition hooks0 : hooks := mk_hooks false false false false false false false false.
Definition io0 : hwio := mk_hwio 0 0 None None None None.
Definition last0 : lastinfo := mk_lastinfo 0 0 0 0 E_OK.
(** [alloc k] is the outcome of the k-th calloc. On a failed allocation the label cleanup runs
    ladder_ctx_deinit with all quantities still 0: the register arrays are released and their pointers
    cleared, the network array is released but its pointer is kept (a pointer to released memory is
    represented by an empty array), its rows are leaked. The SIZE_MAX tests never fail for 64-bit size_t.
    target_scan_ms is stored in an int32_t. *)
Definition ctx_init (alloc : nat -> bool) (a : init_args) (c : ctx) : bool * ctx :=
  if args_ok a then
    let n := init_allocs (a_rows a) (a_nets a) (a_init a) in
    if forallb alloc (seq 0 n) then
      (true,
       mk_ctx S_STOPPED (a_wof a) last0
         (mk_qty (a_m a) (a_c a) (a_t a) (a_d a) (a_r a) (a_nets a)
            (if a_delay a =? 0 then 1 else a_delay a) (a_wdg a))
         io0 hooks0
         (mk_mem (zeros (a_m a)) (zeros (a_c a)) (zeros (a_c a)) (zeros (a_t a)) (zeros (a_t a)))
         (mk_prev (zeros (a_m a)) (zeros (a_c a)) (zeros (a_c a)) (zeros (a_t a)) (zeros (a_t a)))
         None None
         (mk_regs (zeros (a_c a)) (zeros (a_d a)) (zeros (a_r a)))
         (Some (repeat (mk_timer 0 0) (a_t a)))
         (mk_scanint 0 0 (a_maxcyc a) (i32 (a_target a)) (2 ^ 64 - 1) 0 0 0 0 false)
         (if a_init a then Some (repeat (net0 (a_rows a) (a_cols a)) (a_nets a)) else None)
         None (mk_foreign 0 None) (Some (mk_cron None 0 0)))
    else
      (false,
       mk_ctx S_ERROR (a_wof a) last0 (mk_qty 0 0 0 0 0 0 0 0) io0 hooks0
         (mk_mem None None None None None) (mk_prev None None None None None) None None
         (mk_regs None None None) None
         (mk_scanint 0 0 (a_maxcyc a) (i32 (a_target a)) 0 0 0 0 0 false)
         (if a_init a && alloc 0%nat then Some [] else None)
         None (mk_foreign 0 None) None)
  else (false, c).

(** ** ladder_ctx_deinit, ladder_general.c:466-575 *)

(** ladder_general.c:528-532: deinit of the registered foreign functions. *)
Fixpoint deinit_foreign (E : env) (fuel n : nat) : M unit :=
  c <- getc ;;
  if (n <? fo_qty (x_for c))%nat then
    match fuel with
    | O => nofuel
    | S f =>
        d <- lift (pget (fo_fn (x_for c)) (Z.of_nat n)) ;;
        (if f_deinit d then emit E (EvForeignDeinit (f_id d)) else ret tt) ;;;
        deinit_foreign E f (S n)
    end
  else ret tt.
(** ladder_general.c:536-545: init functions called with false. *)
Fixpoint deinit_io (E : env) (rd : bool) (fuel n : nat) : M unit :=
  c <- getc ;;
  if (n <? (if rd then io_rq (x_io c) else io_wq (x_io c)))%nat then
    match fuel with
    | O => nofuel
    | S f =>
        b <- lift (pget (if rd then io_ird (x_io c) else io_iwr (x_io c)) (Z.of_nat n)) ;;
        (if b : bool then emit E (if rd then EvInitRead n false else EvInitWrite n false) else ret tt) ;;;
        deinit_io E rd f (S n)
    end
  else ret tt.
(** ladder_general.c:470-494: every access below the quantities must be inside the allocated arrays; afterwards the
    pointer is dangling. *)
Definition free_net (nt : network) : res network :=
  let? rows := pmap_first (n_rows nt) (map_first (n_cols nt) clear_cell) (n_cells nt) in
  Ok (set_n_cells rows nt).
Definition free_networks (c : ctx) : res ctx :=
  match x_net c with
  | None => Ok c
  | Some l => let? l' := map_first (q_nets (x_q c)) free_net l in Ok (set_x_net (Some []) c)
  end.
Definition ctx_deinit (E : env) : M unit :=
  updc clear_memory ;;;
  updc clear_program ;;;
  updc free_networks ;;;
  modc (fun c => set_x_tm None (set_x_regs (mk_regs None None None)
                 (set_x_prev (mk_prev None None None None None) (set_x_mem (mk_mem None None None None None) c)))) ;;;
  c <- getc ;;
  deinit_foreign E (fo_qty (x_for c)) 0 ;;;
  modc (fun c => set_x_for (set_fo_fn None (x_for c)) c) ;;;
  c1 <- getc ;;
  deinit_io E true (io_rq (x_io c1)) 0 ;;;
  c2 <- getc ;;
  deinit_io E false (io_wq (x_io c2)) 0 ;;;
  modc (fun c => set_x_out None (set_x_in None (set_x_cron None
           (set_x_io (mk_hwio (io_rq (x_io c)) (io_wq (x_io c)) None None None None) c)))) ;;;
  modc (fun c => let si := x_si c in
           set_x_si (mk_scanint (si_actual si) (si_start si) (si_maxcyc si) (si_target si) 0 0 0 0 0 false) c).

(** ** ladder_add_read_fn and ladder_add_write_fn, ladder_general.c:577-703 *)

(** The array after realloc to [n] elements and assignment of the last one; after realloc back to [n]. *)
Definition items {A} (p : option (list A)) : list A := match p with None => [] | Some l => l end.
Definition grow {A} (n : nat) (p : option (list A)) (v : A) : option (list A) := Some (firstn n (items p) ++ [v]).
(** realloc(p, 0) releases the array and yields NULL. *)
Definition shrink {A} (n : nat) (p : option (list A)) : option (list A) :=
  match n with O => None | _ => Some (firstn n (items p)) end.
Definition inmod0 : inmod := mk_inmod 0 0 0 None None None None.
Definition outmod0 : outmod := mk_outmod 0 0 0 None None None None.
(** Calls of an init function: the boolean result is given by the environment. *)
Definition call_init (E : env) (ev : event) : M bool :=
  fun s => let b := ext_ok E (length (s_tr s)) in (emit E ev ;;; ret b) s.
(** [fn] tells whether the read function is non-NULL, [ini] whether an init function was given; [alloc k] is
    the outcome of the k-th realloc. Shrinking reallocs succeed. *)
Definition add_read_fn (E : env) (alloc : nat -> bool) (fn ini : bool) : M bool :=
  if negb fn then ret false else
  c <- getc ;;
  let io := x_io c in
  let n := io_rq io in
  if (255 <=? n)%nat then set_err E_OUTOFRANGE ;;; ret false else
  if negb (alloc 0%nat) then set_err E_FAIL ;;; ret false else
  if negb (alloc 1%nat) then
    modc (fun c => set_x_io (set_io_rd (shrink n (io_rd (x_io c))) (x_io c)) c) ;;; set_err E_FAIL ;;; ret false else
  if negb (alloc 2%nat) then
    modc (fun c => set_x_io (set_io_rd (shrink n (io_rd (x_io c)))
                            (set_io_ird (shrink n (io_ird (x_io c))) (x_io c))) c) ;;; set_err E_FAIL ;;; ret false else
  modc (fun c => set_x_in (grow n (x_in c) inmod0)
                 (set_x_io (set_io_rd (grow n (io_rd (x_io c)) true)
                           (set_io_ird (grow n (io_ird (x_io c)) ini) (x_io c))) c)) ;;;
  good <- (if ini then call_init E (EvInitRead n true) else ret true) ;;
  if good : bool then
    modc (fun c => set_x_io (set_io_rq (S n) (x_io c)) c) ;;; ret true
  else
    emit E (EvInitRead n false) ;;;
    modc (fun c => set_x_in (shrink n (x_in c))
                   (set_x_io (set_io_rd (shrink n (io_rd (x_io c)))
                             (set_io_ird (shrink n (io_ird (x_io c))) (x_io c))) c)) ;;;
    set_err E_FAIL ;;; ret false.
Definition add_write_fn (E : env) (alloc : nat -> bool) (fn ini : bool) : M bool :=
  if negb fn then ret false else
  c <- getc ;;
  let io := x_io c in
  let n := io_wq io in
  if (255 <=? n)%nat then set_err E_OUTOFRANGE ;;; ret false else
  if negb (alloc 0%nat) then set_err E_FAIL ;;; ret false else
  if negb (alloc 1%nat) then
    modc (fun c => set_x_io (set_io_wr (shrink n (io_wr (x_io c))) (x_io c)) c) ;;; set_err E_FAIL ;;; ret false else
  if negb (alloc 2%nat) then
    modc (fun c => set_x_io (set_io_wr (shrink n (io_wr (x_io c)))
                            (set_io_iwr (shrink n (io_iwr (x_io c))) (x_io c))) c) ;;; set_err E_FAIL ;;; ret false else
  modc (fun c => set_x_out (grow n (x_out c) outmod0)
                 (set_x_io (set_io_wr (grow n (io_wr (x_io c)) true)
                           (set_io_iwr (grow n (io_iwr (x_io c)) ini) (x_io c))) c)) ;;;
  good <- (if ini then call_init E (EvInitWrite n true) else ret true) ;;
  if good : bool then
    modc (fun c => set_x_io (set_io_wq (S n) (x_io c)) c) ;;; ret true
  else
    emit E (EvInitWrite n false) ;;;
    modc (fun c => set_x_out (shrink n (x_out c))
                   (set_x_io (set_io_wr (shrink n (io_wr (x_io c)))
                             (set_io_iwr (shrink n (io_iwr (x_io c))) (x_io c))) c)) ;;;
    set_err E_FAIL ;;; ret false.

(** ** ladder_add_foreign, ladder_general.c:705-742 *)

(** [fn] tells whether the init function is non-NULL, [alloc] the outcome of malloc or realloc; the addition
    foreign.qty + qty is done in uint32_t. The init function fills in the descriptor. *)
Definition add_foreign (E : env) (alloc fn : bool) (n : Z) : M bool :=
  if negb fn then ret false else
  c <- getc ;;
  if (n =? 0) || (100 <? u32 (Z.of_nat (fo_qty (x_for c)) + n)) then set_err E_OUTOFRANGE ;;; ret false else
  let d0 := mk_fdesc (Z.of_nat (fo_qty (x_for c))) (mk_iocd 0 0 0 0) false in
  r <- (fun s => let r := finit E (length (s_tr s)) d0 in (emit E (EvForeignInit n) ;;; ret r) s) ;;
  let (good, d) := r : bool * fdesc in
  if good && alloc then
    modc (fun c => set_x_for (mk_foreign (S (fo_qty (x_for c)))
                                (grow (fo_qty (x_for c)) (fo_fn (x_for c)) d)) c) ;;; ret true
  else
    (if f_deinit d then emit E (EvForeignDeinit (f_id d)) else ret tt) ;;; ret false.

(** ** ladder_fn_cell, ladder_general.c:744-842 *)

(** fn_commons.c:39-78: inputs, outputs, cells and operands of each instruction. *)
Definition fn_iocd (i : ins) : res iocd :=
  match i with
  | I_NOP | I_CONN | I_INV => Ok (mk_iocd 1 1 1 0)
  | I_NEG | I_NO | I_NC | I_RE | I_FE | I_COIL | I_COILL | I_COILU => Ok (mk_iocd 1 1 1 1)
  | I_TON | I_TOF | I_TP => Ok (mk_iocd 1 2 2 2)
  | I_CTU | I_CTD => Ok (mk_iocd 2 2 2 2)
  | I_SUB => Ok (mk_iocd 1 3 3 3)
  | I_DIV => Ok (mk_iocd 1 2 3 3)
  | I_ADD | I_MUL | I_MOD | I_AND | I_OR | I_XOR => Ok (mk_iocd 1 1 3 3)
  | I_MOVE | I_SHL | I_SHR | I_ROL | I_ROR | I_NOT | I_EQ | I_GT | I_GE | I_LT | I_LE | I_NE => Ok (mk_iocd 1 1 2 2)
  | I_FOREIGN => Ok (mk_iocd 0 0 0 0)
  | I_TMOVE => Ok (mk_iocd 1 1 1 5)
  | I_MULTI | I_OTHER _ => Bad UB_oob
  end.
Definition set_last_err (e : err) (c : ctx) : ctx := set_x_last (set_l_err e (x_last c)) c.
Definition value0 : value := mk_value R_NONE 0 None.

(** ladder_general.c:784-789: whether all cells of the span are NOP. *)
Fixpoint span_free (nt : network) (rows : list nat) (col : nat) : res bool :=
  match rows with
  | [] => Ok true
  | r :: t => let? x := cell_in nt r col in if is_nop (c_code x) then span_free nt t col else Ok false
  end.
(** Apply [f] to the cells (r, col) for r in [rows]. *)
Fixpoint upd_cells (n : nat) (rows : list nat) (col : nat) (f : cell -> res cell) (c : ctx) : res ctx :=
  match rows with
  | [] => Ok c
  | r :: t =>
      let? nt := net_at n c in
      let? x := cell_in nt r col in
      let? y := f x in
      let? c' := upd_cell n r col (fun _ => y) c in
      upd_cells n t col f c'
  end.
(** ladder_general.c:793-804 *)
Definition drop_data (x : cell) : res cell :=
  match c_data x with
  | None => Ok x
  | Some d => if (c_dq x <=? length d)%nat then Ok (set_c_dq 0 (set_c_data None x)) else Bad UB_oob
  end.
(** [alloc] is the outcome of calloc. *)
Definition fn_cell (alloc : bool) (net row col : nat) (f : ins) (fid : nat) (c : ctx) : res (bool * ctx) :=
  if (q_nets (x_q c) <=? net)%nat then Ok (false, set_last_err E_OUTOFRANGE c) else
  let? nt := net_at net c in
  if (n_rows nt <=? row)%nat then Ok (false, set_last_err E_OUTOFRANGE c) else
  if (n_cols nt <=? col)%nat then Ok (false, set_last_err E_OUTOFRANGE c) else
  let isf := match f with I_FOREIGN => true | _ => false end in
  if isf && (fo_qty (x_for c) <=? fid)%nat then Ok (false, set_last_err E_NOFOREIGN c) else
  let? d := (if isf then let? fd := pget (fo_fn (x_for c)) (Z.of_nat fid) in Ok (f_iocd fd) else fn_iocd f) in
  if (n_rows nt - row <? d_cells d)%nat then Ok (false, set_last_err E_OUTOFRANGE c) else
  let span := seq row (d_cells d) in
  let? free := span_free nt span col in
  if negb free then Ok (false, set_last_err E_FAIL c) else
  let? c1 := upd_cells net span col drop_data c in
  let? c2 := upd_cell net row col (fun x => set_c_dq (d_dq d) (set_c_code f x)) c1 in
  if (d_dq d =? 0)%nat then
    let? c3 := upd_cell net row col (fun x => set_c_bar false (set_c_data None x)) c2 in Ok (true, c3)
  else if negb alloc then
    let? c3 := upd_cell net row col (set_c_data None) c2 in
    let? c4 := upd_cells net span col
                 (fun x => Ok (set_c_bar false (set_c_dq 0 (set_c_data None (set_c_code I_INV x))))) c3 in
    Ok (false, set_last_err E_FAIL c4)
  else
    let? c3 := upd_cell net row col (set_c_data (Some (repeat value0 (d_dq d)))) c2 in
    let? c4 := upd_cells net (seq (S row) (d_cells d - 1)) col (fun x => Ok (set_c_code I_MULTI x)) c3 in
    let? c5 := upd_cells net (seq row (d_cells d - 1)) col (fun x => Ok (set_c_bar true x)) c4 in
    match (row + d_cells d)%nat with
    | O => Bad UB_oob
    | S b => let? c6 := upd_cell net b col (set_c_bar false) c5 in Ok (true, c6)
    end.
