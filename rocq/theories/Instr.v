(** The instructions: source/instructions/fn_*.c.  Every function takes (column, row) like the C code. *)
From Verif Require Export Commons.

(** ** Short-hands reading the current context, one per C expression *)

(** CELL_STATE_LEFT(ctx, col, row) *)
Definition mleft (col row : nat) : M bool := c <- getc ;; lift (cleft col row c).
(** CELL_STATE(ctx, col, row) *)
Definition mstate (col row : nat) : M bool := c <- getc ;; lift (cstate col row c).
(** CELL_STATE(ctx, col, row) = b *)
Definition mput (col row : nat) (b : bool) : M unit := updc (put_state col row b).
(** data[0].value.i32 of the executing cell, used as timer or counter index *)
Definition midx (col row : nat) : M Z := c <- getc ;; v <- lift (ex_data row col 0 c) ;; ret (v_raw v).
(** data[1].value.i32, the preset of timers and counters *)
Definition mpreset (col row : nat) : M Z := c <- getc ;; v <- lift (ex_data row col 1 c) ;; ret (v_raw v).
(** fn_commons.c:37 basetime_factor[], indexed by data[1].type *)
Definition basetime_factor (z : Z) : res Z := lget [1; 10; 100; 1000; 60000] z.
Definition mfactor (col row : nat) : M Z :=
  c <- getc ;; v <- lift (ex_data row col 1 c) ;; lift (basetime_factor (reg_code (v_type v))).
(** memory.X[idx] as rvalue and assignment, X one of the bool arrays *)
Definition mflag (b : bank) (col row : nat) : M bool :=
  i <- midx col row ;; c <- getc ;; lift (bk_bool b i c).
Definition mflag_set (b : bank) (col row : nat) (v : bool) : M unit :=
  i <- midx col row ;; updc (bk_put b i (b2z v)).
(** registers.C[idx] as rvalue and assignment (uint32_t) *)
Definition mcount (col row : nat) : M Z := i <- midx col row ;; c <- getc ;; lift (bk_get B_C i c).
Definition mcount_set (col row : nat) (v : Z) : M unit := i <- midx col row ;; updc (bk_put B_C i (u32 v)).
(** timers[idx] members *)
Definition tm_put (i : Z) (f : timer -> timer) (c : ctx) : res ctx :=
  let? t := pget (x_tm c) i in
  let? l := pset (x_tm c) i (f t) in Ok (set_x_tm l c).
Definition mts (col row : nat) : M Z :=
  i <- midx col row ;; c <- getc ;; t <- lift (pget (x_tm c) i) ;; ret (t_ts t).
Definition mts_set (col row : nat) (v : Z) : M unit := i <- midx col row ;; updc (tm_put i (set_t_ts v)).
Definition macc_set (col row : nat) (v : Z) : M unit := i <- midx col row ;; updc (tm_put i (set_t_acc v)).

(** ** Wires and contacts *)

(** fn_NOP.c:41-43 *)
Definition fn_NOP (E : env) (col row : nat) : M err := ret E_OK.
(** fn_CONN.c:41-45 *)
Definition fn_CONN (E : env) (col row : nat) : M err :=
  l <- mleft col row ;; mput col row l ;;; ret E_OK.
(** fn_NEG.c:41-45 *)
Definition fn_NEG (E : env) (col row : nat) : M err :=
  l <- mleft col row ;; mput col row (negb l) ;;; ret E_OK.
(** fn_NO.c:41-45 *)
Definition fn_NO (E : env) (col row : nat) : M err :=
  v <- get_data_value E row col 0 ;;
  b <- (if negb (v =? 0) then mleft col row else ret false) ;;
  mput col row b ;;; ret E_OK.
(** fn_NC.c:41-45 *)
Definition fn_NC (E : env) (col row : nat) : M err :=
  v <- get_data_value E row col 0 ;;
  b <- (if v =? 0 then mleft col row else ret false) ;;
  mput col row b ;;; ret E_OK.
(** ladder_get_previous_value as an action *)
Definition mprev (col row i : nat) : M Z := c <- getc ;; lift (get_previous_value row col i c).
(** fn_RE.c:41-47; && short-circuits. *)
Definition fn_RE (E : env) (col row : nat) : M err :=
  v <- get_data_value E row col 0 ;;
  e <- (if negb (v =? 0) then p <- mprev col row 0 ;; ret (p =? 0) else ret false) ;;
  b <- (if e : bool then mleft col row else ret false) ;;
  mput col row b ;;; ret E_OK.
(** fn_FE.c:41-48 *)
Definition fn_FE (E : env) (col row : nat) : M err :=
  v <- get_data_value E row col 0 ;;
  e <- (if v =? 0 then p <- mprev col row 0 ;; ret (negb (p =? 0)) else ret false) ;;
  b <- (if e : bool then mleft col row else ret false) ;;
  mput col row b ;;; ret E_OK.

(** ** Coils: the error of the write is dropped *)

(** fn_COIL.c:41-53 *)
Definition fn_COIL (E : env) (col row : nat) : M err :=
  l <- mleft col row ;;
  mput col row l ;;;
  b <- mstate col row ;;
  set_data row col 0 (b2z b) ;;; ret E_OK.
(** fn_COILL.c:41-53 *)
Definition fn_COILL (E : env) (col row : nat) : M err :=
  l <- mleft col row ;;
  p <- mprev col row 0 ;;
  let v := negb (p =? 0) || l in
  mput col row v ;;; set_data row col 0 (b2z v) ;;; ret E_OK.
(** fn_COILU.c:41-53 *)
Definition fn_COILU (E : env) (col row : nat) : M err :=
  l <- mleft col row ;;
  p <- mprev col row 0 ;;
  let v := negb (p =? 0) && negb l in
  mput col row v ;;; set_data row col 0 (b2z v) ;;; ret E_OK.

(** ** Timers *)

(** Lines shared by the three timers (fn_TON.c:58-76, fn_TOF.c:57-75, fn_TP.c:50-68): update the accumulator
    of a running timer (uint16_t conversion), then finish it when the elapsed time reached the preset; the
    product int32 * uint32 is computed in uint32. *)
Definition timer_elapsed (E : env) (col row : nat) : M Z :=
  t <- millis E ;; ts <- mts col row ;; ret (u64 (t - ts)).
Definition timer_run (E : env) (col row : nat) : M unit :=
  r <- mflag B_Tr col row ;;
  (if r : bool then
     d <- timer_elapsed E col row ;; f <- mfactor col row ;; macc_set col row (u16 (d / f))
   else ret tt) ;;;
  r2 <- mflag B_Tr col row ;;
  (if r2 : bool then
     d <- timer_elapsed E col row ;; p <- mpreset col row ;; f <- mfactor col row ;;
     if u32 (p * f) <=? d then
       mflag_set B_Tr col row false ;;;
       mflag_set B_Td col row true ;;;
       q <- mpreset col row ;; macc_set col row (u32 q)
     else ret tt
   else ret tt).
(** Start of timing: Tr = true; time_stamp = millis(). *)
Definition timer_start (E : env) (col row : nat) : M unit :=
  mflag_set B_Tr col row true ;;; t <- millis E ;; mts_set col row t.
(** Reset: acc = 0, Tr = Td = false. *)
Definition timer_reset (col row : nat) : M unit :=
  macc_set col row 0 ;;; mflag_set B_Tr col row false ;;; mflag_set B_Td col row false.

(** fn_TON.c:41-84 *)
Definition fn_TON (E : env) (col row : nat) : M err :=
  l <- mleft col row ;;
  (if l : bool then ret tt else timer_reset col row) ;;;
  l2 <- mleft col row ;;
  (if l2 : bool then
     d <- mflag B_Td col row ;;
     if d : bool then ret tt else
       r <- mflag B_Tr col row ;;
       if r : bool then ret tt else timer_start E col row
   else ret tt) ;;;
  timer_run E col row ;;;
  r <- mflag B_Tr col row ;; mput col (row + 1) r ;;;
  d <- mflag B_Td col row ;; mput col row d ;;;
  ret E_OK.

(** fn_TOF.c:41-85 *)
Definition fn_TOF (E : env) (col row : nat) : M err :=
  l <- mleft col row ;;
  (if l : bool then timer_reset col row
   else
     r <- mflag B_Tr col row ;;
     (if r : bool then ret tt else
        d <- mflag B_Td col row ;;
        if d : bool then ret tt else timer_start E col row) ;;;
     timer_run E col row) ;;;
  r <- mflag B_Tr col row ;; mput col (row + 1) r ;;;
  l2 <- mleft col row ;;
  b <- (if l2 : bool then ret true else mflag B_Tr col row) ;;
  mput col row b ;;;
  ret E_OK.

(** fn_TP.c:41-76 *)
Definition fn_TP (E : env) (col row : nat) : M err :=
  l <- mleft col row ;;
  (if l : bool then
     p <- mprev col row 0 ;;
     if p =? 0 then
       r <- mflag B_Tr col row ;;
       if r : bool then ret tt else timer_start E col row
     else ret tt
   else ret tt) ;;;
  timer_run E col row ;;;
  r <- mflag B_Tr col row ;; mput col (row + 1) r ;;;
  r2 <- mflag B_Tr col row ;; mput col row r2 ;;;
  ret E_OK.

(** ** Counters *)

(** fn_CTU.c:43-59 and fn_CTD.c:43-61: reset with the value [z] (0 or the preset). *)
Definition counter_reset (col row : nat) (z : Z) : M unit :=
  mcount_set col row z ;;;
  mflag_set B_Cd col row false ;;;
  mflag_set B_Cr col row false ;;;
  mput col row false ;;;
  mput col (row + 1) false.
(** Whether the reset branch is taken: at column 0 when RUNNING, elsewhere when row+1's left cell is on. *)
Definition counter_reset_cond (col row : nat) : M bool :=
  match col with
  | O => c <- getc ;; ret (lstate_eqb (x_state c) S_RUNNING)
  | S _ => mleft col (row + 1)
  end.
(** fn_CTU.c:61-73 and fn_CTD.c:63-75: count on a new activation, then re-arm on an idle input. *)
Definition counter_count (col row : nat) (delta : Z) : M unit :=
  l <- mleft col row ;;
  (if l : bool then
     r <- mflag B_Cr col row ;;
     if r : bool then ret tt else
       d <- mflag B_Cd col row ;;
       if d : bool then ret tt else
         mflag_set B_Cr col row true ;;;
         mput col (row + 1) true ;;;
         n <- mcount col row ;; mcount_set col row (n + delta)
   else ret tt) ;;;
  l2 <- mleft col row ;;
  (if l2 : bool then ret tt else mflag_set B_Cr col row false ;;; mput col (row + 1) false).

(** fn_CTU.c:41-83; the comparison is uint32_t >= (uint32_t) int32_t. *)
Definition fn_CTU (E : env) (col row : nat) : M err :=
  rs <- counter_reset_cond col row ;;
  (if rs : bool then counter_reset col row 0 else ret tt) ;;;
  counter_count col row 1 ;;;
  n <- mcount col row ;; p <- mpreset col row ;;
  (if u32 p <=? n then mflag_set B_Cd col row true ;;; mput col row true else ret tt) ;;;
  ret E_OK.
(** fn_CTD.c:41-84 *)
Definition fn_CTD (E : env) (col row : nat) : M err :=
  rs <- counter_reset_cond col row ;;
  (if rs : bool then p <- mpreset col row ;; counter_reset col row p else ret tt) ;;;
  counter_count col row (-1) ;;;
  n <- mcount col row ;;
  (if n =? 0 then mflag_set B_Cd col row true ;;; mput col row true else ret tt) ;;;
  ret E_OK.

(** ** Arithmetic *)

(** Result of a signed int expression: undefined when it leaves int32_t. *)
Definition chk (z : Z) : M Z := if in_i32 z then ret z else bad UB_overflow.

(** Shape shared by ADD, MUL, MOD, AND, OR, XOR (fn_ADD.c:41-52 etc.): copy the power, and when powered store
    [op] of the two operands into operand 2, dropping the write error. *)
Definition binop (E : env) (op : Z -> Z -> M Z) (col row : nat) : M err :=
  l <- mleft col row ;;
  mput col row l ;;;
  l2 <- mleft col row ;;
  (if l2 : bool then
     a <- get_data_value E row col 0 ;;
     b <- get_data_value E row col 1 ;;
     v <- op a b ;;
     set_data row col 2 v ;;; ret tt
   else ret tt) ;;;
  ret E_OK.
(** fn_ADD.c:41-52 *)
Definition fn_ADD (E : env) : nat -> nat -> M err := binop E (fun a b => chk (a + b)).
(** fn_MUL.c:41-52 *)
Definition fn_MUL (E : env) : nat -> nat -> M err := binop E (fun a b => chk (a * b)).
(** fn_MOD.c:41-52: % is undefined for a zero divisor and for INT_MIN % -1. *)
Definition fn_MOD (E : env) : nat -> nat -> M err :=
  binop E (fun a b => if b =? 0 then bad UB_div else
                      if (a =? - 2 ^ 31) && (b =? -1) then bad UB_overflow else ret (Z.rem a b)).
(** fn_DIV.c:41-57: the divisor is read first. *)
Definition fn_DIV (E : env) (col row : nat) : M err :=
  l <- mleft col row ;;
  mput col row l ;;;
  l2 <- mleft col row ;;
  (if l2 : bool then
     b <- get_data_value E row col 1 ;;
     if b =? 0 then set_data row col 2 0 ;;; ret tt
     else
       a <- get_data_value E row col 0 ;;
       v <- chk (Z.quot a b) ;;
       set_data row col 2 v ;;; ret tt
   else ret tt) ;;;
  ret E_OK.
(** fn_SUB.c:41-62: the operands are read also without power. *)
Definition fn_SUB (E : env) (col row : nat) : M err :=
  l <- mleft col row ;;
  mput col row l ;;;
  a <- get_data_value E row col 0 ;;
  b <- get_data_value E row col 1 ;;
  l2 <- mleft col row ;;
  (if l2 : bool then
     (if b <? a then mput col row true
      else if a =? b then mput col (row + 1) true
      else mput col (row + 2) true) ;;;
     v <- chk (a - b) ;;
     set_data row col 2 v ;;; ret tt
   else ret tt) ;;;
  ret E_OK.

(** ** Bitwise operations *)

(** fn_AND.c:41-52: both operands go through to_integer. *)
Definition fn_AND (E : env) : nat -> nat -> M err :=
  binop E (fun a b => ret (Z.land (to_integer a) (to_integer b))).
(** fn_OR.c:41-52 *)
Definition fn_OR (E : env) : nat -> nat -> M err := binop E (fun a b => ret (Z.lor a b)).
(** fn_XOR.c:41-52 *)
Definition fn_XOR (E : env) : nat -> nat -> M err := binop E (fun a b => ret (Z.lxor a b)).
(** fn_NOT.c:41-52 *)
Definition fn_NOT (E : env) (col row : nat) : M err :=
  l <- mleft col row ;;
  mput col row l ;;;
  l2 <- mleft col row ;;
  (if l2 : bool then
     a <- get_data_value E row col 0 ;;
     set_data row col 1 (Z.lnot a) ;;; ret tt
   else ret tt) ;;;
  ret E_OK.

(** ** Shifts and rotates: they act whatever the power is *)

(** amount %= 32; if (amount < 0) amount += 32; *)
Definition norm_amount (a : Z) : Z := let r := Z.rem a 32 in if r <? 0 then r + 32 else r.
(** << and >> on uint32_t: undefined when the amount is not below 32. *)
Definition shl32 (v a : Z) : res Z := if (0 <=? a) && (a <? 32) then Ok (u32 (Z.shiftl v a)) else Bad UB_shift.
Definition shr32 (v a : Z) : res Z := if (0 <=? a) && (a <? 32) then Ok (Z.shiftr v a) else Bad UB_shift.
(** Shape of fn_SHL.c, fn_SHR.c, fn_ROL.c and fn_ROR.c:41-58. *)
Definition shiftop (E : env) (op : Z -> Z -> res Z) (col row : nat) : M err :=
  v <- get_data_value E row col 0 ;;
  a <- get_data_value E row col 1 ;;
  w <- lift (op (u32 v) (norm_amount a)) ;;
  e <- set_data row col 0 (i32 w) ;;
  l <- mleft col row ;;
  mput col row l ;;;
  ret e.
(** fn_SHL.c:41-58 *)
Definition fn_SHL (E : env) : nat -> nat -> M err := shiftop E shl32.
(** fn_SHR.c:41-58 *)
Definition fn_SHR (E : env) : nat -> nat -> M err := shiftop E shr32.
(** fn_ROL.c:41-58: (uval << amount) | (uval >> (32 - amount)) *)
Definition fn_ROL (E : env) : nat -> nat -> M err :=
  shiftop E (fun v a => let? x := shl32 v a in let? y := shr32 v (32 - a) in Ok (Z.lor x y)).
(** fn_ROR.c:41-58: (uval >> amount) | (uval << (32 - amount)) *)
Definition fn_ROR (E : env) : nat -> nat -> M err :=
  shiftop E (fun v a => let? x := shr32 v a in let? y := shl32 v (32 - a) in Ok (Z.lor x y)).

(** ** Comparisons *)

(** Shape of fn_EQ.c, fn_GT.c, fn_GE.c, fn_LT.c, fn_LE.c and fn_NE.c:41-46 *)
Definition cmpop (E : env) (op : Z -> Z -> bool) (col row : nat) : M err :=
  l <- mleft col row ;;
  b <- (if l : bool then
          a <- get_data_value E row col 0 ;; b <- get_data_value E row col 1 ;; ret (op a b)
        else ret false) ;;
  mput col row b ;;; ret E_OK.
Definition fn_EQ (E : env) : nat -> nat -> M err := cmpop E Z.eqb.
Definition fn_GT (E : env) : nat -> nat -> M err := cmpop E Z.gtb.
Definition fn_GE (E : env) : nat -> nat -> M err := cmpop E Z.geb.
Definition fn_LT (E : env) : nat -> nat -> M err := cmpop E Z.ltb.
Definition fn_LE (E : env) : nat -> nat -> M err := cmpop E Z.leb.
Definition fn_NE (E : env) : nat -> nat -> M err := cmpop E (fun a b => negb (a =? b)).

(** ** MOVE *)

(** fn_MOVE.c:41-113. [inl] carries an early return. The integer accessor reads int sources; a real source is
    taken from the R bank without the accessor. *)
Definition move_src (E : env) (v0 : value) (col row : nat) : M (err + (Z * bool)) :=
  match v_type v0 with
  | R_D | R_IW | R_QW | R_C | R_T => z <- get_data_value E row col 0 ;; ret (inr (z, false))
  | R_R =>
      c <- getc ;;
      let ix := u32 (v_raw v0) in
      if Z.of_nat (q_r (x_q c)) <=? ix then ret (inl E_OUTOFRANGE)
      else z <- lift (bk_get B_R ix c) ;; ret (inr (z, true))
  | _ => ret (inl E_TYPEMISMATCH)
  end.
Definition move_int_dest (t : reg) : bool :=
  match t with R_D | R_IW | R_QW | R_C | R_T => true | _ => false end.
Definition move_float_dest (t : reg) : bool := match t with R_R => true | _ => false end.
Definition fn_MOVE (E : env) (col row : nat) : M err :=
  c <- getc ;;
  x <- lift (ex_cell row col c) ;;
  if is_null (c_data x) || (c_dq x <? 2)%nat then ret E_OUTOFRANGE else
  v0 <- lift (ex_data row col 0 c) ;;
  v1 <- lift (ex_data row col 1 c) ;;
  src <- move_src E v0 col row ;;
  match src with
  | inl e => ret e
  | inr (z, isf) =>
      if (if isf : bool then negb (move_float_dest (v_type v1)) else negb (move_int_dest (v_type v1)))
      then ret E_TYPEMISMATCH
      else
        e <- set_data row col 1 z ;;
        l <- mleft col row ;;
        mput col row l ;;;
        ret (if is_ok e then E_OK else E_SETDATAVAL)
  end.

(** ** FOREIGN *)

Definition call_foreign (E : env) (id col row : nat) : M err :=
  fun s => let (e, c) := fexec E (length (s_tr s)) id col row (s_ctx s) in
           Ok (e, mk_st c (EvForeign id col row :: s_tr s)).
(** fn_FOREIGN.c:41-46; the function pointer of a registered function is assumed non-null. *)
Definition fn_FOREIGN (E : env) (col row : nat) : M err :=
  v <- get_data_value E row col 0 ;;
  c <- getc ;;
  if Z.of_nat (fo_qty (x_for c)) <=? to_integer v then ret E_NOFOREIGN
  else
    v2 <- get_data_value E row col 0 ;;
    c2 <- getc ;;
    lift (pget (fo_fn (x_for c2)) (to_integer v2)) ;;;
    call_foreign E (Z.to_nat (to_integer v2)) col row.

(** ** TMOVE *)

Definition net_size (nt : network) : Z := u32 (Z.of_nat (n_rows nt) * Z.of_nat (n_cols nt)).
Definition is_table_type (t : reg) : bool := match t with R_D | R_IW | R_QW => true | _ => false end.
(** fn_TMOVE.c:42-64 = 69-91: the checks common to the table accessors; the addressed cell's coordinates and
    first operand, or an error. *)
Definition table_slot (net pos : Z) (c : ctx) : res (err + (nat * nat * value)) :=
  if Z.of_nat (q_nets (x_q c)) <=? net then Ok (inl E_NOTABLE) else
  let? nt := pget (x_net c) net in
  if net_size nt <=? pos then Ok (inl E_OUTOFRANGE) else
  if (n_cols nt =? 0)%nat then Bad UB_div else
  let r := Z.to_nat (pos / Z.of_nat (n_cols nt)) in
  let cl := Z.to_nat (pos mod Z.of_nat (n_cols nt)) in
  if (n_rows nt <=? r)%nat || (n_cols nt <=? cl)%nat then Ok (inl E_OUTOFRANGE) else
  let? x := cell_in nt r cl in
  if (c_dq x <? 1)%nat then Ok (inl E_OUTOFRANGE) else
  let? v := pget (c_data x) 0 in
  if is_table_type (v_type v) then Ok (inr (r, cl, v)) else Ok (inl E_TYPEMISMATCH).
(** fn_TMOVE.c:41-66 *)
Definition get_table (net pos : Z) (c : ctx) : res (err + Z) :=
  let? s := table_slot net pos c in
  match s with inl e => Ok (inl e) | inr (_, _, v) => Ok (inr (v_raw v)) end.
(** fn_TMOVE.c:68-93 *)
Definition set_data0 (z : Z) (x : cell) : cell :=
  match c_data x with
  | Some (v :: t) => set_c_data (Some (set_v_raw z v :: t)) x
  | _ => x
  end.
Definition set_table (net pos z : Z) (c : ctx) : res (err * ctx) :=
  let? s := table_slot net pos c in
  match s with
  | inl e => Ok (e, c)
  | inr (r, cl, _) => let? c' := upd_cell (Z.to_nat net) r cl (set_data0 z) c in Ok (E_OK, c')
  end.
(** fn_TMOVE.c:127-136: read [n] values starting at [pos] (uint32_t addition). *)
Fixpoint read_table (n : nat) (net pos : Z) (c : ctx) : res (err + list Z) :=
  match n with
  | O => Ok (inr [])
  | S m =>
      let? x := get_table net pos c in
      match x with
      | inl e => Ok (inl e)
      | inr z =>
          let? r := read_table m net (u32 (pos + 1)) c in
          match r with inl e => Ok (inl e) | inr zs => Ok (inr (z :: zs)) end
      end
  end.
(** fn_TMOVE.c:139-148: write the values; stop at the first error, keeping the writes done so far. *)
Fixpoint write_table (zs : list Z) (net pos : Z) (c : ctx) : res (err * ctx) :=
  match zs with
  | [] => Ok (E_OK, c)
  | z :: t =>
      let? x := set_table net pos z c in
      let (e, c') := x in
      if is_ok e then write_table t net (u32 (pos + 1)) c' else Ok (e, c')
  end.
(** fn_TMOVE.c:95-153 *)
Definition max_move : Z := 1024.
Definition fn_TMOVE (E : env) (col row : nat) : M err :=
  dn <- get_data_value E row col 0 ;;
  dp <- get_data_value E row col 1 ;;
  sn <- get_data_value E row col 2 ;;
  sp <- get_data_value E row col 3 ;;
  qr <- get_data_value E row col 4 ;;
  let q := if (qr <? 0) || (max_move <? qr) then 0 else qr in
  if q =? 0 then l <- mleft col row ;; mput col row l ;;; ret E_OK
  else
    c <- getc ;;
    dnet <- lift (pget (x_net c) dn) ;;
    en <- (if n_en dnet then ret true else snet <- lift (pget (x_net c) sn) ;; ret (n_en snet)) ;;
    if en : bool then mput col row false ;;; ret E_NOTABLE
    else
      snet <- lift (pget (x_net c) sn) ;;
      if (net_size dnet <? u32 (dp + q)) || (net_size snet <? u32 (sp + q))
      then mput col row false ;;; ret E_OUTOFRANGE
      else
        rd <- lift (read_table (Z.to_nat q) (u32 sn) (u32 sp) c) ;;
        match rd with
        | inl e => mput col row false ;;; ret e
        | inr zs =>
            x <- lift (write_table zs (u32 dn) (u32 dp) c) ;;
            let (e, c') := x in
            modc (fun _ => c') ;;;
            if is_ok e then l <- mleft col row ;; mput col row l ;;; ret E_OK
            else mput col row false ;;; ret e
        end.

(** ladder_scan.c:44-82: the dispatch table; [None] for codes outside it. *)
Definition ladder_function (E : env) (i : ins) : option (nat -> nat -> M err) :=
  match i with
  | I_NOP => Some (fn_NOP E) | I_CONN => Some (fn_CONN E) | I_NEG => Some (fn_NEG E)
  | I_NO => Some (fn_NO E) | I_NC => Some (fn_NC E) | I_RE => Some (fn_RE E) | I_FE => Some (fn_FE E)
  | I_COIL => Some (fn_COIL E) | I_COILL => Some (fn_COILL E) | I_COILU => Some (fn_COILU E)
  | I_TON => Some (fn_TON E) | I_TOF => Some (fn_TOF E) | I_TP => Some (fn_TP E)
  | I_CTU => Some (fn_CTU E) | I_CTD => Some (fn_CTD E) | I_MOVE => Some (fn_MOVE E)
  | I_SUB => Some (fn_SUB E) | I_ADD => Some (fn_ADD E) | I_MUL => Some (fn_MUL E)
  | I_DIV => Some (fn_DIV E) | I_MOD => Some (fn_MOD E) | I_SHL => Some (fn_SHL E)
  | I_SHR => Some (fn_SHR E) | I_ROL => Some (fn_ROL E) | I_ROR => Some (fn_ROR E)
  | I_AND => Some (fn_AND E) | I_OR => Some (fn_OR E) | I_XOR => Some (fn_XOR E)
  | I_NOT => Some (fn_NOT E) | I_EQ => Some (fn_EQ E) | I_GT => Some (fn_GT E)
  | I_GE => Some (fn_GE E) | I_LT => Some (fn_LT E) | I_LE => Some (fn_LE E) | I_NE => Some (fn_NE E)
  | I_FOREIGN => Some (fn_FOREIGN E) | I_TMOVE => Some (fn_TMOVE E)
  | I_INV | I_MULTI | I_OTHER _ => None
  end.
