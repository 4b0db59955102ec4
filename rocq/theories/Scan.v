(** One program scan: source/ladder_scan.c:84-312. *)
From Verif Require Export Instr Cron.

(** ladder_scan.c:86-124: the table has LADDER_INS_INV = 37 entries; reading past it is undefined. *)
Definition has_side_effects_on_false (i : ins) : res bool :=
  match i with
  | I_NEG | I_COIL | I_TON | I_TOF | I_TP | I_CTU | I_CTD | I_FOREIGN | I_TMOVE => Ok true
  | I_INV | I_MULTI | I_OTHER _ => Bad UB_oob
  | _ => Ok false
  end.

(** The cell (row, col) of the executing network in the current context. *)
Definition mcell (row col : nat) : M cell := c <- getc ;; lift (ex_cell row col c).
(** exec_network->rows, exec_network->cols. *)
Definition exec_net (c : ctx) : res network :=
  match x_exec c with None => Bad UB_null | Some n => net_at n c end.
Definition mrows : M nat := c <- getc ;; nt <- lift (exec_net c) ;; ret (n_rows nt).
Definition mcols : M nat := c <- getc ;; nt <- lift (exec_net c) ;; ret (n_cols nt).

(** ladder_scan.c:169-175: the nested loops over columns and rows, collapsed into one map over the cells of the
    first rows x cols rectangle; the rectangle has to be allocated. *)
Fixpoint map_first {A} (n : nat) (f : A -> res A) (l : list A) : res (list A) :=
  match n with
  | O => Ok l
  | S m => match l with
           | [] => Bad UB_oob
           | x :: t => let? y := f x in let? t' := map_first m f t in Ok (y :: t')
           end
  end.
Definition clear_states (nt : network) : res network :=
  if (n_rows nt =? 0)%nat || (n_cols nt =? 0)%nat then Ok nt else
  match n_cells nt with
  | None => Bad UB_null
  | Some rows =>
      let? rows' := map_first (n_rows nt) (map_first (n_cols nt) (fun x => Ok (set_c_state false x))) rows in
      Ok (set_n_cells (Some rows') nt)
  end.
Definition upd_net (n : nat) (f : network -> res network) (c : ctx) : res ctx :=
  let? nt := net_at n c in
  let? nt' := f nt in
  match x_net c with
  | None => Bad UB_null
  | Some l => Ok (set_x_net (Some (lset l n nt')) c)
  end.

(** ladder_scan.c:178-194 = 229-245: the cycle counter was incremented to [cc]; false when the scan is aborted.
    The C test cc > max * 0.8 is done in double precision: for cc below 2^50 it is exactly 5 cc > 4 max (the
    double nearest to 0.8 exceeds it by a relative 2^-54, so multiples of 5 round to the exact product and all
    other products stay far from an integer). The counter itself cannot reach 2^50, let
    alone wrap: it is bounded by rows * (1 + cols * rows) with rows and cols at most 255. *)
Definition check_cycles (E : env) (cc : Z) : M bool :=
  c <- getc ;;
  (if 4 * si_maxcyc (x_si c) <? 5 * cc then panic E else ret tt) ;;;
  c2 <- getc ;;
  if si_maxcyc (x_si c2) <? cc then
    set_state S_ERROR ;;; set_err E_OVERFLOW ;;; panic E ;;; ret false
  else ret true.

(** ladder_scan.c:201-205 and 222-225: last row of the vertical group starting at [g] in column [col]; [fuel] is the
    number of rows, more than the loop can use. *)
Fixpoint bar_run (fuel : nat) (nt : network) (col g : nat) : res nat :=
  match fuel with
  | O => Ok g
  | S f =>
      if (S g <? n_rows nt)%nat then
        let? x := cell_in nt (S g) col in
        if c_bar x then bar_run f nt col (S g) else Ok g
      else Ok g
  end.
Definition group_end (nt : network) (col g : nat) : res nat := bar_run (n_rows nt) nt col g.

(** ladder_scan.c:206-216: columns [col], [col+1], ... of the [fuel] remaining ones. *)
Fixpoint lower_from (fuel : nat) (nt : network) (row col : nat) : res bool :=
  match fuel with
  | O => Ok false
  | S f =>
      let? x := cell_in nt row col in
      if c_bar x then
        let? m := (if (S row <? n_rows nt)%nat
                   then let? y := cell_in nt (S row) col in Ok (is_multi (c_code y)) else Ok false) in
        if m then lower_from f nt row (S col) else Ok true
      else lower_from f nt row (S col)
  end.
Definition is_lower (nt : network) (row : nat) : res bool := lower_from (n_cols nt) nt row 0.

(** ladder_scan.c:226-256: rows of the column group; the counter after the loop and skip_safe, or [None] when
    the scan is aborted. *)
Fixpoint skip_loop (E : env) (rows : list nat) (col : nat) (cc : Z) : M (option (Z * bool)) :=
  match rows with
  | [] => ret (Some (cc, true))
  | gr :: t =>
      go <- check_cycles E (cc + 1) ;;
      if go : bool then
        x <- mcell gr col ;;
        if is_multi (c_code x) then ret (Some (cc + 1, false))
        else
          b <- lift (has_side_effects_on_false (c_code x)) ;;
          if b : bool then ret (Some (cc + 1, false)) else skip_loop E t col (cc + 1)
      else ret None
  end.

(** ladder_scan.c:264-289: execution of one cell; false is group_error. ladder.last.instr and ladder.last.err
    are uint8_t. *)
Definition exec_cell (E : env) (net col row : nat) : M bool :=
  x <- mcell row col ;;
  modc (set_x_last (mk_lastinfo (u8 (ins_code (c_code x))) net col row E_OK)) ;;;
  if is_multi (c_code x) then ret true
  else
    match ladder_function E (c_code x) with
    | None => set_state S_INV ;;; set_err E_FAIL ;;; ret false
    | Some f =>
        e <- f col row ;;
        set_err e ;;;
        if is_ok e then
          c <- getc ;;
          (if h_instr (x_h c) then emit E EvInstr else ret tt) ;;;
          ret true
        else ret false
    end.
(** ladder_scan.c:263-290 *)
Fixpoint exec_rows (E : env) (net col : nat) (rows : list nat) : M bool :=
  match rows with
  | [] => ret true
  | gr :: t =>
      ok <- exec_cell E net col gr ;;
      if ok : bool then exec_rows E net col t else ret false
  end.
(** ladder_scan.c:297-300 *)
Fixpoint or_states (col : nat) (rows : list nat) (acc : bool) : M bool :=
  match rows with
  | [] => ret acc
  | gr :: t => b <- mstate col gr ;; or_states col t (acc || b)
  end.
(** ladder_scan.c:302-304 *)
Fixpoint put_states (col : nat) (rows : list nat) (b : bool) : M unit :=
  match rows with
  | [] => ret tt
  | gr :: t => mput col gr b ;;; put_states col t b
  end.

(** Rows first..last of a group. *)
Definition rows_of (first last : nat) : list nat := seq first (S last - first).

(** ladder_scan.c:221-304: one column of the rung starting at row [g]; the counter, or [None] when the scan is
    abandoned. *)
Definition scan_column (E : env) (net g : nat) (power : bool) (col : nat) (cc : Z) : M (option Z) :=
  c <- getc ;;
  nt <- lift (exec_net c) ;;
  ge <- lift (group_end nt col g) ;;
  let rows := rows_of g ge in
  sk <- skip_loop E rows col cc ;;
  match sk with
  | None => ret None
  | Some (cc', skip_safe) =>
      if negb power && skip_safe then ret (Some cc')
      else
        ok <- exec_rows E net col rows ;;
        if ok : bool then
          b <- or_states col rows false ;;
          put_states col rows b ;;;
          ret (Some cc')
        else set_state S_INV ;;; ret None
  end.

(** ladder_scan.c:220-305: columns from [col] on; the bound is re-read every time. *)
Fixpoint scan_columns (E : env) (fuel net g : nat) (power : bool) (col : nat) (cc : Z) : M (option Z) :=
  n <- mcols ;;
  if (col <? n)%nat then
    match fuel with
    | O => nofuel
    | S f =>
        r <- scan_column E net g power col cc ;;
        match r with
        | None => ret None
        | Some cc' => scan_columns E f net g power (S col) cc'
        end
    end
  else ret (Some cc).

(** ladder_scan.c:178-309: the rung or group starting at [row]; the next row and the counter. *)
Definition scan_rung (E : env) (net row : nat) (cc : Z) : M (option (nat * Z)) :=
  go <- check_cycles E (cc + 1) ;;
  if go : bool then
    x <- mcell row 0 ;;
    if is_multi (c_code x) then ret (Some (S row, cc + 1))
    else
      c <- getc ;;
      nt <- lift (exec_net c) ;;
      ge <- lift (group_end nt 0 row) ;;
      lower <- lift (is_lower nt row) ;;
      r <- scan_columns E (n_cols nt) net row (negb lower) 0 (cc + 1) ;;
      match r with
      | None => ret None
      | Some cc' =>
          c2 <- getc ;;
          (if h_scan_end (x_h c2) then emit E EvScanEnd else ret tt) ;;;
          ret (Some (S ge, cc'))
      end
  else ret None.

(** ladder_scan.c:176-310; false when the scan is abandoned. *)
Fixpoint scan_rows (E : env) (fuel net row : nat) (cc : Z) : M bool :=
  n <- mrows ;;
  if (row <? n)%nat then
    match fuel with
    | O => nofuel
    | S f =>
        r <- scan_rung E net row cc ;;
        match r with
        | None => ret false
        | Some (row', cc') => scan_rows E f net row' cc'
        end
    end
  else ret true.

(** ladder_scan.c:154-310: one network. *)
Definition scan_network (E : env) (net : nat) : M bool :=
  c <- getc ;;
  nt <- lift (net_at net c) ;;
  if is_null (n_cells nt) then set_state S_ERROR ;;; panic E ;;; ret false
  else if n_en nt then
    modc (set_x_exec (Some net)) ;;;
    updc (upd_net net clear_states) ;;;
    scan_rows E (n_rows nt) net 0 0
  else ret true.

(** ladder_scan.c:153-311: networks from [net] on; the bound is re-read every time. *)
Fixpoint scan_networks (E : env) (fuel net : nat) : M unit :=
  c <- getc ;;
  if (net <? q_nets (x_q c))%nat then
    match fuel with
    | O => nofuel
    | S f =>
        ok <- scan_network E net ;;
        if ok : bool then scan_networks E f (S net) else ret tt
    end
  else ret tt.

(** ladder_scan.c:132-141: false when the scan is abandoned. *)
Definition scan_cron (E : env) : M bool :=
  c <- getc ;;
  match x_cron c with
  | None => ret true
  | Some k =>
      updc (cron_clear (cr_used k) 0 (cr_jobs k)) ;;;
      e <- cron_eval E ;;
      if is_ok e then ret true else set_state S_INV ;;; ret false
  end.

(** ladder_scan.c:126-312. The pointer exec_network is represented by the index of the network. *)
Definition ladder_scan (E : env) : M unit :=
  modc (set_x_exec None) ;;;
  go <- scan_cron E ;;
  if go : bool then
    c <- getc ;;
    if is_null (x_net c) then set_state S_ERROR ;;; panic E
    else scan_networks E (q_nets (x_q c)) 0
  else ret tt.
