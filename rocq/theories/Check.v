(** The program checker: utils/ladder_program_check.c. The context argument is assumed non-NULL (the function returns
    FAIL for NULL). *)
From Verif Require Export General.

(** ladder_program_check.h:44-64 *)
Inductive perr : Type :=
| P_OK | P_I_MODULE | P_I_PORT | P_Q_MODULE | P_Q_PORT | P_IW_MODULE | P_IW_PORT | P_QW_MODULE | P_QW_PORT
| P_NO_INPUTS | P_NO_OUTPUTS | P_T_TYPE | P_T_INDEX | P_BASETIME | P_MISSING_MULTI | P_MULTI_DATA | P_DANGLING
| P_FAIL.
(** ladder_program_check.h:71-77 *)
Record pstatus : Type := mk_pstatus { ps_net : nat; ps_row : nat; ps_col : nat; ps_err : perr; ps_code : ins }.

(** A check that failed sets the error and jumps to the end; the others go on. *)
Definition require (b : bool) (e : perr) (k : res perr) : res perr := if b then k else Ok e.

(** ladder_program_check.c:101-130: operand [d] of a timer. The comparison of the index with the quantity is unsigned; the
    type field of operand 1 holds the time base and is compared as a byte. *)
Definition is_tmr (i : ins) : bool := match i with I_TON | I_TOF | I_TP => true | _ => false end.
Definition check_timer (c : ctx) (dq d : nat) (v : value) (k : res perr) : res perr :=
  require (2 <=? dq)%nat P_FAIL
    (match d with
     | O => require (match v_type v with R_T => true | _ => false end) P_T_TYPE
              (require (negb ((0 <? q_t (x_q c))%nat && (Z.of_nat (q_t (x_q c)) <=? u32 (v_raw v)))) P_T_INDEX k)
     | 1%nat => require (u8 (reg_code (v_type v)) <=? 4) P_BASETIME k
     | _ => k
     end).
(** ladder_program_check.c:53-61, 132-168: module and port of an I/O operand. The module number equal to the number of
    modules passes the test, the element read then is outside the array. *)
Definition check_in (c : ctx) (v : value) (emod eport : perr) (ports : inmod -> nat) (k : res perr) : res perr :=
  require (negb (io_rq (x_io c) =? 0)%nat) P_NO_INPUTS
    (require (v_module v <=? Z.of_nat (io_rq (x_io c))) emod
       (let? m := pget (x_in c) (v_module v) in
        require (v_port v <? Z.of_nat (ports m)) eport k)).
Definition check_out (c : ctx) (v : value) (emod eport : perr) (ports : outmod -> nat) (k : res perr) : res perr :=
  require (negb (io_wq (x_io c) =? 0)%nat) P_NO_OUTPUTS
    (require (v_module v <=? Z.of_nat (io_wq (x_io c))) emod
       (let? m := pget (x_out c) (v_module v) in
        require (v_port v <? Z.of_nat (ports m)) eport k)).
Definition check_io (c : ctx) (v : value) (k : res perr) : res perr :=
  match v_type v with
  | R_I => check_in c v P_I_MODULE P_I_PORT i_iq k
  | R_IW => check_in c v P_IW_MODULE P_IW_PORT i_iwq k
  | R_Q => check_out c v P_Q_MODULE P_Q_PORT o_qq k
  | R_QW => check_out c v P_QW_MODULE P_QW_PORT o_qwq k
  | _ => k
  end.
(** ladder_program_check.c:170-232: register indices. The cases of the switch for constants, strings and reals are never
    reached. *)
Definition check_index (c : ctx) (v : value) (k : res perr) : res perr :=
  let below (n : nat) := require (0 <=? v_raw v) P_FAIL (require (v_raw v <? Z.of_nat n) P_FAIL k) in
  match v_type v with
  | R_NONE | R_I | R_IW | R_Q | R_QW | R_S | R_R => k
  | R_M => below (q_m (x_q c))
  | R_Cd | R_Cr | R_C => below (q_c (x_q c))
  | R_Td | R_Tr | R_T => below (q_t (x_q c))
  | R_D => below (q_d (x_q c))
  | R_INV | R_OTHER _ => Ok P_FAIL
  end.
(** Codes from LADDER_INS_INV upwards; the enumeration type is unsigned, so all codes outside it are above. *)
Definition beyond (i : ins) : bool := match i with I_INV | I_MULTI | I_OTHER _ => true | _ => false end.
(** ladder_program_check.c:234-320: whether operand [d] of instruction [i] may have type [t]. *)
Definition numeric (t : reg) : bool := match t with R_D | R_R | R_NONE | R_C | R_IW | R_QW => true | _ => false end.
Definition type_ok (i : ins) (d : nat) (t : reg) : bool :=
  match i with
  | I_NO | I_NC | I_RE | I_FE =>
      match d, t with O, (R_NONE | R_I | R_Q | R_M | R_Cd | R_Cr | R_Td | R_Tr) => true | _, _ => false end
  | I_COIL | I_COILL | I_COILU => match d, t with O, (R_Q | R_M) => true | _, _ => false end
  | I_TON | I_TOF | I_TP => true
  | I_ADD | I_SUB | I_MUL | I_DIV | I_MOD | I_SHL | I_SHR | I_ROL | I_ROR | I_AND | I_OR | I_XOR | I_NOT
  | I_EQ | I_GT | I_GE | I_LT | I_LE | I_NE => numeric t
  | I_MOVE | I_TMOVE => match t with R_S => true | _ => numeric t end
  | I_CTU | I_CTD => match d, t with O, R_C | 1%nat, (R_NONE | R_D) => true | _, _ => false end
  | _ => negb (beyond i)
  end.
(** ladder_program_check.c:98-321: operand [d] of a cell. *)
Definition check_operand (c : ctx) (x : cell) (d : nat) : res perr :=
  let? v := pget (c_data x) (Z.of_nat d) in
  let tail := check_index c v (require (type_ok (c_code x) d (v_type v)) P_FAIL (Ok P_OK)) in
  if is_tmr (c_code x) then check_timer c (c_dq x) d v tail else check_io c v tail.
(** Operands [d], [d + 1], ...; [k] of them are left. *)
Fixpoint check_operands (c : ctx) (x : cell) (k d : nat) : res perr :=
  match k with
  | O => Ok P_OK
  | S k => let? e := check_operand c x d in match e with P_OK => check_operands c x k (S d) | _ => Ok e end
  end.
(** ladder_program_check.c:323-349: the number of continuation rows expected below the cell at [row], or an error. The
    difference cells - 1 is unsigned. *)
Definition check_rows (c : ctx) (rows row : nat) (x : cell) : res (perr + Z) :=
  match c_code x with
  | I_NOP | I_CONN => Ok (inr 0)
  | i =>
      if beyond i then Ok (inr 0) else
      let fit (d : iocd) := if (rows <? row + d_cells d)%nat then Ok (inl P_FAIL) else Ok (inr (u32 (Z.of_nat (d_cells d) - 1))) in
      match i with
      | I_FOREIGN =>
          if (c_dq x <? 1)%nat then Ok (inl P_FAIL) else
          let? v := pget (c_data x) 0 in
          if Z.of_nat (fo_qty (x_for c)) <=? u32 (v_raw v) then Ok (inl P_FAIL) else
          let? f := pget (fo_fn (x_for c)) (u32 (v_raw v)) in fit (f_iocd f)
      | _ => let? d := fn_iocd i in fit d
      end
  end.
(** ladder_program_check.c:70-349: one cell, with [exp] continuation rows expected. *)
Definition check_cell (c : ctx) (rows row : nat) (x : cell) (exp : Z) : res (perr + Z) :=
  if 0 <? exp then
    if is_multi (c_code x) then
      if (c_dq x =? 0)%nat && is_null (c_data x) then Ok (inr (exp - 1)) else Ok (inl P_MULTI_DATA)
    else Ok (inl P_MISSING_MULTI)
  else if is_multi (c_code x) then Ok (inl P_DANGLING)
  else
    let? e := check_operands c x (c_dq x) 0 in
    match e with P_OK => check_rows c rows row x | _ => Ok (inl e) end.

(** ladder_program_check.c:63-69: the loops. [st] is the status so far ([None]: not yet initialised), the second component tells whether to go on. *)
Fixpoint check_column (c : ctx) (n : nat) (nt : network) (col : nat) (k row : nat) (exp : Z) (st : option pstatus)
  : res (option pstatus * bool) :=
  match k with
  | O => Ok (st, true)
  | S k =>
      let? x := cell_in nt row col in
      let? r := check_cell c (n_rows nt) row x exp in
      match r with
      | inl e => Ok (Some (mk_pstatus n row col e (c_code x)), false)
      | inr exp' => check_column c n nt col k (S row) exp' (Some (mk_pstatus n row col P_OK (c_code x)))
      end
  end.
Fixpoint check_columns (c : ctx) (n : nat) (nt : network) (k col : nat) (st : option pstatus) : res (option pstatus * bool) :=
  match k with
  | O => Ok (st, true)
  | S k =>
      let? r := check_column c n nt col (n_rows nt) 0 0 st in
      let (st', go) := r in if go then check_columns c n nt k (S col) st' else Ok r
  end.
Fixpoint check_networks (c : ctx) (k n : nat) (st : option pstatus) : res (option pstatus * bool) :=
  match k with
  | O => Ok (st, true)
  | S k =>
      let? nt := net_at n c in
      let? r := check_columns c n nt (n_cols nt) 0 st in
      let (st', go) := r in if go then check_networks c k (S n) st' else Ok r
  end.
(** ladder_program_check.c:46-355. The result is [None] if there is no cell: the status returned is not initialised. *)
Definition program_check (c : ctx) : res (option pstatus) :=
  let? r := check_networks c (q_nets (x_q c)) 0 None in Ok (fst r).
