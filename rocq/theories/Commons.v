(** Operand access shared by the instructions: source/include/ladder_fn_commons.h and the macros of
    source/include/ladder_instructions.h. *)
From Verif Require Export Types.

(** ** Register banks as named arrays of the context *)

(** The integer arrays of ladder_memory_s, ladder_prev_scan_vals_s and ladder_registers_s (ladder.h). *)
Inductive bank : Type :=
| B_M | B_Cr | B_Cd | B_Tr | B_Td | B_Mh | B_Crh | B_Cdh | B_Trh | B_Tdh | B_C | B_D | B_R.

Definition arr_of (b : bank) (c : ctx) : arr :=
  match b with
  | B_M => m_M (x_mem c) | B_Cr => m_Cr (x_mem c) | B_Cd => m_Cd (x_mem c)
  | B_Tr => m_Tr (x_mem c) | B_Td => m_Td (x_mem c)
  | B_Mh => p_M (x_prev c) | B_Crh => p_Cr (x_prev c) | B_Cdh => p_Cd (x_prev c)
  | B_Trh => p_Tr (x_prev c) | B_Tdh => p_Td (x_prev c)
  | B_C => r_C (x_regs c) | B_D => r_D (x_regs c) | B_R => r_R (x_regs c)
  end.
Definition set_arr (b : bank) (a : arr) (c : ctx) : ctx :=
  match b with
  | B_M => set_x_mem (set_m_M a (x_mem c)) c | B_Cr => set_x_mem (set_m_Cr a (x_mem c)) c
  | B_Cd => set_x_mem (set_m_Cd a (x_mem c)) c | B_Tr => set_x_mem (set_m_Tr a (x_mem c)) c
  | B_Td => set_x_mem (set_m_Td a (x_mem c)) c
  | B_Mh => set_x_prev (set_p_M a (x_prev c)) c | B_Crh => set_x_prev (set_p_Cr a (x_prev c)) c
  | B_Cdh => set_x_prev (set_p_Cd a (x_prev c)) c | B_Trh => set_x_prev (set_p_Tr a (x_prev c)) c
  | B_Tdh => set_x_prev (set_p_Td a (x_prev c)) c
  | B_C => set_x_regs (set_r_C a (x_regs c)) c | B_D => set_x_regs (set_r_D a (x_regs c)) c
  | B_R => set_x_regs (set_r_R a (x_regs c)) c
  end.

(** [bank[i]] read and written without any check other than C's own (null and bounds are UB). *)
Definition bk_get (b : bank) (i : Z) (c : ctx) : res Z := pget (arr_of b c) i.
Definition bk_bool (b : bank) (i : Z) (c : ctx) : res bool := bget (arr_of b c) i.
Definition bk_put (b : bank) (i v : Z) (c : ctx) : res ctx :=
  let? a := pset (arr_of b c) i v in Ok (set_arr b a c).

(** Arrays of an I/O module (ladder_hw_input_vals_s, ladder_hw_output_vals_s). *)
Inductive ik : Type := K_I | K_IW | K_Ih | K_IWh.
Inductive ok : Type := K_Q | K_QW | K_Qh | K_QWh.
Definition i_arr (k : ik) (m : inmod) : arr :=
  match k with K_I => i_I m | K_IW => i_IW m | K_Ih => i_Ih m | K_IWh => i_IWh m end.
Definition set_i_arr (k : ik) (a : arr) (m : inmod) : inmod :=
  match k with K_I => set_i_I a m | K_IW => set_i_IW a m | K_Ih => set_i_Ih a m | K_IWh => set_i_IWh a m end.
Definition o_arr (k : ok) (m : outmod) : arr :=
  match k with K_Q => o_Q m | K_QW => o_QW m | K_Qh => o_Qh m | K_QWh => o_QWh m end.
Definition set_o_arr (k : ok) (a : arr) (m : outmod) : outmod :=
  match k with K_Q => set_o_Q a m | K_QW => set_o_QW a m | K_Qh => set_o_Qh a m | K_QWh => set_o_QWh a m end.

(** [input[m].k[p]], [output[m].k[p]] and the corresponding assignments. *)
Definition in_get (k : ik) (m p : Z) (c : ctx) : res Z :=
  let? im := pget (x_in c) m in pget (i_arr k im) p.
Definition out_get (k : ok) (m p : Z) (c : ctx) : res Z :=
  let? om := pget (x_out c) m in pget (o_arr k om) p.
Definition in_put (k : ik) (m p v : Z) (c : ctx) : res ctx :=
  let? im := pget (x_in c) m in
  let? a := pset (i_arr k im) p v in
  let? l := pset (x_in c) m (set_i_arr k a im) in Ok (set_x_in l c).
Definition out_put (k : ok) (m p v : Z) (c : ctx) : res ctx :=
  let? om := pget (x_out c) m in
  let? a := pset (o_arr k om) p v in
  let? l := pset (x_out c) m (set_o_arr k a om) in Ok (set_x_out l c).

(** ** Cells of the executing network *)

Definition nth_res {A} (l : list A) (i : nat) : res A :=
  match nth_error l i with Some a => Ok a | None => Bad UB_oob end.

(** [network[n]]. *)
Definition net_at (n : nat) (c : ctx) : res network :=
  match x_net c with None => Bad UB_null | Some l => nth_res l n end.
(** [net->cells[r][col]]. *)
Definition cell_in (nt : network) (r col : nat) : res cell :=
  match n_cells nt with
  | None => Bad UB_null
  | Some rows => let? rw := nth_res rows r in nth_res rw col
  end.
Definition set_cell_in (nt : network) (r col : nat) (x : cell) : network :=
  match n_cells nt with
  | None => nt
  | Some rows =>
      match nth_error rows r with
      | None => nt
      | Some rw => set_n_cells (Some (lset rows r (lset rw col x))) nt
      end
  end.
(** Replace cell (r, col) of network n by [f] of it. *)
Definition upd_cell (n r col : nat) (f : cell -> cell) (c : ctx) : res ctx :=
  let? nt := net_at n c in
  let? x := cell_in nt r col in
  match x_net c with
  | None => Bad UB_null
  | Some l => Ok (set_x_net (Some (lset l n (set_cell_in nt r col (f x)))) c)
  end.

(** ladder_instructions.h:43 (exnet): with exec_network NULL the macro yields a zeroed network, whose cells
    pointer is NULL. *)
Definition ex_cell (r col : nat) (c : ctx) : res cell :=
  match x_exec c with
  | None => Bad UB_null
  | Some n => let? nt := net_at n c in cell_in nt r col
  end.
(** ladder_instructions.h:77 (CELL_STATE) as rvalue and as assignment target. *)
Definition cstate (col r : nat) (c : ctx) : res bool :=
  let? x := ex_cell r col c in Ok (c_state x).
Definition put_state (col r : nat) (b : bool) (c : ctx) : res ctx :=
  match x_exec c with
  | None => Bad UB_null
  | Some n => upd_cell n r col (set_c_state b) c
  end.
(** ladder_instructions.h:84-85 (CELL_STATE_LEFT). *)
Definition cleft (col r : nat) (c : ctx) : res bool :=
  match col with O => Ok true | S p => cstate p r c end.
(** ladder_instructions.h:50 (ladder_cell_data_exec): no check against data_qty. *)
Definition ex_data (r col i : nat) (c : ctx) : res value :=
  let? x := ex_cell r col c in pget (c_data x) (Z.of_nat i).

(** ** ladder_fn_commons.h *)

(** ladder_fn_commons.h:43-51. *)
Definition to_integer (v : Z) : Z := if v =? 0 then 0 else if v =? 1 then 1 else 0.

(** (int32_t) of a float given by its IEEE-754 single pattern: truncation toward zero, undefined for NaN,
    infinities and results outside int32_t. *)
Definition f32_to_i32 (raw : Z) : res Z :=
  let s := raw / 2 ^ 31 in
  let e := (raw / 2 ^ 23) mod 2 ^ 8 in
  let m := raw mod 2 ^ 23 in
  if e =? 255 then Bad UB_float else
  let mag := if e <? 127 then 0
             else if e <? 150 then (2 ^ 23 + m) / 2 ^ (150 - e)
             else (2 ^ 23 + m) * 2 ^ (e - 150) in
  let v := if s =? 0 then mag else - mag in
  if in_i32 v then Ok v else Bad UB_float.

(** ladder_fn_commons.h:53-139 (safe_get_register_index): bank and quantity of an indexed register type,
    [None] for the types handled by the default branch. The context pointer is never NULL here. *)
Definition reg_bank (t : reg) (c : ctx) : option (bool * nat) :=
  match t with
  | R_M => Some (is_null (arr_of B_M c), q_m (x_q c))
  | R_Cd => Some (is_null (arr_of B_Cd c), q_c (x_q c))
  | R_Cr => Some (is_null (arr_of B_Cr c), q_c (x_q c))
  | R_C => Some (is_null (arr_of B_C c), q_c (x_q c))
  | R_Td => Some (is_null (arr_of B_Td c), q_t (x_q c))
  | R_Tr => Some (is_null (arr_of B_Tr c), q_t (x_q c))
  | R_T => Some (is_null (x_tm c), q_t (x_q c))
  | R_D => Some (is_null (arr_of B_D c), q_d (x_q c))
  | R_R => Some (is_null (arr_of B_R c), q_r (x_q c))
  | _ => None
  end.
Definition safe_index (t : reg) (raw : Z) (c : ctx) : err :=
  if raw <? 0 then E_OUTOFRANGE else
  match reg_bank t c with
  | None => E_TYPEMISMATCH
  | Some (null, q) => if null then E_FAIL else if Z.of_nat q <=? raw then E_OUTOFRANGE else E_OK
  end.

(** ladder_fn_commons.h:141-190 (safe_check_module_port). *)
Definition safe_port (t : reg) (m p : Z) (c : ctx) : res err :=
  match t with
  | R_Q | R_QW =>
      if is_null (x_out c) then Ok E_FAIL else
      if Z.of_nat (io_wq (x_io c)) <=? m then Ok E_OUTOFRANGE else
      let? om := pget (x_out c) m in
      let q := match t with R_Q => o_qq om | _ => o_qwq om end in
      Ok (if Z.of_nat q <=? p then E_OUTOFRANGE else E_OK)
  | R_I | R_IW =>
      if is_null (x_in c) then Ok E_FAIL else
      if Z.of_nat (io_rq (x_io c)) <=? m then Ok E_OUTOFRANGE else
      let? im := pget (x_in c) m in
      let q := match t with R_I => i_iq im | _ => i_iwq im end in
      Ok (if Z.of_nat q <=? p then E_OUTOFRANGE else E_OK)
  | _ => Ok E_TYPEMISMATCH
  end.

(** ladder_fn_commons.h:228-255: value of an indexed register after a successful index check. *)
Definition reg_value (t : reg) (i : Z) (c : ctx) : res Z :=
  match t with
  | R_M => bk_get B_M i c
  | R_Cd => let? b := bk_bool B_Cd i c in Ok (b2z b)
  | R_Cr => let? b := bk_bool B_Cr i c in Ok (b2z b)
  | R_Td => let? b := bk_bool B_Td i c in Ok (b2z b)
  | R_Tr => let? b := bk_bool B_Tr i c in Ok (b2z b)
  | R_C => let? v := bk_get B_C i c in Ok (i32 v)
  | R_T => let? t := pget (x_tm c) i in Ok (if 2 ^ 31 - 1 <? t_acc t then 2 ^ 31 - 1 else t_acc t)
  | R_D => bk_get B_D i c
  | R_R => let? v := bk_get B_R i c in f32_to_i32 v
  | _ => Ok 0
  end.

(** ladder_fn_commons.h:297-301 and the identical checks of the other accessors: the operand, or [None] when
    the accessor returns its safe default. *)
Definition operand (r col i : nat) (c : ctx) : res (option value) :=
  match x_exec c with
  | None => Ok None
  | Some n =>
      let? nt := net_at n c in
      if (n_rows nt <=? r)%nat || (n_cols nt <=? col)%nat then Ok None else
      let? x := cell_in nt r col in
      if (c_dq x <=? i)%nat then Ok None else
      let? v := pget (c_data x) (Z.of_nat i) in Ok (Some v)
  end.

(** ladder_fn_commons.h:192-293. *)
Definition get_data_value (E : env) (r col i : nat) : M Z :=
  c <- getc ;;
  ov <- lift (operand r col i c) ;;
  match ov with
  | None => ret 0
  | Some v =>
      match v_type v with
      | R_NONE => ret (v_raw v)
      | R_M | R_Cd | R_Cr | R_Td | R_Tr | R_C | R_T | R_D | R_R =>
          let e := safe_index (v_type v) (v_raw v) c in
          if is_ok e then lift (reg_value (v_type v) (v_raw v) c)
          else
            set_err e ;;;
            (if err_eqb e E_FAIL || err_eqb e E_TYPEMISMATCH
             then set_state S_ERROR ;;; panic E else ret tt) ;;;
            ret 0
      | R_Q => if Z.of_nat (io_wq (x_io c)) <=? v_module v then ret 0
               else lift (out_get K_Q (v_module v) (v_port v) c)
      | R_I => if Z.of_nat (io_rq (x_io c)) <=? v_module v then ret 0
               else lift (in_get K_I (v_module v) (v_port v) c)
      | R_IW => if Z.of_nat (io_rq (x_io c)) <=? v_module v then ret 0
                else lift (in_get K_IW (v_module v) (v_port v) c)
      | R_QW => if Z.of_nat (io_wq (x_io c)) <=? v_module v then ret 0
                else lift (out_get K_QW (v_module v) (v_port v) c)
      | R_S | R_INV | R_OTHER _ => ret 0
      end
  end.

(** ladder_fn_commons.h:295-380. The indexed banks are read without any index check. *)
Definition prev_of (v : value) (c : ctx) : res Z :=
  let i := v_raw v in
  let m := v_module v in
  let p := v_port v in
  match v_type v with
  | R_M => bk_get B_Mh i c
  | R_Q =>
      if Z.of_nat (io_wq (x_io c)) <=? m then Ok 0 else
      let? om := pget (x_out c) m in
      if is_null (o_Qh om) then Ok 0 else
      if Z.of_nat (o_qq om) <=? p then Ok 0 else pget (o_Qh om) p
  | R_I =>
      if Z.of_nat (io_rq (x_io c)) <=? m then Ok 0 else
      let? im := pget (x_in c) m in
      if is_null (i_Ih im) then Ok 0 else
      if Z.of_nat (i_iq im) <=? p then Ok 0 else pget (i_Ih im) p
  | R_Cd => let? b := bk_bool B_Cdh i c in Ok (b2z b)
  | R_Cr => let? b := bk_bool B_Crh i c in Ok (b2z b)
  | R_Td => let? b := bk_bool B_Tdh i c in Ok (b2z b)
  | R_Tr => let? b := bk_bool B_Trh i c in Ok (b2z b)
  | R_IW => if Z.of_nat (io_rq (x_io c)) <=? m then Ok 0 else in_get K_IW m p c
  | R_QW => if Z.of_nat (io_wq (x_io c)) <=? m then Ok 0 else out_get K_QW m p c
  | R_C => let? v := bk_get B_C i c in Ok (i32 v)
  | R_T => let? t := pget (x_tm c) i in Ok (i32 (t_acc t))
  | R_D => bk_get B_D i c
  | R_R => let? v := bk_get B_R i c in f32_to_i32 v
  | R_S | R_NONE | R_INV | R_OTHER _ => Ok 0
  end.
Definition get_previous_value (r col i : nat) (c : ctx) : res Z :=
  let? ov := operand r col i c in
  match ov with None => Ok 0 | Some v => prev_of v c end.

(** ladder_fn_commons.h:445-590. [w] is the 32-bit object the value pointer refers to, as an integer; one byte
    of it is copied into byte arrays, all four into word arrays. The result is the error code; the pointer
    argument is never NULL. *)
Definition set_data_value (r col i : nat) (w : Z) (c : ctx) : res (err * ctx) :=
  let? v := ex_data r col i c in
  let x := v_raw v in
  let m := v_module v in
  let p := v_port v in
  match v_type v with
  | R_M | R_Cd | R_Cr | R_Td | R_Tr | R_C | R_D | R_R =>
      let e := safe_index (v_type v) x c in
      if is_ok e then
        let? c' := match v_type v with
                   | R_M => bk_put B_M x (u8 w) c
                   | R_Cd => bk_put B_Cd x (u8 w) c
                   | R_Cr => bk_put B_Cr x (u8 w) c
                   | R_Td => bk_put B_Td x (u8 w) c
                   | R_Tr => bk_put B_Tr x (u8 w) c
                   | R_C => bk_put B_C x (u32 w) c
                   | R_D => bk_put B_D x (i32 w) c
                   | _ => bk_put B_R x (u32 w) c
                   end in Ok (E_OK, c')
      else Ok (e, c)
  | R_Q | R_I | R_IW | R_QW =>
      let? e := safe_port (v_type v) m p c in
      if is_ok e then
        match v_type v with
        | R_Q => let? om := pget (x_out c) m in
                 if is_null (o_Q om) then Ok (E_FAIL, c) else
                 let? c' := out_put K_Q m p (u8 w) c in Ok (E_OK, c')
        | R_QW => let? om := pget (x_out c) m in
                  if is_null (o_QW om) then Ok (E_FAIL, c) else
                  let? c' := out_put K_QW m p (i32 w) c in Ok (E_OK, c')
        | R_I => let? im := pget (x_in c) m in
                 if is_null (i_I im) then Ok (E_FAIL, c) else
                 let? c' := in_put K_I m p (u8 w) c in Ok (E_OK, c')
        | _ => let? im := pget (x_in c) m in
               if is_null (i_IW im) then Ok (E_FAIL, c) else
               let? c' := in_put K_IW m p (i32 w) c in Ok (E_OK, c')
        end
      else Ok (e, c)
  | R_S | R_T | R_NONE | R_INV | R_OTHER _ => Ok (E_SETDATAVAL, c)
  end.

(** The same as a state action returning the error code. *)
Definition set_data (r col i : nat) (w : Z) : M err :=
  fun s => match set_data_value r col i w (s_ctx s) with
           | Ok (e, c) => Ok (e, mk_st c (s_tr s))
           | Bad u => Bad u
           | NoFuel => NoFuel
           end.
