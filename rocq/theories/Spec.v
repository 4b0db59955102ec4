(** Vocabulary of the specifications: the places of a context, what operands denote, and what it means that a
    step changes only certain places. Nothing here uses the accessor functions of the model. *)
From Verif Require Export Commons.

(** ** Places of a context *)

(** Every observable place. Banks, module arrays and cells are addressed element by element; lengths and
    NULL pointers are places too, so that a view equal on all places means equal contexts ([peek_ext]). *)
Inductive loc : Type :=
| LReg (b : bank) (i : nat)              (* element of a register bank *)
| LRegLen (b : bank)                     (* its size; absent when the pointer is NULL *)
| LTs (i : nat) | LAcc (i : nat)         (* timer: start stamp, accumulator *)
| LTmLen
| LIn (m : nat) (k : ik) (i : nat)       (* element of an input module's array *)
| LInLen (m : nat) (k : ik) | LInMeta (m : nat) | LInCount
| LOut (m : nat) (k : ok) (i : nat)
| LOutLen (m : nat) (k : ok) | LOutMeta (m : nat) | LOutCount
| LPow (n r col : nat)                   (* power (state) of a cell *)
| LCell (n r col : nat)                  (* its vertical bar, instruction code and operand count *)
| LData (n r col i : nat)                (* an operand of a cell *)
| LDataLen (n r col : nat) | LRowLen (n r : nat) | LRows (n : nat)
| LNet (n : nat)                         (* enable flag and dimensions of a network *)
| LNets
| LState | LWof | LErr | LLast | LQty | LIo | LHooks | LStats | LExec | LForeign | LCron.

(** Contents of a place. *)
Inductive val : Type :=
| VZ (z : Z) | VB (b : bool) | VN (n : nat) | VMeta (id : Z) (a b : nat)
| VCell (bar : bool) (code : ins) (dq : nat) | VVal (v : value) | VNet (en : bool) (rows cols : nat)
| VState (s : lstate) | VErr (e : err) | VLast (instr : Z) (net col row : nat) | VQty (q : qty) | VIo (h : hwio)
| VHooks (h : hooks) | VStats (s : scanint) | VExec (n : option nat) | VForeign (f : foreign) | VCron (k : option cron).

Definition obind {A B} (o : option A) (f : A -> option B) : option B :=
  match o with Some a => f a | None => None end.
Definition elem {A} (p : option (list A)) (i : nat) : option A := obind p (fun l => nth_error l i).
Definition size {A} (p : option (list A)) : option val := option_map (fun l => VN (length l)) p.

(** The array behind a bank. *)
Definition bank_arr (b : bank) (c : ctx) : arr :=
  match b with
  | B_M => m_M (x_mem c) | B_Cr => m_Cr (x_mem c) | B_Cd => m_Cd (x_mem c)
  | B_Tr => m_Tr (x_mem c) | B_Td => m_Td (x_mem c)
  | B_Mh => p_M (x_prev c) | B_Crh => p_Cr (x_prev c) | B_Cdh => p_Cd (x_prev c)
  | B_Trh => p_Tr (x_prev c) | B_Tdh => p_Td (x_prev c)
  | B_C => r_C (x_regs c) | B_D => r_D (x_regs c) | B_R => r_R (x_regs c)
  end.
Definition in_arr (k : ik) (m : inmod) : arr :=
  match k with K_I => i_I m | K_IW => i_IW m | K_Ih => i_Ih m | K_IWh => i_IWh m end.
Definition out_arr (k : ok) (m : outmod) : arr :=
  match k with K_Q => o_Q m | K_QW => o_QW m | K_Qh => o_Qh m | K_QWh => o_QWh m end.
Definition net_of (c : ctx) (n : nat) : option network := elem (x_net c) n.
Definition row_of (c : ctx) (n r : nat) : option (list cell) := obind (net_of c n) (fun nt => elem (n_cells nt) r).
Definition cell_of (c : ctx) (n r col : nat) : option cell := obind (row_of c n r) (fun rw => nth_error rw col).

Definition peek (c : ctx) (l : loc) : option val :=
  match l with
  | LReg b i => option_map VZ (elem (bank_arr b c) i)
  | LRegLen b => size (bank_arr b c)
  | LTs i => option_map (fun t => VZ (t_ts t)) (elem (x_tm c) i)
  | LAcc i => option_map (fun t => VZ (t_acc t)) (elem (x_tm c) i)
  | LTmLen => size (x_tm c)
  | LIn m k i => obind (elem (x_in c) m) (fun im => option_map VZ (elem (in_arr k im) i))
  | LInLen m k => obind (elem (x_in c) m) (fun im => size (in_arr k im))
  | LInMeta m => option_map (fun im => VMeta (i_id im) (i_iq im) (i_iwq im)) (elem (x_in c) m)
  | LInCount => size (x_in c)
  | LOut m k i => obind (elem (x_out c) m) (fun om => option_map VZ (elem (out_arr k om) i))
  | LOutLen m k => obind (elem (x_out c) m) (fun om => size (out_arr k om))
  | LOutMeta m => option_map (fun om => VMeta (o_id om) (o_qq om) (o_qwq om)) (elem (x_out c) m)
  | LOutCount => size (x_out c)
  | LPow n r col => option_map (fun x => VB (c_state x)) (cell_of c n r col)
  | LCell n r col => option_map (fun x => VCell (c_bar x) (c_code x) (c_dq x)) (cell_of c n r col)
  | LData n r col i => obind (cell_of c n r col) (fun x => option_map VVal (elem (c_data x) i))
  | LDataLen n r col => obind (cell_of c n r col) (fun x => size (c_data x))
  | LRowLen n r => option_map (fun rw => VN (length rw)) (row_of c n r)
  | LRows n => obind (net_of c n) (fun nt => size (n_cells nt))
  | LNet n => option_map (fun nt => VNet (n_en nt) (n_rows nt) (n_cols nt)) (net_of c n)
  | LNets => size (x_net c)
  | LState => Some (VState (x_state c))
  | LWof => Some (VB (x_wof c))
  | LErr => Some (VErr (l_err (x_last c)))
  | LLast => Some (VLast (l_instr (x_last c)) (l_net (x_last c)) (l_col (x_last c)) (l_row (x_last c)))
  | LQty => Some (VQty (x_q c))
  | LIo => Some (VIo (x_io c))
  | LHooks => Some (VHooks (x_h c))
  | LStats => Some (VStats (x_si c))
  | LExec => Some (VExec (x_exec c))
  | LForeign => Some (VForeign (x_for c))
  | LCron => Some (VCron (x_cron c))
  end.

(** A step from [c] to [c'] leaves every place outside [S] as it was. *)
Definition changes_only (c c' : ctx) (S : loc -> Prop) : Prop := forall l, ~ S l -> peek c' l = peek c l.
(** No place changed. *)
Definition unchanged (c c' : ctx) : Prop := forall l, peek c' l = peek c l.

(** ** Power of a cell and of what is on its left *)
Definition powered (c : ctx) (n r col : nat) (b : bool) : Prop := peek c (LPow n r col) = Some (VB b).
(** The left rail (left of column 0) is always on. *)
Definition left_powered (c : ctx) (n r col : nat) (b : bool) : Prop :=
  match col with O => b = true | S p => powered c n r p b end.

(** The cell (r, col) of network [n] exists and [n] is the network being scanned. *)
Definition executing (c : ctx) (n r col : nat) : Prop :=
  peek c LExec = Some (VExec (Some n))
  /\ (exists en rows cols, peek c (LNet n) = Some (VNet en rows cols) /\ (r < rows)%nat /\ (col < cols)%nat)
  /\ (exists bar code dq, peek c (LCell n r col) = Some (VCell bar code dq)).
(** Operand number [i] of a cell. *)
Definition operand_at (c : ctx) (n r col i : nat) (v : value) : Prop :=
  peek c (LData n r col i) = Some (VVal v)
  /\ exists bar code dq, peek c (LCell n r col) = Some (VCell bar code dq) /\ (i < dq)%nat.

(** ** What an operand denotes *)

(** Configured size of the bank an indexed register type lives in, and the bank. *)
Definition bank_of (t : reg) : option bank :=
  match t with
  | R_M => Some B_M | R_Cd => Some B_Cd | R_Cr => Some B_Cr | R_Td => Some B_Td | R_Tr => Some B_Tr
  | R_C => Some B_C | R_D => Some B_D | R_R => Some B_R | _ => None
  end.
Definition bank_qty (b : bank) (q : qty) : nat :=
  match b with
  | B_M | B_Mh => q_m q
  | B_Cd | B_Cr | B_C | B_Cdh | B_Crh => q_c q
  | B_Td | B_Tr | B_Tdh | B_Trh => q_t q
  | B_D => q_d q | B_R => q_r q
  end.
Definition in_qty (z : Z) (q : nat) : Prop := 0 <= z < Z.of_nat q.
(** The number stored at a place. *)
Definition holds (c : ctx) (l : loc) (z : Z) : Prop := peek c l = Some (VZ z).
(** Number of a stored 0/1 flag. *)
Definition holds_flag (c : ctx) (l : loc) (z : Z) : Prop := holds c l z /\ (z = 0 \/ z = 1).
Definition ix (z : Z) : nat := Z.to_nat z.

(** The operand [v] names a register index outside the configured quantity. *)
Definition bad_index (c : ctx) (v : value) : Prop :=
  match v_type v with
  | R_T => ~ in_qty (v_raw v) (q_t (x_q c))
  | t => match bank_of t with Some b => ~ in_qty (v_raw v) (bank_qty b (x_q c)) | None => False end
  end.

(** The operand [v] reads as the number [z]: constants are themselves, registers hold [z] (counters and timers
    saturated or reinterpreted as signed, reals truncated), indices outside the configured quantities, modules
    that do not exist, strings and invalid types read as 0. *)
Definition reads (c : ctx) (v : value) (z : Z) : Prop :=
  (bad_index c v /\ z = 0
   /\ match v_type v with R_T => x_tm c <> None
      | t => forall b, bank_of t = Some b -> bank_arr b c <> None end)
  \/
  (~ bad_index c v /\
   match v_type v with
   | R_NONE => z = v_raw v
   | R_M => holds c (LReg B_M (ix (v_raw v))) z
   | R_Cd => holds_flag c (LReg B_Cd (ix (v_raw v))) z
   | R_Cr => holds_flag c (LReg B_Cr (ix (v_raw v))) z
   | R_Td => holds_flag c (LReg B_Td (ix (v_raw v))) z
   | R_Tr => holds_flag c (LReg B_Tr (ix (v_raw v))) z
   | R_C => exists u, holds c (LReg B_C (ix (v_raw v))) u /\ z = i32 u
   | R_T => exists u, holds c (LAcc (ix (v_raw v))) u /\ z = Z.min u (2 ^ 31 - 1)
   | R_D => holds c (LReg B_D (ix (v_raw v))) z
   | R_R => exists u, holds c (LReg B_R (ix (v_raw v))) u /\ f32_to_i32 u = Ok z
   | R_Q => if v_module v <? Z.of_nat (io_wq (x_io c)) then holds c (LOut (ix (v_module v)) K_Q (ix (v_port v))) z else z = 0
   | R_QW => if v_module v <? Z.of_nat (io_wq (x_io c)) then holds c (LOut (ix (v_module v)) K_QW (ix (v_port v))) z else z = 0
   | R_I => if v_module v <? Z.of_nat (io_rq (x_io c)) then holds c (LIn (ix (v_module v)) K_I (ix (v_port v))) z else z = 0
   | R_IW => if v_module v <? Z.of_nat (io_rq (x_io c)) then holds c (LIn (ix (v_module v)) K_IW (ix (v_port v))) z else z = 0
   | R_S | R_INV | R_OTHER _ => z = 0
   end).

(** The operand [v] had the value [z] at the end of the previous cycle, as far as the histories know: flags and
    digital I/O come from their history arrays (0 when the module keeps none), the word registers from the
    current value. *)
Definition prev_reads (c : ctx) (v : value) (z : Z) : Prop :=
  let m := ix (v_module v) in
  let p := ix (v_port v) in
  match v_type v with
  | R_M => 0 <= v_raw v /\ holds c (LReg B_Mh (ix (v_raw v))) z
  | R_Cd => 0 <= v_raw v /\ holds_flag c (LReg B_Cdh (ix (v_raw v))) z
  | R_Cr => 0 <= v_raw v /\ holds_flag c (LReg B_Crh (ix (v_raw v))) z
  | R_Td => 0 <= v_raw v /\ holds_flag c (LReg B_Tdh (ix (v_raw v))) z
  | R_Tr => 0 <= v_raw v /\ holds_flag c (LReg B_Trh (ix (v_raw v))) z
  | R_Q => if v_module v <? Z.of_nat (io_wq (x_io c)) then
             exists id qd qa, peek c (LOutMeta m) = Some (VMeta id qd qa) /\
             (if (v_port v <? Z.of_nat qd) then
                (peek c (LOutLen m K_Qh) = None /\ z = 0) \/ holds c (LOut m K_Qh p) z
              else z = 0)
           else z = 0
  | R_I => if v_module v <? Z.of_nat (io_rq (x_io c)) then
             exists id qd qa, peek c (LInMeta m) = Some (VMeta id qd qa) /\
             (if (v_port v <? Z.of_nat qd) then
                (peek c (LInLen m K_Ih) = None /\ z = 0) \/ holds c (LIn m K_Ih p) z
              else z = 0)
           else z = 0
  | R_QW => if v_module v <? Z.of_nat (io_wq (x_io c)) then holds c (LOut m K_QW p) z else z = 0
  | R_IW => if v_module v <? Z.of_nat (io_rq (x_io c)) then holds c (LIn m K_IW p) z else z = 0
  | R_C => 0 <= v_raw v /\ exists u, holds c (LReg B_C (ix (v_raw v))) u /\ z = i32 u
  | R_T => 0 <= v_raw v /\ exists u, holds c (LAcc (ix (v_raw v))) u /\ z = i32 u
  | R_D => 0 <= v_raw v /\ holds c (LReg B_D (ix (v_raw v))) z
  | R_R => 0 <= v_raw v /\ exists u, holds c (LReg B_R (ix (v_raw v))) u /\ f32_to_i32 u = Ok z
  | R_NONE | R_S | R_INV | R_OTHER _ => z = 0
  end.

(** The place a destination operand addresses, when it is inside the configured quantities. *)
Definition below (z : Z) (q : nat) : bool := (0 <=? z) && (z <? Z.of_nat q).
Definition target (c : ctx) (v : value) : option loc :=
  let m := ix (v_module v) in
  let p := ix (v_port v) in
  match v_type v with
  | R_Q | R_QW =>
      let w := match v_type v with R_Q => false | _ => true end in
      if below (v_module v) (io_wq (x_io c)) then
        match peek c (LOutMeta m) with
        | Some (VMeta _ qd qa) =>
            if below (v_port v) (if w then qa else qd) then Some (LOut m (if w then K_QW else K_Q) p) else None
        | _ => None
        end
      else None
  | R_I | R_IW =>
      let w := match v_type v with R_I => false | _ => true end in
      if below (v_module v) (io_rq (x_io c)) then
        match peek c (LInMeta m) with
        | Some (VMeta _ qd qa) =>
            if below (v_port v) (if w then qa else qd) then Some (LIn m (if w then K_IW else K_I) p) else None
        | _ => None
        end
      else None
  | t => match bank_of t with
         | Some b => if below (v_raw v) (bank_qty b (x_q c)) then Some (LReg b (ix (v_raw v))) else None
         | None => None
         end
  end.
(** What a register of a given type keeps of a 32-bit word: one byte, or all 32 bits as unsigned or signed. *)
Definition kept (t : reg) (w : Z) : Z :=
  match t with
  | R_C | R_R => w mod 2 ^ 32
  | R_D | R_IW | R_QW => (w + 2 ^ 31) mod 2 ^ 32 - 2 ^ 31
  | _ => w mod 2 ^ 8
  end.

(** Error reported for a write: none when the operand addresses a place. *)
Definition write_err (c : ctx) (v : value) : err :=
  match target c v with
  | Some _ => E_OK
  | None =>
      match v_type v with
      | R_S | R_T | R_NONE | R_INV | R_OTHER _ => E_SETDATAVAL
      | R_Q | R_QW => match peek c LOutCount with None => E_FAIL | Some _ => E_OUTOFRANGE end
      | R_I | R_IW => match peek c LInCount with None => E_FAIL | Some _ => E_OUTOFRANGE end
      | _ => E_OUTOFRANGE
      end
  end.

(** The context [c'] is [c] with the number [z] stored at place [l] and nothing else changed. *)
Definition stored (c : ctx) (l : loc) (z : Z) (c' : ctx) : Prop :=
  holds c' l z /\ changes_only c c' (eq l).

(** ** Contexts whose arrays match the configured quantities *)

Definition arr_ok (p : arr) (n : nat) : Prop := exists l, p = Some l /\ (n <= length l)%nat.
(** The banks and I/O modules have at least the configured sizes; the API builds such contexts. *)
Record banks_ok (c : ctx) : Prop := {
  bo_bank : forall b, arr_ok (bank_arr b c) (bank_qty b (x_q c));
  bo_tm : exists l, x_tm c = Some l /\ (q_t (x_q c) <= length l)%nat }.
(** Flags of timers and counters are 0 or 1. *)
Definition flags_ok (c : ctx) : Prop := forall b i z, In b [B_Cd; B_Cr; B_Td; B_Tr; B_Cdh; B_Crh; B_Tdh; B_Trh] ->
  holds c (LReg b i) z -> z = 0 \/ z = 1.
Record mods_ok (c : ctx) : Prop := {
  mo_in : (io_rq (x_io c) = 0)%nat \/ exists l, x_in c = Some l /\ (io_rq (x_io c) <= length l)%nat;
  mo_out : (io_wq (x_io c) = 0)%nat \/ exists l, x_out c = Some l /\ (io_wq (x_io c) <= length l)%nat;
  mo_ia : forall m im, (m < io_rq (x_io c))%nat -> elem (x_in c) m = Some im ->
            (i_iq im = 0%nat \/ arr_ok (i_I im) (i_iq im)) /\ (i_iwq im = 0%nat \/ arr_ok (i_IW im) (i_iwq im));
  mo_oa : forall m om, (m < io_wq (x_io c))%nat -> elem (x_out c) m = Some om ->
            (o_qq om = 0%nat \/ arr_ok (o_Q om) (o_qq om)) /\ (o_qwq om = 0%nat \/ arr_ok (o_QW om) (o_qwq om)) }.
Definition stores_ok (c : ctx) : Prop := banks_ok c /\ mods_ok c.
