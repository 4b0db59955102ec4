(** Property theorems: operand access (C23, C24). *)
From Verif Require Import P_Access Demo.

(** ** C23 *)

(** C23: reading an operand yields the number it denotes and leaves every place as it was, except that an index
    outside the configured quantity is reported in the error mark. *)
Theorem C23_read : forall E s n r col i v z,
  executing (s_ctx s) n r col -> operand_at (s_ctx s) n r col i v -> reads (s_ctx s) v z ->
  exists c', get_data_value E r col i s = Ok (z, mk_st c' (s_tr s))
    /\ changes_only (s_ctx s) c' (fun l => l = LErr /\ bad_index (s_ctx s) v)
    /\ (bad_index (s_ctx s) v -> z = 0 /\ peek c' LErr = Some (VErr E_OUTOFRANGE)).
Proof. exact C23_read_l. Qed.
Print Assumptions C23_read.

(** C23: every operand of every register type and index has such a value, provided the arrays have the configured
    sizes, flags are 0 or 1 and the operand is not an I/O port missing from an existing module nor a real beyond 32 bits. *)
Theorem C23_total : forall E s n r col i v,
  executing (s_ctx s) n r col -> operand_at (s_ctx s) n r col i v -> stores_ok (s_ctx s) -> flags_ok (s_ctx s) -> readable (s_ctx s) v ->
  exists z c', reads (s_ctx s) v z /\ get_data_value E r col i s = Ok (z, mk_st c' (s_tr s))
    /\ changes_only (s_ctx s) c' (eq LErr).
Proof. exact C23_total_l. Qed.
Print Assumptions C23_total.

(** C23: two operands are read in either order with the same values and the same effect, so the order in which the compiler evaluates
    the operands of an expression does not matter. *)
Theorem C23_order : forall E s n r col i j v w a b,
  executing (s_ctx s) n r col -> operand_at (s_ctx s) n r col i v -> operand_at (s_ctx s) n r col j w ->
  reads (s_ctx s) v a -> reads (s_ctx s) w b ->
  (x <- get_data_value E r col i ;; y <- get_data_value E r col j ;; ret (x, y)) s
  = (y <- get_data_value E r col j ;; x <- get_data_value E r col i ;; ret (x, y)) s
  /\ exists s', (x <- get_data_value E r col i ;; y <- get_data_value E r col j ;; ret (x, y)) s = Ok ((a, b), s').
Proof. exact C23_order_l. Qed.
Print Assumptions C23_order.

(** C23: an operand beyond the cell's operand count reads as 0 and changes nothing. *)
Theorem C23_no_operand : forall E s n r col i b k d,
  executing (s_ctx s) n r col -> peek (s_ctx s) (LCell n r col) = Some (VCell b k d) -> (d <= i)%nat ->
  get_data_value E r col i s = Ok (0, s).
Proof. exact C23_no_operand_l. Qed.
Print Assumptions C23_no_operand.

(** C23: a real register reads as its value rounded toward zero when that fits in 32 bits, and is undefined otherwise. *)
Theorem C23_real : forall u m e, 0 <= u < 2 ^ 32 -> f32_denotes u m e ->
  (fits (truncated m e) -> f32_to_i32 u = Ok (truncated m e)) /\ (~ fits (truncated m e) -> f32_to_i32 u = Bad UB_float).
Proof. exact C23_real_l. Qed.
Print Assumptions C23_real.

(** C23: reading an infinity or a NaN is undefined. *)
Theorem C23_real_nan_undefined : forall u, (forall m e, ~ f32_denotes u m e) -> f32_to_i32 u = Bad UB_float.
Proof. exact C23_real_nan_undefined_l. Qed.
Print Assumptions C23_real_nan_undefined.

(** C23: a register whose bank is missing reads as 0, is reported, and stops the program; nothing else changes. *)
Theorem C23_missing_bank : forall E s n r col i v b,
  executing (s_ctx s) n r col -> operand_at (s_ctx s) n r col i v ->
  bank_of (v_type v) = Some b -> peek (s_ctx s) (LRegLen b) = None -> 0 <= v_raw v ->
  h_panic (x_h (s_ctx s)) = false ->
  exists c', get_data_value E r col i s = Ok (0, mk_st c' (s_tr s))
    /\ peek c' LErr = Some (VErr E_FAIL) /\ peek c' LState = Some (VState S_ERROR)
    /\ changes_only (s_ctx s) c' (fun l => l = LErr \/ l = LState).
Proof. exact C23_missing_bank_l. Qed.
Print Assumptions C23_missing_bank.

(** C23, finding: the port of an existing I/O module is not checked; a port outside the module's array is an
    out-of-bounds read. *)
Theorem C23_port_undefined : forall E s n r col i v len,
  executing (s_ctx s) n r col -> operand_at (s_ctx s) n r col i v ->
  match v_type v with
  | R_I => v_module v < Z.of_nat (io_rq (x_io (s_ctx s))) /\ peek (s_ctx s) (LInLen (ix (v_module v)) K_I) = Some (VN len)
  | R_IW => v_module v < Z.of_nat (io_rq (x_io (s_ctx s))) /\ peek (s_ctx s) (LInLen (ix (v_module v)) K_IW) = Some (VN len)
  | R_Q => v_module v < Z.of_nat (io_wq (x_io (s_ctx s))) /\ peek (s_ctx s) (LOutLen (ix (v_module v)) K_Q) = Some (VN len)
  | R_QW => v_module v < Z.of_nat (io_wq (x_io (s_ctx s))) /\ peek (s_ctx s) (LOutLen (ix (v_module v)) K_QW) = Some (VN len)
  | _ => False
  end ->
  Z.of_nat len <= v_port v -> get_data_value E r col i s = Bad UB_oob.
Proof. exact C23_port_undefined_l. Qed.
Print Assumptions C23_port_undefined.

(** C23: the previous value of an operand is read without any change. *)
Theorem C23_previous : forall c n r col i v z,
  executing c n r col -> operand_at c n r col i v -> prev_reads c v z -> get_previous_value r col i c = Ok z.
Proof. exact C23_previous_l. Qed.
Print Assumptions C23_previous.

(** C23, finding: previous values are read without an index check; an index outside the history array is an
    out-of-bounds read. *)
Theorem C23_previous_undefined : forall c n r col i v b len,
  executing c n r col -> operand_at c n r col i v ->
  match v_type v with
  | R_M => b = B_Mh | R_Cd => b = B_Cdh | R_Cr => b = B_Crh | R_Td => b = B_Tdh | R_Tr => b = B_Trh
  | R_C => b = B_C | R_D => b = B_D | R_R => b = B_R | _ => False
  end ->
  peek c (LRegLen b) = Some (VN len) -> ~ in_qty (v_raw v) len -> get_previous_value r col i c = Bad UB_oob.
Proof. exact C23_previous_undefined_l. Qed.
Print Assumptions C23_previous_undefined.
(* D9 does not exist (four registers), I0.1 does, the real R0 is 1.5, and input port 7 of a two-port module. *)
Example C23_case :
  let c := demo [[cellv I_NO [V R_D 9]; cellv I_NO [V R_I 256]; cellv I_NO [V R_R 0]; cellv I_NO [V R_I 1792]]] in
  executing c 0 0 0 /\ operand_at c 0 0 0 0 (V R_D 9) /\ reads c (V R_D 9) 0 /\ bad_index c (V R_D 9)
  /\ executing c 0 0 1 /\ operand_at c 0 0 1 0 (V R_I 256) /\ reads c (V R_I 256) 0
  /\ executing c 0 0 2 /\ operand_at c 0 0 2 0 (V R_R 0) /\ reads c (V R_R 0) 1
  /\ executing c 0 0 3 /\ operand_at c 0 0 3 0 (V R_I 1792) /\ v_module (V R_I 1792) = 0 /\ v_port (V R_I 1792) = 7
  /\ peek c (LInLen 0 K_I) = Some (VN 2) /\ stores_ok c.
Proof. demo_case. Qed.
Example C23_order_case :
  let c := demo [[cellv I_ADD [V R_D 0; V R_D 77; V R_D 2]]] in
  executing c 0 0 0 /\ operand_at c 0 0 0 0 (V R_D 0) /\ operand_at c 0 0 0 1 (V R_D 77) /\ reads c (V R_D 0) 10 /\ reads c (V R_D 77) 0.
Proof. demo_case. Qed.
Example C23_readable_case :
  let c := demo [[cellv I_NO [V R_R 0]; cellv I_NO [V R_QW 256]]] in
  stores_ok c /\ flags_ok c /\ readable c (V R_R 0) /\ readable c (V R_QW 256).
Proof.
  cbv zeta. split; [decide_stores|]. split; [apply flags_okb_ok; vm_compute; reflexivity|split].
  - intros u Hu. vm_compute in Hu. inversion Hu; subst. split; [lia|]. do 2 eexists. split.
    + split; [vm_compute; discriminate|vm_compute; split; reflexivity].
    + vm_compute. split; [discriminate|reflexivity].
  - intros _. do 3 eexists. split; [reflexivity|vm_compute; reflexivity].
Qed.
(* The patterns of 1.5, -2.75 and 2^31. *)
Example C23_real_case : f32_to_i32 1069547520 = Ok 1 /\ f32_to_i32 3224371200 = Ok (-2) /\ f32_to_i32 1325400064 = Bad UB_float
  /\ f32_denotes 3224371200 (-11534336) (-22).
Proof. repeat split; vm_compute; try reflexivity; try discriminate. Qed.
Example C23_previous_case :
  let c := demo [[cellv I_RE [V R_M 2]; cellv I_RE [V R_M 7]]] in
  executing c 0 0 0 /\ operand_at c 0 0 0 0 (V R_M 2) /\ prev_reads c (V R_M 2) 0
  /\ executing c 0 0 1 /\ operand_at c 0 0 1 0 (V R_M 7) /\ peek c (LRegLen B_Mh) = Some (VN 4) /\ ~ in_qty 7 4.
Proof. cbv zeta. split; [|split; [|split]]. 3: vm_compute; split; [discriminate|reflexivity]. all: demo_case. Qed.
Example C23_missing_bank_case :
  let c := set_x_regs (mk_regs None None None) (demo [[cellv I_NO [V R_D 0]]]) in
  executing c 0 0 0 /\ operand_at c 0 0 0 0 (V R_D 0) /\ peek c (LRegLen B_D) = None /\ h_panic (x_h c) = false.
Proof. demo_case. Qed.

(** ** C24 *)

(** C24: a write to an operand that addresses a place stores there what the register keeps of the 32-bit word, and
    nothing else changes. *)
Theorem C24_write : forall c n r col i v w l,
  executing c n r col -> peek c (LData n r col i) = Some (VVal v) -> stores_ok c -> target c v = Some l ->
  exists c', set_data_value r col i w c = Ok (E_OK, c') /\ stored c l (kept (v_type v) w) c'.
Proof. exact C24_write_l. Qed.
Print Assumptions C24_write.

(** C24: a write to an operand that addresses no place (index, module or port outside the configured quantities, a
    timer value, string, constant or invalid type) reports an error and changes nothing. *)
Theorem C24_no_place : forall c n r col i v w,
  executing c n r col -> peek c (LData n r col i) = Some (VVal v) -> stores_ok c -> target c v = None ->
  exists e, set_data_value r col i w c = Ok (e, c) /\ e = write_err c v /\ e <> E_OK.
Proof. exact C24_no_place_l. Qed.
Print Assumptions C24_no_place.

(** C24: strings, timer values, constants and invalid operands are never written, whatever the context. *)
Theorem C24_never : forall c n r col i v w,
  executing c n r col -> peek c (LData n r col i) = Some (VVal v) ->
  match v_type v with R_S | R_T | R_NONE | R_INV | R_OTHER _ => True | _ => False end ->
  set_data_value r col i w c = Ok (E_SETDATAVAL, c).
Proof. exact C24_never_l. Qed.
Print Assumptions C24_never.

(** C24: for each register type, which indices, modules and ports address a place, and which. *)
Theorem C24_addressed : forall c v l, target c v = Some l <->
  match v_type v with
  | R_M => l = LReg B_M (ix (v_raw v)) /\ 0 <= v_raw v < Z.of_nat (q_m (x_q c))
  | R_Cd => l = LReg B_Cd (ix (v_raw v)) /\ 0 <= v_raw v < Z.of_nat (q_c (x_q c))
  | R_Cr => l = LReg B_Cr (ix (v_raw v)) /\ 0 <= v_raw v < Z.of_nat (q_c (x_q c))
  | R_Td => l = LReg B_Td (ix (v_raw v)) /\ 0 <= v_raw v < Z.of_nat (q_t (x_q c))
  | R_Tr => l = LReg B_Tr (ix (v_raw v)) /\ 0 <= v_raw v < Z.of_nat (q_t (x_q c))
  | R_C => l = LReg B_C (ix (v_raw v)) /\ 0 <= v_raw v < Z.of_nat (q_c (x_q c))
  | R_D => l = LReg B_D (ix (v_raw v)) /\ 0 <= v_raw v < Z.of_nat (q_d (x_q c))
  | R_R => l = LReg B_R (ix (v_raw v)) /\ 0 <= v_raw v < Z.of_nat (q_r (x_q c))
  | R_Q => exists id qd qa, l = LOut (ix (v_module v)) K_Q (ix (v_port v)) /\ v_module v < Z.of_nat (io_wq (x_io c))
             /\ peek c (LOutMeta (ix (v_module v))) = Some (VMeta id qd qa) /\ v_port v < Z.of_nat qd
  | R_QW => exists id qd qa, l = LOut (ix (v_module v)) K_QW (ix (v_port v)) /\ v_module v < Z.of_nat (io_wq (x_io c))
             /\ peek c (LOutMeta (ix (v_module v))) = Some (VMeta id qd qa) /\ v_port v < Z.of_nat qa
  | R_I => exists id qd qa, l = LIn (ix (v_module v)) K_I (ix (v_port v)) /\ v_module v < Z.of_nat (io_rq (x_io c))
             /\ peek c (LInMeta (ix (v_module v))) = Some (VMeta id qd qa) /\ v_port v < Z.of_nat qd
  | R_IW => exists id qd qa, l = LIn (ix (v_module v)) K_IW (ix (v_port v)) /\ v_module v < Z.of_nat (io_rq (x_io c))
             /\ peek c (LInMeta (ix (v_module v))) = Some (VMeta id qd qa) /\ v_port v < Z.of_nat qa
  | _ => False
  end.
Proof. exact C24_addressed_l. Qed.
Print Assumptions C24_addressed.
Example C24_case :
  let c := demo [[cellv I_COIL [V R_QW 256]; cellv I_COIL [V R_Q 512]; cellv I_COIL [V R_D (-1)]; cellv I_COIL [V R_T 0]]] in
  executing c 0 0 0 /\ peek c (LData 0 0 0 0) = Some (VVal (V R_QW 256)) /\ stores_ok c
  /\ target c (V R_QW 256) = Some (LOut 0 K_QW 1)
  /\ peek c (LData 0 0 1 0) = Some (VVal (V R_Q 512)) /\ target c (V R_Q 512) = None /\ write_err c (V R_Q 512) = E_OUTOFRANGE
  /\ peek c (LData 0 0 2 0) = Some (VVal (V R_D (-1))) /\ target c (V R_D (-1)) = None
  /\ peek c (LData 0 0 3 0) = Some (VVal (V R_T 0)).
Proof. demo_case. Qed.
