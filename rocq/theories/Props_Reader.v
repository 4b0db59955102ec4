(** Property theorems: the typed accessors offered to foreign functions (C67). *)
From Verif Require Import P_Reader Demo.

(** ** C67 *)

(** C67: read as an integer, an operand yields the number it denotes and leaves every place as it was, except that a flag or
    marker index outside the configured quantity is reported in the error mark. *)
Theorem C67_int : forall E s n r col i v z,
  executing (s_ctx s) n r col -> operand_at (s_ctx s) n r col i v -> reads (s_ctx s) v z ->
  (unchecked (v_type v) = true -> ~ bad_index (s_ctx s) v) -> small (s_ctx s) v ->
  exists c', get_data_int32 E r col i s = Ok (z, mk_st c' (s_tr s))
    /\ changes_only (s_ctx s) c' (fun l => l = LErr /\ bad_index (s_ctx s) v)
    /\ (bad_index (s_ctx s) v -> z = 0 /\ peek c' LErr = Some (VErr E_OUTOFRANGE)).
Proof. exact C67_int_l. Qed.
Print Assumptions C67_int.

(** C67: for such operands the integer accessor and the accessor of the instructions are the same function. *)
Theorem C67_agrees : forall E s n r col i v z,
  executing (s_ctx s) n r col -> operand_at (s_ctx s) n r col i v -> reads (s_ctx s) v z ->
  (unchecked (v_type v) = true -> ~ bad_index (s_ctx s) v) -> small (s_ctx s) v ->
  get_data_int32 E r col i s = get_data_value E r col i s.
Proof. exact C67_agrees_l. Qed.
Print Assumptions C67_agrees.

(** C67: a counter or a time of 2^31 or more reads as the integer 0 and is reported as an overflow; nothing else changes. *)
Theorem C67_overflow : forall E s n r col i v,
  executing (s_ctx s) n r col -> operand_at (s_ctx s) n r col i v -> ~ bad_index (s_ctx s) v -> too_big (s_ctx s) v ->
  exists c', get_data_int32 E r col i s = Ok (0, mk_st c' (s_tr s)) /\ changes_only (s_ctx s) c' (eq LErr)
    /\ peek c' LErr = Some (VErr E_OVERFLOW).
Proof. exact C67_overflow_l. Qed.
Print Assumptions C67_overflow.

(** C67: the accessor of the instructions reads the same counter as a negative number and the same time as 2^31 - 1, without
    any report. *)
Theorem C67_differs : forall E s n r col i v u,
  executing (s_ctx s) n r col -> operand_at (s_ctx s) n r col i v -> ~ bad_index (s_ctx s) v -> 2 ^ 31 <= u ->
  (v_type v = R_C -> holds (s_ctx s) (LReg B_C (ix (v_raw v))) u -> u < 2 ^ 32 -> get_data_value E r col i s = Ok (u - 2 ^ 32, s))
  /\ (v_type v = R_T -> holds (s_ctx s) (LAcc (ix (v_raw v))) u -> get_data_value E r col i s = Ok (2 ^ 31 - 1, s)).
Proof. exact C67_differs_l. Qed.
Print Assumptions C67_differs.

(** C67: read as a real, an operand that is not a real register yields the single nearest to its number, counters and times in
    full; nothing changes, except that a flag or marker index outside the configured quantity is reported. *)
Theorem C67_float : forall E s n r col i v z,
  executing (s_ctx s) n r col -> operand_at (s_ctx s) n r col i v -> counts (s_ctx s) v z ->
  (unchecked (v_type v) = true -> ~ bad_index (s_ctx s) v) -> Z.abs z < 2 ^ 64 ->
  exists p c', get_data_float E r col i s = Ok (p, mk_st c' (s_tr s)) /\ 0 <= p < 2 ^ 32 /\ nearest z p
    /\ changes_only (s_ctx s) c' (fun l => l = LErr /\ bad_index (s_ctx s) v)
    /\ (bad_index (s_ctx s) v -> z = 0 /\ peek c' LErr = Some (VErr E_OUTOFRANGE)).
Proof. exact C67_float_l. Qed.
Print Assumptions C67_float.

(** C67: whole numbers up to 2^24 in magnitude are not rounded at all. *)
Theorem C67_exact : forall z p, Z.abs z <= 2 ^ 24 -> nearest z p -> exists m e, f32_denotes p m e /\ units m e = units z 0.
Proof. exact C67_exact_l. Qed.
Print Assumptions C67_exact.

(** C67: a real register yields its own pattern, and nothing changes. *)
Theorem C67_float_real : forall E s n r col i v u,
  executing (s_ctx s) n r col -> operand_at (s_ctx s) n r col i v -> v_type v = R_R -> ~ bad_index (s_ctx s) v ->
  holds (s_ctx s) (LReg B_R (ix (v_raw v))) u -> get_data_float E r col i s = Ok (u, s).
Proof. exact C67_float_real_l. Qed.
Print Assumptions C67_float_real.

(** C67: an operand beyond the cell's operand count reads as 0 and changes nothing. *)
Theorem C67_no_operand : forall E s n r col i b k d,
  executing (s_ctx s) n r col -> peek (s_ctx s) (LCell n r col) = Some (VCell b k d) -> (d <= i)%nat ->
  get_data_int32 E r col i s = Ok (0, s) /\ get_data_float E r col i s = Ok (0, s).
Proof. exact C67_no_operand_l. Qed.
Print Assumptions C67_no_operand.

(** C67, finding: the typed accessors do not check the index of a counter, a timer, a data or a real register; outside the array
    they read out of bounds, where the accessor of the instructions reports an error. *)
Theorem C67_index_undefined : forall E s n r col i v,
  executing (s_ctx s) n r col -> operand_at (s_ctx s) n r col i v ->
  (match v_type v with
   | R_C => exists len, peek (s_ctx s) (LRegLen B_C) = Some (VN len) /\ ~ in_qty (v_raw v) len
   | R_D => exists len, peek (s_ctx s) (LRegLen B_D) = Some (VN len) /\ ~ in_qty (v_raw v) len
   | R_R => exists len, peek (s_ctx s) (LRegLen B_R) = Some (VN len) /\ ~ in_qty (v_raw v) len
   | R_T => exists l, x_tm (s_ctx s) = Some l /\ ~ in_qty (v_raw v) (length l)
   | _ => False
   end) ->
  get_data_int32 E r col i s = Bad UB_oob /\ get_data_float E r col i s = Bad UB_oob.
Proof. exact C67_index_undefined_l. Qed.
Print Assumptions C67_index_undefined.
(* A machine whose counter 1 holds 3000000000 and counter 2 holds 7, with a data register of 2147483647. *)
Definition rd_ctx (v : value) : ctx :=
  set_x_regs (mk_regs (Some [0; 3000000000; 7; 0]) (Some [10; -3; 2147483647; 0]) (Some [1069547520; 0; 0; 0]))
    (demo [[cellv I_NO [v]]]).
Definition rd_int (v : value) : res Z := match get_data_int32 quiet_env 0 0 0 (start (rd_ctx v)) with Ok (z, _) => Ok z | Bad u => Bad u | NoFuel => NoFuel end.
Definition rd_float (v : value) : res Z := match get_data_float quiet_env 0 0 0 (start (rd_ctx v)) with Ok (z, _) => Ok z | Bad u => Bad u | NoFuel => NoFuel end.
Definition rd_val (v : value) : res Z := match get_data_value quiet_env 0 0 0 (start (rd_ctx v)) with Ok (z, _) => Ok z | Bad u => Bad u | NoFuel => NoFuel end.
Example C67_int_case :
  executing (rd_ctx (V R_C 2)) 0 0 0 /\ operand_at (rd_ctx (V R_C 2)) 0 0 0 0 (V R_C 2) /\ reads (rd_ctx (V R_C 2)) (V R_C 2) 7
  /\ small (rd_ctx (V R_C 2)) (V R_C 2) /\ rd_int (V R_C 2) = Ok 7 /\ rd_val (V R_C 2) = Ok 7
  /\ reads (rd_ctx (V R_M 9)) (V R_M 9) 0 /\ bad_index (rd_ctx (V R_M 9)) (V R_M 9) /\ rd_int (V R_M 9) = Ok 0.
Proof.
  split; [decide_exec|]. split; [decide_op|]. split; [decide_reads|].
  split; [exists 7; split; [reflexivity|lia]|]. split; [reflexivity|]. split; [reflexivity|]. split; [decide_reads|].
  split; [vm_compute; intros (_ & H); discriminate|reflexivity].
Qed.
Example C67_overflow_case :
  executing (rd_ctx (V R_C 1)) 0 0 0 /\ operand_at (rd_ctx (V R_C 1)) 0 0 0 0 (V R_C 1) /\ too_big (rd_ctx (V R_C 1)) (V R_C 1)
  /\ ~ bad_index (rd_ctx (V R_C 1)) (V R_C 1) /\ rd_int (V R_C 1) = Ok 0 /\ rd_val (V R_C 1) = Ok (-1294967296).
Proof.
  split; [decide_exec|]. split; [decide_op|]. split; [exists 3000000000; split; [reflexivity|lia]|].
  split; [intros H; apply H; vm_compute; split; [discriminate|reflexivity]|]. split; reflexivity.
Qed.
(* 3000000000 is 11718750 times 2^8 and needs no rounding; 2147483647 becomes 2^31; the constants 16777217 and
   16777219 lie half way between two singles and go to the even one. *)
Example C67_float_case :
  executing (rd_ctx (V R_C 1)) 0 0 0 /\ operand_at (rd_ctx (V R_C 1)) 0 0 0 0 (V R_C 1) /\ counts (rd_ctx (V R_C 1)) (V R_C 1) 3000000000
  /\ rd_float (V R_C 1) = Ok 1328730206 /\ f32_denotes 1328730206 11718750 8 /\ units 11718750 8 = units 3000000000 0
  /\ rd_float (V R_D 2) = Ok 1325400064 /\ f32_denotes 1325400064 8388608 8
  /\ rd_float (V R_NONE 16777217) = Ok 1266679808 /\ f32_denotes 1266679808 8388608 1
  /\ rd_float (V R_NONE 16777219) = Ok 1266679810 /\ f32_denotes 1266679810 8388610 1
  /\ rd_float (V R_NONE (-3)) = Ok 3225419776 /\ rd_float (V R_R 0) = Ok 1069547520.
Proof.
  split; [decide_exec|]. split; [decide_op|]. repeat match goal with |- _ /\ _ => split end; try reflexivity; vm_compute; repeat split; discriminate.
Qed.
Example C67_index_undefined_case :
  executing (rd_ctx (V R_C 4)) 0 0 0 /\ operand_at (rd_ctx (V R_C 4)) 0 0 0 0 (V R_C 4)
  /\ peek (rd_ctx (V R_C 4)) (LRegLen B_C) = Some (VN 4) /\ ~ in_qty 4 4
  /\ rd_int (V R_C 4) = Bad UB_oob /\ rd_float (V R_C 4) = Bad UB_oob /\ rd_val (V R_C 4) = Ok 0
  /\ rd_int (V R_T 99) = Bad UB_oob /\ rd_int (V R_D (-1)) = Bad UB_oob.
Proof.
  split; [decide_exec|]. split; [decide_op|]. split; [reflexivity|]. split; [unfold in_qty; lia|]. repeat split.
Qed.
Example C67_no_operand_case :
  executing (rd_ctx (V R_C 4)) 0 0 0 /\ peek (rd_ctx (V R_C 4)) (LCell 0 0 0) = Some (VCell false I_NO 1)
  /\ get_data_float quiet_env 0 0 1 (start (rd_ctx (V R_C 4))) = Ok (0, start (rd_ctx (V R_C 4))).
Proof. split; [decide_exec|]. split; reflexivity. Qed.
