(** The typed accessors of ladder_fn_commons.h. No .c file of the library uses them; the header offers them to foreign
    functions. *)
From Verif Require Export Commons.

(** (float) of an integer, as the IEEE-754 single pattern; [rnd_int] is the magnitude rounded to 24 bits, halves to even.
    Every integer converted is below 2^64 in magnitude, far below the largest float. *)
Definition rnd_int (a : Z) : Z :=
  let b := Z.log2 a - 23 in
  if b <=? 0 then a else
  let q := a / 2 ^ b in
  let r := a mod 2 ^ b in
  (if 2 * r <? 2 ^ b then q else if 2 ^ b <? 2 * r then q + 1 else if Z.even q then q else q + 1) * 2 ^ b.
Definition f32_of_int (z : Z) : Z :=
  if z =? 0 then 0 else
  let a := rnd_int (Z.abs z) in
  let b := Z.log2 a - 23 in
  let m := if b <=? 0 then a * 2 ^ (- b) else a / 2 ^ b in
  (if z <? 0 then 2 ^ 31 else 0) + (b + 150) * 2 ^ 23 + (m - 2 ^ 23).

(** ladder_fn_commons.h:382-443. C, T, D and R are read without any index check. *)
Definition get_data_int32 (E : env) (r col i : nat) : M Z :=
  c <- getc ;;
  ov <- lift (operand r col i c) ;;
  match ov with
  | None => ret 0
  | Some v =>
      match v_type v with
      | R_NONE => ret (v_raw v)
      | R_M | R_Q | R_I | R_Cd | R_Cr | R_Td | R_Tr => get_data_value E r col i
      | R_IW => if Z.of_nat (io_rq (x_io c)) <=? v_module v then ret 0
                else lift (in_get K_IW (v_module v) (v_port v) c)
      | R_QW => if Z.of_nat (io_wq (x_io c)) <=? v_module v then ret 0
                else lift (out_get K_QW (v_module v) (v_port v) c)
      | R_C => u <- lift (bk_get B_C (v_raw v) c) ;;
               if 2 ^ 31 - 1 <? u then set_err E_OVERFLOW ;;; ret 0 else ret u
      | R_T => t <- lift (pget (x_tm c) (v_raw v)) ;;
               if 2 ^ 31 - 1 <? t_acc t then set_err E_OVERFLOW ;;; ret 0 else ret (t_acc t)
      | R_D => lift (bk_get B_D (v_raw v) c)
      | R_R => lift (let? u := bk_get B_R (v_raw v) c in f32_to_i32 u)
      | R_S | R_INV | R_OTHER _ => ret 0
      end
  end.

(** ladder_fn_commons.h:619-669; the float is given by its pattern. C, T, D and R are read without any index check. *)
Definition get_data_float (E : env) (r col i : nat) : M Z :=
  c <- getc ;;
  ov <- lift (operand r col i c) ;;
  match ov with
  | None => ret 0
  | Some v =>
      match v_type v with
      | R_NONE => ret (f32_of_int (v_raw v))
      | R_M | R_Q | R_I | R_Cd | R_Cr | R_Td | R_Tr => z <- get_data_value E r col i ;; ret (f32_of_int z)
      | R_IW => if Z.of_nat (io_rq (x_io c)) <=? v_module v then ret 0
                else lift (let? z := in_get K_IW (v_module v) (v_port v) c in Ok (f32_of_int z))
      | R_QW => if Z.of_nat (io_wq (x_io c)) <=? v_module v then ret 0
                else lift (let? z := out_get K_QW (v_module v) (v_port v) c in Ok (f32_of_int z))
      | R_C => lift (let? u := bk_get B_C (v_raw v) c in Ok (f32_of_int u))
      | R_T => lift (let? t := pget (x_tm c) (v_raw v) in Ok (f32_of_int (t_acc t)))
      | R_D => lift (let? z := bk_get B_D (v_raw v) c in Ok (f32_of_int z))
      | R_R => lift (bk_get B_R (v_raw v) c)
      | R_S | R_INV | R_OTHER _ => ret 0
      end
  end.
