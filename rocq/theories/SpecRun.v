(** Vocabulary for statements about executing one instruction. *)
From Verif Require Export Spec Instr.

(** What executing the instruction with code [i] at cell (r, col) does, through the dispatch table. *)
Definition outcome (E : env) (i : ins) (r col : nat) (s : st) : option (res (err * st)) :=
  option_map (fun f => f col r s) (ladder_function E i).
(** It returns the error code [e] in context [c'], without any call to the outside. *)
Definition runs (E : env) (i : ins) (r col : nat) (s : st) (e : err) (c' : ctx) : Prop :=
  outcome E i r col s = Some (Ok (e, mk_st c' (s_tr s))).
(** It is undefined behaviour of kind [u]. *)
Definition undefined (E : env) (i : ins) (r col : nat) (s : st) (u : ub) : Prop :=
  outcome E i r col s = Some (Bad u).

(** What may change: the power of the listed cells, the place addressed by the destination operand if there is one,
    and the error mark when one of the operands used has a register index out of range; in that case it is
    certainly set. *)
Definition effect (c c' : ctx) (cells : list (nat * nat * nat)) (dest : option value) (used : list value) : Prop :=
  changes_only c c' (fun l =>
    (exists n r col, In (n, r, col) cells /\ l = LPow n r col)
    \/ (exists v, dest = Some v /\ target c v = Some l)
    \/ (l = LErr /\ exists v, In v used /\ bad_index c v))
  /\ ((exists v, In v used /\ bad_index c v) -> peek c' LErr = Some (VErr E_OUTOFRANGE)).
(** The 32-bit word [w] went to the place operand [v] addresses in [c], if there is one. *)
Definition stores (c : ctx) (v : value) (w : Z) (c' : ctx) : Prop :=
  forall l, target c v = Some l -> holds c' l (kept (v_type v) w).

(** The relation a comparison instruction stands for. *)
Definition compares (i : ins) : option (Z -> Z -> Prop) :=
  match i with
  | I_EQ => Some (fun a b => a = b) | I_NE => Some (fun a b => a <> b) | I_GT => Some (fun a b => a > b)
  | I_GE => Some (fun a b => a >= b) | I_LT => Some (fun a b => a < b) | I_LE => Some (fun a b => a <= b)
  | _ => None
  end.

(** A cell exists. *)
Definition cell_exists (c : ctx) (n r col : nat) : Prop := exists bar code dq, peek c (LCell n r col) = Some (VCell bar code dq).
(** Representable as int32_t. *)
Definition fits (w : Z) : Prop := - 2 ^ 31 <= w < 2 ^ 31.
(** The mathematical result of an arithmetic instruction; division truncates toward zero. *)
Definition computes (i : ins) (a b : Z) : option Z :=
  match i with
  | I_ADD => Some (a + b) | I_SUB => Some (a - b) | I_MUL => Some (a * b)
  | I_DIV => if b =? 0 then None else Some (Z.quot a b)
  | I_MOD => if b =? 0 then None else Some (Z.rem a b)
  | _ => None
  end.
(** The bit-wise meaning of a logic instruction. *)
Definition bitwise (i : ins) : option (bool -> bool -> bool) :=
  match i with I_AND => Some andb | I_OR => Some orb | I_XOR => Some xorb | _ => None end.
(** The unsigned 32-bit number [w] is [x] rotated left by [k] positions. *)
Definition rotated (x k w : Z) : Prop :=
  0 <= w < 2 ^ 32 /\ forall i, 0 <= i < 32 -> Z.testbit w ((i + k) mod 32) = Z.testbit x i.

(** ** Reading and writing operands *)

(** The IEEE-754 single pattern [u] denotes m * 2^e; infinities and NaNs denote nothing. *)
Definition f32_denotes (u m e : Z) : Prop :=
  let sign := if u <? 2 ^ 31 then 1 else -1 in
  let ex := (u / 2 ^ 23) mod 2 ^ 8 in
  let frac := u mod 2 ^ 23 in
  ex <> 255 /\ if ex =? 0 then m = sign * frac /\ e = -149 else m = sign * (2 ^ 23 + frac) /\ e = ex - 150.
(** m * 2^e rounded toward zero. *)
Definition truncated (m e : Z) : Z := if 0 <=? e then m * 2 ^ e else Z.quot m (2 ^ (- e)).

(** The operand has a value: its I/O port exists in its module, its real number fits in 32 bits. Registers need
    nothing, indices out of range included. *)
Definition readable (c : ctx) (v : value) : Prop :=
  let m := ix (v_module v) in
  match v_type v with
  | R_Q | R_QW =>
      v_module v < Z.of_nat (io_wq (x_io c)) ->
      exists id qd qa, peek c (LOutMeta m) = Some (VMeta id qd qa)
        /\ v_port v < Z.of_nat (match v_type v with R_Q => qd | _ => qa end)
  | R_I | R_IW =>
      v_module v < Z.of_nat (io_rq (x_io c)) ->
      exists id qd qa, peek c (LInMeta m) = Some (VMeta id qd qa)
        /\ v_port v < Z.of_nat (match v_type v with R_I => qd | _ => qa end)
  | R_R => forall u, holds c (LReg B_R (ix (v_raw v))) u -> 0 <= u < 2 ^ 32 /\ exists m e, f32_denotes u m e /\ fits (truncated m e)
  | _ => True
  end.

(** ** Moves *)

(** Register types MOVE takes as 32-bit integers. *)
Definition is_word (t : reg) : Prop := match t with R_D | R_IW | R_QW | R_C | R_T => True | _ => False end.

(** Position [p] of network [n], taken as a data table, is the operand [v]: tables are filled row by row, one value
    per cell, kept in the cell's first operand, whose type must be D, IW or QW. *)
Definition table_entry (c : ctx) (n p : nat) (v : value) : Prop :=
  exists en rows cols bar code dq, peek c (LNet n) = Some (VNet en rows cols) /\ (p < rows * cols)%nat
    /\ peek c (LCell n (p / cols) (p mod cols)) = Some (VCell bar code dq) /\ (1 <= dq)%nat
    /\ peek c (LData n (p / cols) (p mod cols) 0) = Some (VVal v)
    /\ match v_type v with R_D | R_IW | R_QW => True | _ => False end.
(** Network [n] exists, is not scanned, and has the given number of cells. *)
Definition is_table (c : ctx) (n cells : nat) : Prop :=
  (n < q_nets (x_q c))%nat /\
  exists rows cols, peek c (LNet n) = Some (VNet false rows cols) /\ cells = (rows * cols)%nat.
(** The place of a table entry. *)
Definition is_entry_place (c : ctx) (n p : nat) (l : loc) : Prop :=
  exists en rows cols, peek c (LNet n) = Some (VNet en rows cols) /\ l = LData n (p / cols) (p mod cols) 0.
(** Position [p] of network [n] is a cell without operand, or whose first operand is of another type. *)
Definition not_entry (c : ctx) (n p : nat) : Prop :=
  exists en rows cols bar code dq, peek c (LNet n) = Some (VNet en rows cols) /\ (p < rows * cols)%nat
    /\ peek c (LCell n (p / cols) (p mod cols)) = Some (VCell bar code dq)
    /\ (dq = 0%nat \/ (1 <= dq)%nat /\ exists v, peek c (LData n (p / cols) (p mod cols) 0) = Some (VVal v)
          /\ match v_type v with R_D | R_IW | R_QW => False | _ => True end).
