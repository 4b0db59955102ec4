(** Vocabulary for the program checker: the rules a program has to obey. *)
From Verif Require Export Check SpecSafe.

(** The checker returns OK. *)
Definition accepts (c : ctx) : Prop := exists st, program_check c = Ok (Some st) /\ ps_err st = P_OK.

(** ** Rules for operands *)

(** The types instruction [i] takes as operand [d]; [None]: any. *)
Definition numbers : list reg := [R_NONE; R_C; R_D; R_R; R_IW; R_QW].
Definition allowed (i : ins) (d : nat) : option (list reg) :=
  match i with
  | I_NO | I_NC | I_RE | I_FE => Some (if (d =? 0)%nat then [R_NONE; R_I; R_Q; R_M; R_Cd; R_Cr; R_Td; R_Tr] else [])
  | I_COIL | I_COILL | I_COILU => Some (if (d =? 0)%nat then [R_Q; R_M] else [])
  | I_CTU | I_CTD => Some (match d with O => [R_C] | 1%nat => [R_NONE; R_D] | _ => [] end)
  | I_MOVE | I_TMOVE => Some (R_S :: numbers)
  | I_ADD | I_SUB | I_MUL | I_DIV | I_MOD | I_SHL | I_SHR | I_ROL | I_ROR | I_AND | I_OR | I_XOR | I_NOT
  | I_EQ | I_NE | I_GT | I_GE | I_LT | I_LE => Some numbers
  | I_INV | I_MULTI | I_OTHER _ => Some []
  | _ => None
  end.
Definition typed_as (i : ins) (d : nat) (v : value) : Prop := forall l, allowed i d = Some l -> In (v_type v) l.
(** Registers other than reals exist, and the type is one of the enumeration. *)
Definition index_rule (c : ctx) (v : value) : Prop :=
  (v_type v <> R_R -> ~ bad_index c v) /\ match v_type v with R_INV | R_OTHER _ => False | _ => True end.
(** Ports exist. *)
Definition port_rule (c : ctx) (v : value) : Prop :=
  match v_type v with R_Q | R_QW | R_I | R_IW => target c v <> None | _ => True end.
(** The first two operands of a timer: the timer and the time base. *)
Definition timer_rule (c : ctx) (d : nat) (v : value) : Prop :=
  match d with O => v_type v = R_T | 1%nat => basetime (v_type v) <> None | _ => True end.
Definition timer_code (i : ins) : bool := match i with I_TON | I_TOF | I_TP => true | _ => false end.
(** Operand [d] of instruction [i], which has [dq] of them. *)
Definition operand_rule (c : ctx) (i : ins) (dq d : nat) (v : value) : Prop :=
  index_rule c v /\ typed_as i d v /\ (if timer_code i then (2 <= dq)%nat /\ timer_rule c d v else port_rule c v).

(** ** Rules for columns *)

(** The instruction at row [r] of column [col] takes [h] rows. *)
Definition takes (c : ctx) (n r col h : nat) : Prop :=
  match code_at c n r col with
  | I_MULTI => False
  | I_OTHER _ => h = 1%nat
  | I_FOREIGN => exists v k, operand_at c n r col 0 v /\ block_size c I_FOREIGN (ix (u32 (v_raw v))) h k
  | i => exists k, documented i = Some (h, k)
  end.
(** A continuation cell: without operands. *)
Definition continuation (c : ctx) (n r col : nat) : Prop :=
  exists bar, peek c (LCell n r col) = Some (VCell bar I_MULTI 0) /\ peek c (LDataLen n r col) = None.
(** An instruction fits into its column and the rows below it are its continuations; a continuation belongs to an
    instruction above. *)
Definition rows_rule (c : ctx) (n rows r col : nat) : Prop :=
  (code_at c n r col <> I_MULTI ->
     exists h, takes c n r col h /\ (r + h <= rows)%nat /\ forall k, (r < k < r + h)%nat -> continuation c n k col)
  /\ (code_at c n r col = I_MULTI -> exists r0 h, (r0 < r)%nat /\ takes c n r0 col h /\ (r < r0 + h)%nat).
(** All operands of instructions and all columns follow the rules; the networks that are not enabled included. *)
Definition obeys (c : ctx) : Prop :=
  forall n en rows cols r col, (n < q_nets (x_q c))%nat -> peek c (LNet n) = Some (VNet en rows cols) -> (r < rows)%nat -> (col < cols)%nat ->
    rows_rule c n rows r col
    /\ (code_at c n r col <> I_MULTI ->
        forall bar i dq d, peek c (LCell n r col) = Some (VCell bar i dq) -> (d < dq)%nat ->
          exists v, peek c (LData n r col d) = Some (VVal v) /\ operand_rule c i dq d v).

(** ** The machine *)

(** All modules have their descriptors, and there are no others; all networks have their cells, with as many operands as
    counted; foreign functions are there and take between 1 and 255 rows. *)
Record checkable (c : ctx) : Prop := {
  ck_reads : exactly (io_rq (x_io c)) (x_in c);
  ck_writes : exactly (io_wq (x_io c)) (x_out c);
  ck_cells : forall n, (n < q_nets (x_q c))%nat -> exists en rows cols, peek c (LNet n) = Some (VNet en rows cols)
    /\ forall r col, (r < rows)%nat -> (col < cols)%nat -> exists bar i dq, peek c (LCell n r col) = Some (VCell bar i dq)
         /\ (dq = 0%nat \/ exists k, peek c (LDataLen n r col) = Some (VN k) /\ (dq <= k)%nat);
  ck_foreign : forall f i, peek c LForeign = Some (VForeign f) -> (i < fo_qty f)%nat ->
    exists d, elem (fo_fn f) i = Some d /\ (1 <= d_cells (f_iocd d) <= 255)%nat }.
(** The program has at least one cell. *)
Definition has_cells (c : ctx) : Prop := exists n r col, program_cell c n r col.
(** An operand names the module after the last one. *)
Definition one_too_many (c : ctx) : Prop :=
  exists n r col d v, program_cell c n r col /\ operand_at c n r col d v /\
    match v_type v with
    | R_I | R_IW => v_module v = Z.of_nat (io_rq (x_io c))
    | R_Q | R_QW => v_module v = Z.of_nat (io_wq (x_io c))
    | _ => False
    end.
(** What the checker does not look at: the instructions of enabled networks exist and have all their operands, constants
    are 32-bit numbers, and the tables of TMOVE are networks of the program. *)
Definition complete (c : ctx) : Prop :=
  forall n rows cols r col, scanned c n rows cols -> (r < rows)%nat -> (col < cols)%nat ->
    (known (code_at c n r col) \/ code_at c n r col = I_MULTI)
    /\ (forall h k, documented (code_at c n r col) = Some (h, k) ->
          exists bar i, peek c (LCell n r col) = Some (VCell bar i k))
    /\ (forall d v, operand_at c n r col d v -> v_type v = R_NONE -> fits (v_raw v))
    /\ (code_at c n r col = I_TMOVE -> forall z, possible (input c n r col 0) z \/ possible (input c n r col 2) z -> 0 <= z < Z.of_nat (q_nets (x_q c))).
(** The memory of the machine is laid out as configured. *)
Record laid_out (c : ctx) : Prop := {
  lo_sized : sized c;
  lo_modules : modules_ok c;
  lo_extras : extras_ok c;
  lo_typed : typed c;
  lo_nets : peek c LNets <> None /\ forall k, peek c LNets = Some (VN k) -> Z.of_nat k <= 2 ^ 32;
  lo_cols : forall n rows cols, scanned c n rows cols -> (0 < cols)%nat;
  lo_checkable : checkable c }.
