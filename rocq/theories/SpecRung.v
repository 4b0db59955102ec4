(** Vocabulary for statements about ladder logic: contacts, wires, inverters, comparisons and coils. *)
From Verif Require Export SpecScan.

(** The operand has a value; it had one at the end of the previous cycle. *)
Definition has_value (c : ctx) (v : value) : Prop := exists z, reads c v z.
Definition had_value (c : ctx) (v : value) : Prop := exists z, prev_reads c v z.
(** Operand number [j] of a cell. *)
Definition arg (c : ctx) (n r col j : nat) : value :=
  match peek c (LData n r col j) with Some (VVal v) => v | _ => mk_value R_NONE 0 None end.
(** The cell holds one of the instructions of ladder logic, with operands that have values. *)
Definition logic_cell (c : ctx) (n r col : nat) : Prop :=
  let v := arg c n r col 0 in
  let w := arg c n r col 1 in
  match code_at c n r col with
  | I_NOP | I_CONN | I_NEG | I_MULTI => True
  | I_NO | I_NC => operand_at c n r col 0 v /\ has_value c v
  | I_RE | I_FE => operand_at c n r col 0 v /\ has_value c v /\ had_value c v
  | I_COIL => operand_at c n r col 0 v
  | I_COILL | I_COILU => operand_at c n r col 0 v /\ had_value c v
  | I_EQ | I_NE | I_GT | I_GE | I_LT | I_LE =>
      operand_at c n r col 0 v /\ operand_at c n r col 1 w /\ has_value c v /\ has_value c w
  | _ => False
  end.
(** All scanned networks are made of such cells. *)
Definition logic_program (c : ctx) : Prop :=
  forall n rows cols r col, scanned c n rows cols -> (r < rows)%nat -> (col < cols)%nat -> logic_cell c n r col.

(** [c'] is [c] after a coil with operand [v] wrote [q]: the register it addresses, if any, is [q] and nothing else
    changed. *)
Definition coil_writes (c : ctx) (v : value) (q : bool) (c' : ctx) : Prop :=
  match target c v with Some l => stored c l (b2z q) c' | None => unchanged c c' end.
(** What the cell (r, col) of network [n] makes of the power [p] on its left, with the registers of [c]: the power [q],
    and the registers of [c']. Empty cells and continuation marks keep the power [own] the cell has. *)
Definition cell_does (c : ctx) (n r col : nat) (p own q : bool) (c' : ctx) : Prop :=
  let v := arg c n r col 0 in
  let w := arg c n r col 1 in
  match code_at c n r col with
  | I_CONN => q = p /\ unchanged c c'
  | I_NEG => q = negb p /\ unchanged c c'
  | I_NO => exists z, reads c v z /\ q = p && negb (z =? 0) /\ unchanged c c'
  | I_NC => exists z, reads c v z /\ q = p && (z =? 0) /\ unchanged c c'
  | I_RE => exists z o, reads c v z /\ prev_reads c v o /\ q = p && negb (z =? 0) && (o =? 0) /\ unchanged c c'
  | I_FE => exists z o, reads c v z /\ prev_reads c v o /\ q = p && (z =? 0) && negb (o =? 0) /\ unchanged c c'
  | I_COIL => q = p /\ coil_writes c v q c'
  | I_COILL => exists o, prev_reads c v o /\ q = negb (o =? 0) || p /\ coil_writes c v q c'
  | I_COILU => exists o, prev_reads c v o /\ q = negb (o =? 0) && negb p /\ coil_writes c v q c'
  | I_EQ | I_NE | I_GT | I_GE | I_LT | I_LE =>
      exists R a b, compares (code_at c n r col) = Some R /\ reads c v a /\ reads c w b
        /\ (q = true <-> p = true /\ R a b) /\ unchanged c c'
  | _ => q = own /\ unchanged c c'
  end.

(** The power of the cells of a network, and the power on the left of a cell. *)
Definition power : Type := nat -> nat -> bool.
Definition all_off : power := fun _ _ => false.
Definition left_of (pw : power) (r col : nat) : bool := match col with O => true | S k => pw r k end.
(** The cells of column [col] in the listed rows are evaluated in this order; [qs] is what they make. *)
Inductive cells_do (n col : nat) (pw : power) : list nat -> ctx -> list bool -> ctx -> Prop :=
| cd_nil c : cells_do n col pw [] c [] c
| cd_cons r rs c c1 c2 q qs :
    cell_does c n r col (left_of pw r col) (pw r col) q c1 -> cells_do n col pw rs c1 qs c2 ->
    cells_do n col pw (r :: rs) c (q :: qs) c2.
(** Power [b] on the listed rows of column [col]. *)
Definition joins (pw : power) (col : nat) (rs : list nat) (b : bool) : power :=
  fun r k => if (k =? col)%nat && existsb (Nat.eqb r) rs then b else pw r k.
(** The steps of a plan: every group is evaluated and all its rows then carry the OR of what its cells made. *)
Inductive steps_do (n : nat) : list step -> ctx -> power -> ctx -> power -> Prop :=
| sd_nil c pw : steps_do n [] c pw c pw
| sd_tick l c pw c' pw' : steps_do n l c pw c' pw' -> steps_do n (Tick :: l) c pw c' pw'
| sd_close l c pw c' pw' : steps_do n l c pw c' pw' -> steps_do n (Close :: l) c pw c' pw'
| sd_run col rs l c c1 c2 pw pw2 qs :
    cells_do n col pw rs c qs c1 -> steps_do n l c1 (joins pw col rs (existsb id qs)) c2 pw2 ->
    steps_do n (Run col rs :: l) c pw c2 pw2.
(** Networks of the program [prog] in order, each starting with all cells off; [P] is the power they end with. *)
Inductive nets_do (prog : ctx) (P : nat -> power) : list nat -> ctx -> ctx -> Prop :=
| nd_nil c : nets_do prog P [] c c
| nd_cons n l c c1 c2 pw :
    steps_do n (plan prog n) c all_off c1 pw -> (forall r col, P n r col = pw r col) -> nets_do prog P l c1 c2 ->
    nets_do prog P (n :: l) c c2.

(** [c'] is [c] apart from the power of cells and the record of the last instruction. *)
Definition same_registers (c c' : ctx) : Prop :=
  changes_only c c' (fun l => (exists n r col, l = LPow n r col) \/ In l [LErr; LLast; LExec]).
(** The power of all cells of the networks scanned in program [prog] is [P]. *)
Definition has_power (prog c : ctx) (P : nat -> power) : Prop :=
  forall n rows cols r col, scanned prog n rows cols -> (r < rows)%nat -> (col < cols)%nat -> powered c n r col (P n r col).

(** What the statements assume of program and machine: ladder logic only, hooks that change nothing, no cron jobs, a
    watchdog limit that is not reached. *)
Record logic_ready (E : env) (c : ctx) (m : Z) : Prop := {
  lr_scan : scan_ready E (fun _ => False) c m;
  lr_cron : peek c LCron = Some (VCron None);
  lr_stores : stores_ok c;
  lr_logic : logic_program c;
  lr_cost : forall n, (n < q_nets (x_q c))%nat -> cost c n <= m }.

(** ** Programs without vertical bars, and programs made of complete groups *)

(** The listed cells are evaluated in this order, each from the power [P] on its left; [Q] is what each makes. *)
Inductive evaluates (P Q : nat -> power) : list (nat * nat * nat) -> ctx -> ctx -> Prop :=
| ev_nil c : evaluates P Q [] c c
| ev_cons n r col l c c1 c2 :
    cell_does c n r col (left_of (P n) r col) false (Q n r col) c1 -> evaluates P Q l c1 c2 ->
    evaluates P Q ((n, r, col) :: l) c c2.
(** Dimensions of a scanned network. *)
Definition size_of (c : ctx) (n : nat) : nat * nat :=
  match peek c (LNet n) with Some (VNet true rows cols) => (rows, cols) | _ => (0, 0)%nat end.
(** All cells in reading order: network by network, row by row, left to right. Rows that begin with a continuation mark
    belong to the instruction above. *)
Definition row_cells (c : ctx) (n r : nat) : list (nat * nat * nat) :=
  if multi (code_at c n r 0) then [] else map (fun col => (n, r, col)) (seq 0 (snd (size_of c n))).
Definition reading_order (c : ctx) : list (nat * nat * nat) :=
  flat_map (fun n => flat_map (row_cells c n) (seq 0 (fst (size_of c n)))) (seq 0 (q_nets (x_q c))).
(** No cell of a scanned network has a vertical bar. *)
Definition no_bars (c : ctx) : Prop :=
  forall n rows cols r col, scanned c n rows cols -> (r < rows)%nat -> (col < cols)%nat -> bar_at c n r col = false.

(** Network [n] from row [g] on is divided into groups of the given heights: in every column the lower rows of a group
    have bars and its first row has none. *)
Fixpoint groups_from (c : ctx) (n cols g : nat) (hs : list nat) : Prop :=
  match hs with
  | [] => True
  | h :: t => (0 < h)%nat
      /\ (forall col, (col < cols)%nat -> bar_at c n g col = false
                      /\ forall i, (0 < i < h)%nat -> bar_at c n (g + i) col = true)
      /\ multi (code_at c n g 0) = false
      /\ groups_from c n cols (g + h) t
  end.
Definition total (hs : list nat) : nat := fold_right Nat.add 0%nat hs.
(** Cells of such a network in order of execution: group by group, column by column, top to bottom. *)
Fixpoint group_cells (n cols g : nat) (hs : list nat) : list (nat * nat * nat) :=
  match hs with
  | [] => []
  | h :: t => flat_map (fun col => map (fun r => (n, r, col)) (seq g h)) (seq 0 cols) ++ group_cells n cols (g + h) t
  end.
(** All rows of a group carry the OR of what its cells made. *)
Fixpoint ors (cols : nat) (pw made : power) (g : nat) (hs : list nat) : Prop :=
  match hs with
  | [] => True
  | h :: t => (forall col i, (col < cols)%nat -> (i < h)%nat -> pw (g + i)%nat col = existsb (fun r => made r col) (seq g h))
              /\ ors cols pw made (g + h) t
  end.

(** ** Contacts in series *)

(** Cells that conduct or not and change nothing. *)
Definition contact (i : ins) : bool :=
  match i with I_CONN | I_NO | I_NC | I_EQ | I_NE | I_GT | I_GE | I_LT | I_LE => true | _ => false end.
(** The contact conducts with the registers of [c]. *)
Definition closed (c : ctx) (n r col : nat) : Prop :=
  let v := arg c n r col 0 in
  let w := arg c n r col 1 in
  match code_at c n r col with
  | I_CONN => True
  | I_NO => exists z, reads c v z /\ z <> 0
  | I_NC => reads c v 0
  | I_EQ | I_NE | I_GT | I_GE | I_LT | I_LE => exists R a b, compares (code_at c n r col) = Some R /\ reads c v a /\ reads c w b /\ R a b
  | _ => False
  end.
(** Network [n] has, from row [g] on, a rung of one row with one branch below it that is joined only at column [k]:
    the lower row has a bar there and nowhere else, and the rows above and below belong to other rungs. *)
Definition joined_at (c : ctx) (n rows cols g k : nat) : Prop :=
  (S g < rows)%nat /\ (0 < k < cols)%nat
  /\ (forall col, (col < cols)%nat -> bar_at c n g col = false /\ bar_at c n (S g) col = (col =? k)%nat
       /\ (S (S g) < rows -> bar_at c n (S (S g)) col = false)%nat)
  /\ multi (code_at c n g 0) = false.
