(** Vocabulary for the drawing of programs as text: what the reader of the drawing finds where. *)
From Coq Require Import String.
From Verif Require Export Print SpecCheck SpecJson.
Open Scope list_scope.
Open Scope Z_scope.

(** ** Texts *)

(** The text [s] stands [k] characters behind the start of [p]. *)
Definition stands_at (p : list Z) (k : nat) (s : list Z) : Prop := exists a b, p = a ++ s ++ b /\ length a = k.
(** Figures with or without a minus sign. *)
Definition decimal (s : list Z) (z : Z) : Prop :=
  (0 <= z /\ figures s /\ figures_value s = z) \/ (z < 0 /\ exists ds, s = 45 :: ds /\ figures ds /\ figures_value ds = - z).
(** The symbol of an instruction. *)
Definition symbol_of (i : ins) : string :=
  match i with
  | I_NOP => "   " | I_CONN => "---" | I_NEG => "(!)" | I_NO => "| |" | I_NC => "|/|" | I_RE => "-RE" | I_FE => "-FE"
  | I_COIL => "( )" | I_COILL => "(L)" | I_COILU => "(U)" | I_TON => "TON" | I_TOF => "TOF" | I_TP => "-TP" | I_CTU => "CTU" | I_CTD => "CTD"
  | I_MOVE => "MOV" | I_SUB => "SUB" | I_ADD => "ADD" | I_MUL => "MUL" | I_DIV => "DIV" | I_MOD => "MOD" | I_SHL => "SHL" | I_SHR => "SHR"
  | I_ROL => "ROL" | I_ROR => "ROR" | I_AND => "AND" | I_OR => "OR-" | I_XOR => "XOR" | I_NOT => "NOT" | I_EQ => "EQ-" | I_GT => "GT-"
  | I_GE => "GE-" | I_LT => "LT-" | I_LE => "LE-" | I_NE => "NE-" | I_FOREIGN => "FGN" | I_TMOVE => "TMV" | I_INV => "???"
  | I_MULTI | I_OTHER _ => ""
  end%string.
Definition type_name (t : reg) : string :=
  match t with
  | R_NONE => "--" | R_M => " M" | R_Q => " Q" | R_I => " I" | R_Cd => "Cd" | R_Cr => "Cr" | R_Td => "Td" | R_Tr => "Tr" | R_IW => "IW" | R_QW => "QW"
  | R_C => " C" | R_T => " T" | R_D => " D" | R_S => "ST" | R_R => "RE" | R_INV => "??" | R_OTHER _ => ""
  end%string.
Definition base_name (t : reg) : string :=
  match basetime t with Some 1 => "ms" | Some 10 => "10ms" | Some 100 => "100ms" | Some 1000 => "seg" | Some 60000 => "min" | _ => "INV" end%string.

(** ** Operands *)

(** What is written for an operand: the first ten characters of a string, module and port, or a number. Reals: see C60. *)
Definition operand_shown (v : value) (s : list Z) : Prop :=
  match v_type v with
  | R_S => exists t, v_str v = Some t /\ s = firstn 10 t
  | R_I | R_Q => exists a b, decimal a (v_module v) /\ decimal b (v_port v) /\ s = txt (type_name (v_type v)) ++ 32 :: a ++ 46 :: b
  | R_R => exists a, ftos (v_raw v) = Ok a /\ s = txt (type_name R_R) ++ 32 :: a
  | t => exists a, decimal a (i32 (v_raw v)) /\ (4 <= length a)%nat /\ s = txt (type_name t) ++ 32 :: a
  end.
(** The time of a timer: a number and the name of its base. *)
Definition time_shown (v : value) (s : list Z) : Prop :=
  exists a, decimal a (i32 (v_raw v)) /\ (4 <= length a)%nat /\ s = a ++ 32 :: txt (base_name (v_type v)).
(** The operand can be written: a string is there, a real is a number, and the type is one of the enumeration. *)
Definition writable (v : value) : Prop :=
  match v_type v with
  | R_S => v_str v <> None
  | R_R => u32 (v_raw v) mod 2 ^ 31 <= 2139095040
  | R_OTHER _ => False
  | _ => True
  end.
(** The operand takes as many characters as its place has: numbers of at most four characters. Operand [d] of an instruction
    of [h] rows. *)
Definition narrow (i : ins) (h d : nat) (v : value) : Prop :=
  if timer_code i && (d =? 1)%nat then -999 <= i32 (v_raw v) <= 9999 /\ basetime (v_type v) <> None else
  match v_type v with
  | R_S => exists t, v_str v = Some t /\ (10 <= length t)%nat
  | R_R => False
  | R_I | R_Q => match h with
                 | 1%nat => v_module v < 10 /\ v_port v < 100 \/ v_module v < 100 /\ v_port v < 10
                 | _ => (d < 2)%nat /\ (v_module v < 10 /\ 10 <= v_port v < 100 \/ 10 <= v_module v < 100 /\ v_port v < 10)
                        \/ (d = 2)%nat /\ 100 <= v_module v /\ 100 <= v_port v
                 end
  | _ => -999 <= i32 (v_raw v) <= 9999
  end.

(** ** Programs that can be drawn *)

(** How many rows the figure of the cell takes; [None] for codes outside the table. *)
Definition figure_rows (c : ctx) (n r col : nat) : option nat :=
  match code_at c n r col with
  | I_MULTI => Some 1%nat
  | I_FOREIGN => option_map (fun d => d_cells (f_iocd d)) (elem (fo_fn (x_for c)) (ix (u32 (v_raw (arg c n r col 0)))))
  | i => option_map fst (documented i)
  end.
(** The cell exists and holds an instruction or a continuation; a foreign function is registered; if there are operands, there
    is one for each of the up to three rows, and it can be written. *)
Definition drawable (c : ctx) (n r col : nat) : Prop :=
  exists bar i dq h, peek c (LCell n r col) = Some (VCell bar i dq) /\ figure_rows c n r col = Some h
    /\ (i = I_FOREIGN -> has_operand c n r col 0)
    /\ (i <> I_NOP -> i <> I_MULTI -> (0 < dq)%nat -> (h <= 3)%nat ->
          forall d, (d < h)%nat -> exists v, peek c (LData n r col d) = Some (VVal v) /\ (writable v \/ (d = 1)%nat /\ timer_code i = true)).
(** Larger networks are not drawn. *)
Definition small (rows cols : nat) : Prop := (rows <= 32)%nat /\ (cols <= 255)%nat.
Definition printable (c : ctx) : Prop :=
  forall n, (n < q_nets (x_q c))%nat -> exists en rows cols, peek c (LNet n) = Some (VNet en rows cols)
    /\ (small rows cols -> forall r col, (r < rows)%nat -> (col < cols)%nat -> drawable c n r col).

(** ** The drawing *)

(** [P n r l col] is the text of line [l] (0 or 1) of row [r] in column [col] of network [n]. *)
Definition picture : Type := nat -> nat -> nat -> nat -> list Z.
Definition line_text (ps : list (list Z)) : list Z := txt "    |" ++ concat ps ++ txt "|" ++ [10].
Definition network_drawing (c : ctx) (P : picture) (n : nat) (t : list Z) : Prop :=
  exists en rows cols s, peek c (LNet n) = Some (VNet en rows cols) /\ decimal s (Z.of_nat n)
    /\ t = txt "[Network " ++ s ++ txt (if en then " (enabled)]" else " (disabled)]") ++ [10; 10]
           ++ flat_map (fun r => line_text (map (P n r 0%nat) (seq 0 cols)) ++ line_text (map (P n r 1%nat) (seq 0 cols))) (seq 0 rows) ++ [10; 10].
(** The networks one below the other. *)
Definition drawing (c : ctx) (P : picture) (t : list Z) : Prop :=
  exists ts, Forall2 (network_drawing c P) (seq 0 (q_nets (x_q c))) ts /\ t = concat ts.
(** Line number [k] of the figure of the instruction at (r, col), counted from the top. *)
Definition figure_line (P : picture) (n r col k : nat) : list Z := P n (r + k / 2)%nat (k mod 2)%nat col.
Definition bar_on (c : ctx) (n r col : nat) : Prop := exists i dq, peek c (LCell n r col) = Some (VCell true i dq) /\ exists en rows cols, peek c (LNet n) = Some (VNet en rows cols) /\ (r < rows)%nat /\ (col < cols)%nat.
(** The instruction [i] of [h] rows at (r, col) is shown: its symbol in the first line, in the middle if it has one row and
    at the edge of a box otherwise; behind the line a mark if a bar is set here or in the row below; operand [d] in line
    d + 1; below an instruction of one row a bar if one is set in the row below; and all lines have 19 characters if the
    operands are narrow. *)
Record instruction_shown (c : ctx) (P : picture) (n r col : nat) (i : ins) (h : nat) : Prop := {
  is_symbol : i <> I_FOREIGN -> stands_at (figure_line P n r col 0) (if (h =? 1)%nat then 8 else 5) (txt (symbol_of i));
  is_operands : i <> I_CONN -> i <> I_NOP -> forall d v, (d < h)%nat -> operand_at c n r col d v ->
    exists s, (if timer_code i && (d =? 1)%nat then time_shown v s else operand_shown v s) /\ stands_at (figure_line P n r col (d + 1)) 5 s;
  is_mark : i <> I_NOP -> i <> I_FOREIGN -> (bar_on c n r col \/ bar_on c n (S r) col) <-> stands_at (figure_line P n r col 0) 18 (txt "+");
  is_bar : i <> I_NOP -> i <> I_FOREIGN -> h = 1%nat -> (forall v, peek c (LData n r col 0) = Some (VVal v) -> narrow i 1 0 v) ->
    bar_on c n (S r) col <-> stands_at (figure_line P n r col 1) 18 (txt "|");
  is_width : i <> I_FOREIGN -> (forall d v, (d < h)%nat -> peek c (LData n r col d) = Some (VVal v) -> narrow i h d v) ->
    forall k, (k < 2 * h)%nat -> length (figure_line P n r col k) = 19%nat }.
(** All instructions are shown. *)
Definition shows (c : ctx) (P : picture) : Prop :=
  forall n en rows cols r col h, (n < q_nets (x_q c))%nat -> peek c (LNet n) = Some (VNet en rows cols) -> (r < rows)%nat -> (col < cols)%nat ->
    takes c n r col h -> instruction_shown c P n r col (code_at c n r col) h.
(** All networks are small enough, their numbers fit into int, and no foreign function takes more than three rows, or none. *)
Definition presentable (c : ctx) : Prop :=
  Z.of_nat (q_nets (x_q c)) <= 2 ^ 31
  /\ forall n en rows cols, (n < q_nets (x_q c))%nat -> peek c (LNet n) = Some (VNet en rows cols) ->
       small rows cols /\ forall r col h, (r < rows)%nat -> (col < cols)%nat -> takes c n r col h -> (1 <= h <= 3)%nat.
(** The columns follow the rules for instructions of several rows. *)
Definition columns_follow (c : ctx) : Prop :=
  forall n en rows cols r col, (n < q_nets (x_q c))%nat -> peek c (LNet n) = Some (VNet en rows cols) -> (r < rows)%nat -> (col < cols)%nat -> rows_rule c n rows r col.
(** All operands are narrow, and there are no foreign functions. *)
Definition all_narrow (c : ctx) : Prop :=
  forall n r col h d v, program_cell c n r col -> takes c n r col h ->
    code_at c n r col <> I_FOREIGN /\ ((d < h)%nat -> peek c (LData n r col d) = Some (VVal v) -> narrow (code_at c n r col) h d v).
(** Two lines of a network, one below the other, are not of the same length. *)
Definition ragged (t : list Z) : Prop :=
  exists a p1 p2 b, t = a ++ line_text [p1] ++ line_text [p2] ++ b /\ ~ In 10 p1 /\ ~ In 10 p2 /\ length p1 <> length p2.
(** The text of a real number of whole part [w] and hundredths [f], with a minus sign or without: the figures of [w], a point, two
    figures of [f], spaces. *)
Definition real_text (minus : bool) (w f : Z) (s : list Z) : Prop :=
  exists a b z, s = (if minus then [45] else []) ++ a ++ [46] ++ b ++ z
    /\ figures a /\ figures_value a = w /\ figures b /\ figures_value b = f /\ length b = 2%nat /\ (forall x, In x z -> x = 32).
(** The magnitude of m * 2^e, for e < 0, is w and f hundredths up to half a hundredth and 1/131072 of one. *)
Definition nearest_hundredth (m e w f : Z) : Prop :=
  0 <= w /\ 0 <= f < 100 /\ 2 ^ 17 * Z.abs (100 * Z.abs m - (100 * w + f) * 2 ^ (- e)) <= (2 ^ 16 + 1) * 2 ^ (- e).
