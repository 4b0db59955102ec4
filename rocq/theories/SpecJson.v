(** Vocabulary for statements about programs saved as and loaded from JSON: what the texts in a document stand for, given
    without reference to how the loader finds out. *)
From Coq Require Import String.
From Verif Require Export Json SpecGen.
Open Scope list_scope.
Open Scope Z_scope.

(** ** Members and numbers *)

(** [v] is the member named [k] of the object [j]; if there are several, the first. *)
Definition member_is (j : json) (k : string) (v : json) : Prop :=
  exists a b, j = JObj (a ++ (txt k, v) :: b) /\ ~ In (txt k) (map fst a).
Definition string_is (j : json) (k : string) (s : list Z) : Prop := member_is j k (JStr s).
(** [n] is the number [d] without its fraction [f / 2^-e]. *)
Definition truncates (d : dbl) (n : Z) : Prop :=
  match d with
  | Fin m e => exists f, m * 2 ^ Z.max e 0 = n * 2 ^ Z.max (- e) 0 + f /\ Z.abs f < 2 ^ Z.max (- e) 0 /\ 0 <= f * m
  | Inf _ => False
  end.
(** The member is a number whose whole part is [n], an unsigned 32-bit number. *)
Definition natural_is (j : json) (k : string) (n : nat) : Prop :=
  exists d, member_is j k (JNum d) /\ truncates d (Z.of_nat n) /\ Z.of_nat n < 2 ^ 32.
(** The member, if it is a number, has a whole part that is an unsigned 32-bit number. *)
Definition tame_number (j : json) (k : string) : Prop :=
  forall d, member_is j k (JNum d) -> exists n, truncates d n /\ 0 <= n < 2 ^ 32.

(** ** Numbers as text *)

Definition spaces (w : list Z) : Prop := Forall (fun c => c = 32 \/ 9 <= c <= 13) w.
Definition figures (ds : list Z) : Prop := ds <> [] /\ Forall (fun c => 48 <= c <= 57) ds.
Definition figures_value (ds : list Z) : Z := fold_left (fun v c => 10 * v + (c - 48)) ds 0.
Inductive sign : list Z -> Z -> Prop := sg_none : sign [] 1 | sg_plus : sign [43] 1 | sg_minus : sign [45] (-1).
(** Spaces, a sign and figures are read into 32 bits; numbers of more than 64 bits as the largest. *)
Inductive number_text : list Z -> Z -> Prop :=
| nt_small w sg k ds : spaces w -> sign sg k -> figures ds -> figures_value ds < 2 ^ 64 -> number_text (w ++ sg ++ ds) ((k * figures_value ds) mod 2 ^ 32)
| nt_large w sg k ds : spaces w -> sign sg k -> figures ds -> 2 ^ 64 <= figures_value ds -> number_text (w ++ sg ++ ds) (2 ^ 32 - 1).
(** Also the empty text stands for a number. *)
Definition word_text (s : list Z) (z : Z) : Prop := s = [] /\ z = 0 \/ number_text s z.
(** Module and port with a dot between them. *)
Definition port_text (s : list Z) (m p : Z) : Prop :=
  exists a b, s = a ++ 46 :: b /\ number_text a m /\ number_text b p /\ m <= 255 /\ p <= 255.

(** ** Names *)

Definition symbols : list (string * ins) :=
  [("NOP", I_NOP); ("CONN", I_CONN); ("NEG", I_NEG); ("NO", I_NO); ("NC", I_NC); ("RE", I_RE); ("FE", I_FE); ("COIL", I_COIL); ("COILL", I_COILL);
   ("COILU", I_COILU); ("TON", I_TON); ("TOFF", I_TOF); ("TP", I_TP); ("CTU", I_CTU); ("CTD", I_CTD); ("MOV", I_MOVE); ("SUB", I_SUB); ("ADD", I_ADD);
   ("MUL", I_MUL); ("DIV", I_DIV); ("MOD", I_MOD); ("SHL", I_SHL); ("SHR", I_SHR); ("ROL", I_ROL); ("ROR", I_ROR); ("AND", I_AND); ("OR", I_OR);
   ("XOR", I_XOR); ("NOT", I_NOT); ("EQ", I_EQ); ("GT", I_GT); ("GE", I_GE); ("LT", I_LT); ("LE", I_LE); ("NE", I_NE); ("FOREIGN", I_FOREIGN);
   ("TMOV", I_TMOVE); ("occupied", I_MULTI)]%string.
Definition types : list (string * reg) :=
  [("NONE", R_NONE); ("M", R_M); ("Q", R_Q); ("I", R_I); ("Cd", R_Cd); ("Cr", R_Cr); ("Td", R_Td); ("Tr", R_Tr); ("IW", R_IW); ("QW", R_QW);
   ("C", R_C); ("T", R_T); ("D", R_D); ("CSTR", R_S); ("REAL", R_R)]%string.
(** Time bases share their codes with registers. *)
Definition bases : list (string * reg) := [("MS", R_NONE); ("10MS", R_M); ("100MS", R_Q); ("SEC", R_I); ("MIN", R_Cd)]%string.
(** The second operand of a timer is a time. *)
Definition base_place (i : ins) (d : nat) : Prop := (i = I_TON \/ i = I_TOF \/ i = I_TP) /\ d = 1%nat.
(** How many operands an instruction has; for occupied cells the number is read past the end of its table. *)
Definition operands_of (L : outside) (i : ins) (q : nat) : Prop :=
  match i with
  | I_NOP | I_CONN | I_FOREIGN => q = 0%nat
  | I_NEG | I_NO | I_NC | I_RE | I_FE | I_COIL | I_COILL | I_COILU => q = 1%nat
  | I_TON | I_TOF | I_TP | I_CTU | I_CTD | I_MOVE | I_SHL | I_SHR | I_ROL | I_ROR | I_NOT | I_EQ | I_GT | I_GE | I_LT | I_LE | I_NE => q = 2%nat
  | I_SUB | I_ADD | I_MUL | I_DIV | I_MOD | I_AND | I_OR | I_XOR => q = 3%nat
  | I_TMOVE => q = 5%nat
  | I_MULTI => beyond L = Ok q
  | I_INV | I_OTHER _ => False
  end.

(** ** What a document describes *)

(** A text as value of an operand of type [t]. *)
Inductive stands_for (L : outside) : reg -> list Z -> value -> Prop :=
| sf_string s : stands_for L R_S s (mk_value R_S 0 (Some s))
| sf_real s : stands_for L R_R s (mk_value R_R (i32 (read_f L s)) None)
| sf_port t s m p : t = R_I \/ t = R_Q -> port_text s m p -> stands_for L t s (mk_value t (m + 256 * p) None)
| sf_word t s z : ~ In t [R_S; R_R; R_I; R_Q; R_INV] -> word_text s z -> stands_for L t s (mk_value t (i32 z) None).
(** Operand number [d]: times have a time base and a number; other operands a type, for which the name of a time base is
    accepted too, and a value of that type. *)
Definition operand_text (L : outside) (i : ins) (d : nat) (j : json) (v : value) : Prop :=
  exists nm ty t s, string_is j "name" nm /\ string_is j "type" (txt ty) /\ string_is j "value" s
    /\ (base_place i d /\ In (ty, t) bases /\ (exists z, word_text s z /\ v = mk_value t (i32 z) None)
        \/ ~ base_place i d /\ In (ty, t) (types ++ bases) /\ stands_for L t s v).
Definition cell_text (L : outside) (j : json) (x : cell) : Prop :=
  exists s i b ds vs, string_is j "symbol" (txt s) /\ In (s, i) symbols /\ member_is j "bar" (JBool b) /\ member_is j "data" (JArr ds)
    /\ operands_of L i (length ds) /\ length vs = length ds
    /\ (forall d o v, nth_error ds d = Some o -> nth_error vs d = Some v -> operand_text L i d o v)
    /\ x = mk_cell false b i (length ds) (match ds with [] => None | _ => Some vs end).
Definition row_text (L : outside) (cols : nat) (j : json) (xs : list cell) : Prop :=
  exists cs, j = JArr cs /\ length cs = cols /\ Z.of_nat cols < 2 ^ 31 /\ Forall2 (cell_text L) cs xs.
Definition network_text (L : outside) (j : json) (nt : network) : Prop :=
  exists rows cols rs cells, natural_is j "rows" rows /\ natural_is j "cols" cols /\ member_is j "networkData" (JArr rs)
    /\ length rs = rows /\ Z.of_nat rows < 2 ^ 31 /\ Forall2 (row_text L cols) rs cells /\ nt = mk_network true rows cols (Some cells).
(** The elements of a document describe networks of the program with their positions. *)
Definition describes_networks (L : outside) (nets : nat) (js : list json) (ps : list (nat * network)) : Prop :=
  Forall2 (fun j p => natural_is j "id" (fst p) /\ (fst p < nets)%nat /\ network_text L j (snd p)) js ps.
(** The last description of a network counts. *)
Fixpoint final (ps : list (nat * network)) (n : nat) : option network :=
  match ps with
  | [] => None
  | (k, nt) :: ps => match final ps n with Some x => Some x | None => if (k =? n)%nat then Some nt else None end
  end.

(** The element of the document an allocation is made for. *)
Definition element_of (s : site) : nat := match s with A_cells i | A_row i _ | A_data i _ _ | A_str i _ _ _ => i end.

(** ** Documents that are safe to load *)

(** A cell that is part of an instruction above it. *)
Definition occupied (j : json) : Prop := string_is j "symbol" (txt "occupied").
(** No cell of the rows refers past the end of the table of instructions, or doing so gives a number. *)
Definition within_table (L : outside) (rs : list json) : Prop :=
  (exists q, beyond L = Ok q) \/ forall cs x, In (JArr cs) rs -> In x cs -> ~ occupied x.
(** Numbers fit into 32 bits; a network with rows has as many rows of cells as it says, and a number of columns. *)
Definition tame_element (L : outside) (j : json) : Prop :=
  tame_number j "id" /\ tame_number j "rows" /\ tame_number j "cols"
  /\ (forall r, natural_is j "rows" r -> (0 < r)%nat ->
       Z.of_nat r < 2 ^ 31 /\ exists k rs, natural_is j "cols" k /\ member_is j "networkData" (JArr rs) /\ length rs = r)
  /\ forall rs, member_is j "networkData" (JArr rs) -> within_table L rs.

(** ** Programs *)

(** All networks have their cells, operand arrays are as long as the counts say, and all rows exist. *)
Definition releasable (c : ctx) : Prop :=
  whole_program c
  /\ forall n en rows cols r, (n < q_nets (x_q c))%nat -> peek c (LNet n) = Some (VNet en rows cols) -> (r < rows)%nat -> peek c (LRowLen n r) <> None.
(** The places of network [n]. *)
Definition network_place (n : nat) (l : loc) : Prop :=
  l = LNet n \/ l = LRows n \/ (exists r, l = LRowLen n r) \/ exists r col, cell_place n r col l.
(** An empty cell. *)
Definition blank (c : ctx) (n r col : nat) : Prop :=
  powered c n r col false /\ peek c (LDataLen n r col) = None /\ exists dq, peek c (LCell n r col) = Some (VCell false I_NOP dq).
(** All cells of the program are empty. *)
Definition emptied (c : ctx) : Prop := forall n r col, program_cell c n r col -> blank c n r col.

(** ** Programs that can be saved *)

(** The cells of the program have the operands their counts say. *)
Definition has_operands (c : ctx) : Prop :=
  forall n r col bar i dq d, program_cell c n r col -> peek c (LCell n r col) = Some (VCell bar i dq) -> (d < dq)%nat -> peek c (LData n r col d) <> None.
(** No operand is a string; the time of a timer is written as a number whatever its type. *)
Definition no_strings (c : ctx) : Prop :=
  forall n r col bar i dq d v, program_cell c n r col -> peek c (LCell n r col) = Some (VCell bar i dq) -> operand_at c n r col d v -> ~ base_place i d -> v_type v <> R_S.
(** Numbers of networks, rows and columns below 2^31. *)
Definition moderate (c : ctx) : Prop :=
  Z.of_nat (q_nets (x_q c)) < 2 ^ 31
  /\ forall n en rows cols, (n < q_nets (x_q c))%nat -> peek c (LNet n) = Some (VNet en rows cols) -> Z.of_nat rows < 2 ^ 31 /\ Z.of_nat cols < 2 ^ 31.
(** Types that are written under a name the loader knows: time bases except milliseconds, and all but constants, strings
    and invalid types elsewhere; constants only as preset of a counter. *)
Definition nameable (i : ins) (d : nat) (t : reg) : Prop :=
  base_place i d /\ In t [R_M; R_Q; R_I; R_Cd]
  \/ ~ base_place i d /\ (In t [R_M; R_Q; R_I; R_Cd; R_Cr; R_Td; R_Tr; R_IW; R_QW; R_C; R_T; R_D; R_R] \/ t = R_NONE /\ (i = I_CTU \/ i = I_CTD) /\ d = 1%nat).
(** Known instructions, with their number of operands, all of nameable types. *)
Definition storable (L : outside) (c : ctx) : Prop :=
  forall n r col bar i dq, program_cell c n r col -> peek c (LCell n r col) = Some (VCell bar i dq) ->
    operands_of L i dq /\ forall d v, operand_at c n r col d v -> nameable i d (v_type v).
(** All reals of the program are read back from the text they are written as. *)
Definition reals_kept (L : outside) (c : ctx) : Prop :=
  forall n r col d v, program_cell c n r col -> operand_at c n r col d v -> v_type v = R_R -> u32 (read_f L (firstn 31 (print_f L (u32 (v_raw v))))) = u32 (v_raw v).
(** Operands that mean the same: of inputs and outputs only module and port are used. *)
Definition same_operand (i : ins) (d : nat) (v v' : value) : Prop :=
  v_type v' = v_type v
  /\ (base_place i d -> v_raw v' mod 2 ^ 32 = v_raw v mod 2 ^ 32)
  /\ (~ base_place i d ->
       match v_type v with
       | R_I | R_Q => v_raw v' mod 2 ^ 16 = v_raw v mod 2 ^ 16
       | R_S => v_str v' = v_str v
       | _ => v_raw v' mod 2 ^ 32 = v_raw v mod 2 ^ 32
       end).
(** The networks have the same sizes, bars, instructions and operands. *)
Definition same_program (c c' : ctx) : Prop :=
  q_nets (x_q c') = q_nets (x_q c)
  /\ forall n en rows cols, (n < q_nets (x_q c))%nat -> peek c (LNet n) = Some (VNet en rows cols) ->
    (exists en', peek c' (LNet n) = Some (VNet en' rows cols))
    /\ forall r col bar i dq, (r < rows)%nat -> (col < cols)%nat -> peek c (LCell n r col) = Some (VCell bar i dq) ->
         peek c' (LCell n r col) = Some (VCell bar i dq)
         /\ forall d v, operand_at c n r col d v -> exists v', operand_at c' n r col d v' /\ same_operand i d v v'.
(** A cell of the program is part of an instruction above it. *)
Definition has_occupied (c : ctx) : Prop := exists n r col bar dq, program_cell c n r col /\ peek c (LCell n r col) = Some (VCell bar I_MULTI dq).
(** An operand is a constant that is not the preset of a counter, or a time in milliseconds. *)
Definition has_constant (c : ctx) : Prop :=
  exists n r col bar i dq d v, program_cell c n r col /\ peek c (LCell n r col) = Some (VCell bar i dq) /\ operand_at c n r col d v /\ v_type v = R_NONE
    /\ ~ ((i = I_CTU \/ i = I_CTD) /\ d = 1%nat).
