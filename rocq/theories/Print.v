(** Drawing programs as text: utils/ladder_print.c. What is written to the standard output is the result. *)
From Coq Require Import String Ascii.
From Verif Require Export Json.
Open Scope list_scope.
Open Scope Z_scope.

(** ** Tables, ladder_print.c:50-108, 146 *)

(** fn_symbol[], by instruction code *)
Definition fn_symbol : list (list Z) :=
  map txt ["   "; "---"; "(!)"; "| |"; "|/|"; "-RE"; "-FE"; "( )"; "(L)"; "(U)"; "TON"; "TOF"; "-TP"; "CTU"; "CTD"; "MOV"; "SUB"; "ADD"; "MUL"; "DIV";
           "MOD"; "SHL"; "SHR"; "ROL"; "ROR"; "AND"; "OR-"; "XOR"; "NOT"; "EQ-"; "GT-"; "GE-"; "LT-"; "LE-"; "NE-"; "FGN"; "TMV"; "???"]%string.
(** dt_graph[], by register code *)
Definition dt_graph : list (list Z) :=
  map txt ["--"; " M"; " Q"; " I"; "Cd"; "Cr"; "Td"; "Tr"; "IW"; "QW"; " C"; " T"; " D"; "ST"; "RE"; "??"]%string.
(** basetime_graph[] *)
Definition basetime_graph : list (list Z) := map txt ["ms   "; "10ms "; "100ms"; "seg  "; "min  "]%string.

(** ** Numbers as text *)

Definition gaps (n : nat) : list Z := repeat 32 n.
Definition noughts (n : nat) : list Z := repeat 48 n.
(** %d *)
Definition sdec (z : Z) : list Z := if z <? 0 then 45 :: dec (- z) else dec z.
(** %0nd *)
Definition pad (n : nat) (z : Z) : list Z :=
  let d := dec (Z.abs z) in
  if z <? 0 then 45 :: noughts (n - 1 - length d) ++ d else noughts (n - length d) ++ d.
(** The mantissa [m] rounded to the 24 bits of a float, halves to even. *)
Definition rnd24 (m : Z) : Z :=
  let b := Z.log2 m - 23 in
  if b <=? 0 then m else
  let q := m / 2 ^ b in
  let r := m mod 2 ^ b in
  let q' := if 2 * r <? 2 ^ b then q else if 2 ^ b <? 2 * r then q + 1 else if Z.even q then q else q + 1 in
  q' * 2 ^ b.
(** ladder_print.c:110-144 (ftos) with n = 12 and decimals = 2, the only way it is called; the float is given by its pattern.
    Above 999999.99f, which is 1000000, the text OVF. The fraction is computed in float: [fr] over 2^[k] exactly, times 100
    and plus one half with rounding. powf(10, 2) is taken to be 100. Conversion of NaN to int is undefined. *)
Definition ftos (raw : Z) : res (list Z) :=
  let p := u32 raw in
  let neg := 2 ^ 31 <=? p in
  let a := p mod 2 ^ 31 in
  if 2139095040 <? a then Bad UB_float else
  if 1232348160 <? a then Ok (txt "OVF     ") else
  let e := a / 2 ^ 23 in
  let m := if e =? 0 then a else 2 ^ 23 + a mod 2 ^ 23 in
  let k := if e =? 0 then 149 else 150 - e in
  let whole := m / 2 ^ k in
  let fr := m mod 2 ^ k in
  let g := rnd24 (rnd24 (100 * fr) + 2 ^ (k - 1)) in
  let '(whole, g) := if 100 * 2 ^ k <=? g then (whole + 1, g - 100 * 2 ^ k) else (whole, g) in
  Ok (firstn 11 (sdec (if neg then - whole else whole) ++ 46 :: pad 2 (g / 2 ^ k) ++ gaps 2)).

(** ** Figures, ladder_print.c:148-383 *)

(** snprintf into 32 bytes *)
Definition cut (s : list Z) : list Z := firstn 31 s.
(** ladder.h:627-630 (LADDER_VERTICAL_BAR); the context and the number of the network are always valid here. *)
Definition vertical_bar (nt : network) (r col : nat) : res bool :=
  if (r <? n_rows nt)%nat && (col <? n_cols nt)%nat then let? x := cell_in nt r col in Ok (c_bar x) else Ok false.
(** The bar of the cell below, ladder_print.c:45-48; the comparison is unsigned. *)
Definition bar_below (nt : network) (r col : nat) : res bool :=
  if u32 (Z.of_nat (n_rows nt) - 2) <? Z.of_nat r then Ok false else vertical_bar nt (S r) col.
(** ladder_print.c:45-46 *)
Definition pin_out (nt : network) (r col : nat) : res (list Z) :=
  let? b := vertical_bar nt r col in
  let? b := (if b then Ok true else bar_below nt r col) in
  Ok (txt (if b then "-+" else "--")).
(** ladder_print.c:48 *)
Definition space_bar (nt : network) (r col : nat) : res (list Z) :=
  let? b := bar_below nt r col in Ok (txt (if b then "|" else " ")).
Definition type_graph (v : value) : res (list Z) := lget dt_graph (reg_code (v_type v)).
Definition cstr_of (v : value) : res (list Z) := match v_str v with Some s => Ok (firstn 10 s) | None => Bad UB_null end.
(** strtmp for inputs, outputs and reals *)
Definition small_text (v : value) : res (list Z) :=
  match v_type v with R_R => ftos (v_raw v) | _ => Ok (sdec (v_module v) ++ 46 :: sdec (v_port v)) end.
(** The second line of an instruction of one row, ladder_print.c:191-223. A text of three characters gets a fourth; there are
    no shorter ones. *)
Definition one_row_line (i : ins) (dq : nat) (data : option (list value)) (sb : list Z) : res (list Z) :=
  if (dq =? 0)%nat then Ok (gaps 18 ++ sb) else
  let? v := pget data 0 in
  match v_type v with
  | R_S => let? s := cstr_of v in Ok (gaps 5 ++ s ++ gaps 3 ++ sb)
  | R_I | R_Q | R_R =>
      let? s := small_text v in
      let? g := type_graph v in
      Ok (gaps 5 ++ g ++ gaps 1 ++ (if (length s <? 4)%nat then s ++ gaps 1 else s) ++ gaps 6 ++ sb)
  | _ =>
      match i with
      | I_CONN => Ok (gaps 18 ++ sb)
      | _ => let? g := type_graph v in Ok (gaps 5 ++ g ++ gaps 1 ++ pad 4 (i32 (v_raw v)) ++ gaps 6 ++ sb)
      end
  end.
(** An operand in a box: ladder_print.c:230-252, 268-291, 305-322, 325-345 and, with a [gap] of 1 behind inputs, outputs and
    reals, 348-365. The branch for CONN (line 247) cannot be reached, it has one row. *)
Definition box (left right : list Z) (gap : nat) (v : value) : res (list Z) :=
  match v_type v with
  | R_S => let? s := cstr_of v in Ok (left ++ txt "| " ++ s ++ txt " |" ++ right)
  | R_I | R_Q | R_R =>
      let? s := small_text v in
      let? g := type_graph v in
      Ok (left ++ txt "| " ++ g ++ gaps 1 ++ s ++ gaps gap ++ txt "|" ++ right)
  | _ => let? g := type_graph v in Ok (left ++ txt "| " ++ g ++ gaps 1 ++ pad 4 (i32 (v_raw v)) ++ gaps 4 ++ txt "|" ++ right)
  end.
Definition timer_ins (i : ins) : bool := match i with I_TON | I_TOF | I_TP => true | _ => false end.
(** ladder_print.c:255-267 *)
Definition timer_line (left right : list Z) (v : value) : list Z :=
  let t := reg_code (v_type v) in
  let bt := if (0 <=? t) && (t <=? 4) then nth (Z.to_nat t) basetime_graph [] else txt "INV   " in
  left ++ txt "| " ++ pad 4 (i32 (v_raw v)) ++ gaps 1 ++ bt ++ txt " |" ++ right.
Definition edge_of (b : bool) : list Z := if b then gaps 3 else txt "---".
(** ladder_print.c:190-383: the lines below the first, by the number of rows. *)
Definition lower_lines (i : ins) (d : iocd) (nt : network) (r col : nat) (x : cell) : res (list (list Z)) :=
  match d_cells d with
  | 1%nat =>
      let? sb := space_bar nt r col in
      let? l := one_row_line i (c_dq x) (c_data x) sb in Ok [l]
  | 2%nat =>
      if u32 (Z.of_nat (n_rows nt) - 1) <? Z.of_nat r then Ok [] else
      let? po := (if (d_out d =? 1)%nat then Ok (gaps 2) else pin_out nt r col) in
      let? ls := (if (c_dq x =? 0)%nat then Ok [gaps 19; gaps 19] else
        let? v0 := pget (c_data x) 0 in
        let? l1 := box (gaps 3) (gaps 2) 4 v0 in
        let? v1 := pget (c_data x) 1 in
        let? l2 := (if timer_ins i then Ok (timer_line (edge_of (d_in d =? 1)%nat) po v1) else box (edge_of (d_in d =? 1)%nat) po 4 v1) in
        Ok [l1; l2]) in
      let? sb := space_bar nt r col in
      Ok (ls ++ [txt "   +------------+ " ++ sb])
  | 3%nat =>
      if u32 (Z.of_nat (n_rows nt) - 3) <? Z.of_nat r then Ok [] else
      let? po := pin_out nt r col in
      let? ls := (if (c_dq x =? 0)%nat then Ok [gaps 19; gaps 19; gaps 19] else
        let? v0 := pget (c_data x) 0 in
        let? l1 := box (gaps 3) (gaps 2) 4 v0 in
        let? v1 := pget (c_data x) 1 in
        let? l2 := box (edge_of (d_in d <? 2)%nat) (if (d_out d <? 2)%nat then gaps 2 else po) 4 v1 in
        let? v2 := pget (c_data x) 2 in
        let? l3 := box (gaps 3) (gaps 2) 1 v2 in
        Ok [l1; l2; l3]) in
      let? sb := space_bar nt r col in
      Ok (ls ++ [edge_of (d_in d <? 3)%nat ++ txt "|            |" ++ (if (d_out d <? 3)%nat then gaps 2 else po); txt "   +------------+ " ++ sb])
  | _ => Ok []
  end.
(** ladder_print.c:148-383 (fn_to_str): up to six lines, and whether the word MULTI is written at once. The names of foreign
    functions are not part of the context of the model, [fname] gives them (as terminated strings). *)
Definition fn_to_str (fname : nat -> list Z) (fo : foreign) (nt : network) (r col : nat) : res (bool * list (list Z)) :=
  let? x := cell_in nt r col in
  match c_code x with
  | I_NOP =>
      let? b := vertical_bar nt r col in
      Ok (false, [gaps 18 ++ txt (if b then "+" else " "); gaps 19])
  | I_MULTI => Ok (true, [txt "---+-ERR MULTI--+--"; txt "---++++++++++++++--"])
  | I_FOREIGN =>
      let? v := pget (c_data x) 0 in
      let id := u32 (v_raw v) in
      let? d := pget (fo_fn fo) id in
      let? po := pin_out nt r col in
      let unknown := Z.of_nat (fo_qty fo) <=? id in
      let name := if unknown then txt "FN?" else match fname (Z.to_nat id) with [] => txt "FN?" | s => s end in
      let first := txt "---+-" ++ name ++ txt "--------+" ++ po in
      if unknown then Ok (false, map cut [first]) else
      let? ls := lower_lines I_FOREIGN (f_iocd d) nt r col x in Ok (false, map cut (first :: ls))
  | i =>
      let? d := fn_iocd i in
      let? sy := lget fn_symbol (ins_code i) in
      let? po := pin_out nt r col in
      let first := if (d_cells d =? 1)%nat then txt "--------" ++ sy ++ txt "------" ++ po else txt "---+-" ++ sy ++ txt "--------+" ++ po in
      let? ls := lower_lines i d nt r col x in Ok (false, map cut (first :: ls))
  end.

(** ** Networks, ladder_print.c:385-446 *)

(** NET_STR: two texts of 31 characters for each of (rows + 3) x (cols + 3) cells; a text that is empty starts with zero. *)
Definition room (cols r c l : nat) : Z := Z.of_nat ((r * (cols + 3) + c) * 2 + l).
(** strncpy of line [j] of a figure *)
Definition put_line (cols r c l : nat) (fig : list (list Z)) (j : nat) (b : list (list Z)) : res (list (list Z)) :=
  let? p := pset (Some b) (room cols r c l) (nth j fig []) in Ok (match p with Some b => b | None => [] end).
(** ladder_print.c:412-423 *)
Definition draw_cell (fname : nat -> list Z) (fo : foreign) (nt : network) (st : list (list Z) * list Z) (rc : nat * nat) : res (list (list Z) * list Z) :=
  let '(r, c) := rc in
  let '(b, out) := st in
  let cols := n_cols nt in
  let? s := lget b (room cols r c 0) in
  match s with
  | _ :: _ => Ok st
  | [] =>
      let? p := fn_to_str fname fo nt r c in let '(m, fig) := p in
      let? b := put_line cols r c 0 fig 0 b in
      let? b := put_line cols r c 1 fig 1 b in
      let? b := put_line cols (r + 1) c 0 fig 2 b in
      let? b := put_line cols (r + 1) c 1 fig 3 b in
      let? b := put_line cols (r + 2) c 0 fig 4 b in
      let? b := put_line cols (r + 2) c 1 fig 5 b in
      Ok (b, out ++ (if m : bool then txt "MULTI" ++ [10] else []))
  end.
Fixpoint each {S A} (f : S -> A -> res S) (l : list A) (s : S) : res S :=
  match l with [] => Ok s | a :: l => let? s := f s a in each f l s end.
(** The cells in the order they are visited. *)
Definition places_of (nt : network) : list (nat * nat) := flat_map (fun r => map (fun c => (r, c)) (seq 0 (n_cols nt))) (seq 0 (n_rows nt)).
(** ladder_print.c:427-431, 433-437: one text of a cell; gaps for an empty one. *)
Definition show_slot (b : list (list Z)) (cols r l : nat) (out : list Z) (c : nat) : res (list Z) :=
  let? s := lget b (room cols r c l) in Ok (out ++ match s with [] => gaps 19 | _ => s end).
(** ladder_print.c:425-439 *)
Definition show_row (b : list (list Z)) (cols : nat) (out : list Z) (r : nat) : res (list Z) :=
  let? out := each (show_slot b cols r 0) (seq 0 cols) (out ++ txt "    |") in
  let? out := each (show_slot b cols r 1) (seq 0 cols) (out ++ txt "|" ++ [10] ++ txt "    |") in
  Ok (out ++ txt "|" ++ [10]).
(** ladder_print.c:389-445; [al] tells whether the text buffer of the network is allocated. *)
Definition print_network (fname : nat -> list Z) (al : nat -> bool) (c : ctx) (out : list Z) (n : nat) : res (list Z) :=
  let? nt := net_at n c in
  let rows := n_rows nt in
  let cols := n_cols nt in
  if (32 <? rows)%nat || (255 <? cols)%nat then
    Ok (out ++ txt "Error: Network " ++ sdec (i32 (Z.of_nat n)) ++ txt " dimensions (" ++ dec (Z.of_nat rows) ++ txt " rows, " ++ dec (Z.of_nat cols)
         ++ txt " cols) exceed maximum limits (32 rows, 255 cols). Skipping print." ++ [10])
  else if negb (al n) then
    Ok (out ++ txt "Error: Failed to allocate memory for network " ++ sdec (i32 (Z.of_nat n)) ++ txt " print (size: " ++ dec (Z.of_nat ((rows + 3) * (cols + 3) * 64))
         ++ txt " bytes). Skipping." ++ [10])
  else
    let head := txt "[Network " ++ sdec (i32 (Z.of_nat n)) ++ txt " (" ++ txt (if n_en nt then "enabled" else "disabled") ++ txt ")]" ++ [10; 10] in
    let? p := each (draw_cell fname (x_for c) nt) (places_of nt) (repeat [] ((rows + 3) * (cols + 3) * 2), out ++ head) in let '(b, out) := p in
    let? out := each (show_row b cols) (seq 0 rows) out in
    Ok (out ++ [10; 10]).
(** ladder_print.c:385-446 *)
Definition ladder_print (fname : nat -> list Z) (al : nat -> bool) (c : ctx) : res (list Z) :=
  each (print_network fname al c) (seq 0 (q_nets (x_q c))) [].
