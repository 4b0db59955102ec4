(** Saving and loading programs as JSON: utils/ladder_program_json.c:49-236 and 603-1056. The text of a file is not
    modelled: printing and parsing is done by the cJSON library, so a file is the tree that cJSON prints or parses. When
    saving, allocations are assumed to succeed (the functions return an error code when one fails). *)
From Coq Require Import String Ascii.
From Verif Require Export General.
Open Scope list_scope.
Open Scope Z_scope.

(** ** JSON trees *)

(** A finite double is m * 2^e; the parser produces no other values except infinities. *)
Inductive dbl : Type := Fin (m e : Z) | Inf (neg : bool).
(** cJSON items. Strings are bytes without their terminator. *)
Inductive json : Type :=
| JNull | JBool (b : bool) | JNum (d : dbl) | JStr (s : list Z) | JArr (l : list json) | JObj (l : list (list Z * json)).
(** The bytes of a literal. *)
Definition txt (s : string) : list Z := map (fun a => Z.of_nat (nat_of_ascii a)) (list_ascii_of_string s).
(** strcmp(a, b) == 0 *)
Fixpoint same_text (a b : list Z) : bool :=
  match a, b with
  | [], [] => true
  | x :: a, y :: b => (x =? y) && same_text a b
  | _, _ => false
  end.
(** cJSON_GetObjectItemCaseSensitive: the first member with that name. *)
Fixpoint find_member (l : list (list Z * json)) (k : list Z) : option json :=
  match l with [] => None | (k', v) :: l => if same_text k k' then Some v else find_member l k end.
Definition member (k : list Z) (j : json) : option json := match j with JObj l => find_member l k | _ => None end.
(** Conversion of a double to an integer type with values from [lo] to [hi]: towards zero, undefined outside. *)
Definition dbl_trunc (d : dbl) (lo hi : Z) : res Z :=
  match d with
  | Fin m e =>
      let z := if 0 <=? e then m * 2 ^ e else Z.quot m (2 ^ (- e)) in
      if (lo <=? z) && (z <=? hi) then Ok z else Bad UB_float
  | Inf _ => Bad UB_float
  end.
Definition int_num (z : Z) : json := JNum (Fin z 0).

(** ** Tables, ladder_program_json.c:49-113 *)

(** str_symbol[], by instruction code *)
Definition str_symbol : list (list Z) :=
  map txt ["NOP"; "CONN"; "NEG"; "NO"; "NC"; "RE"; "FE"; "COIL"; "COILL"; "COILU"; "TON"; "TOFF"; "TP"; "CTU"; "CTD"; "MOV"; "SUB"; "ADD"; "MUL"; "DIV";
           "MOD"; "SHL"; "SHR"; "ROL"; "ROR"; "AND"; "OR"; "XOR"; "NOT"; "EQ"; "GT"; "GE"; "LT"; "LE"; "NE"; "FOREIGN"; "TMOV"; "INV"; "occupied"]%string.
Definition all_codes : list ins :=
  [I_NOP; I_CONN; I_NEG; I_NO; I_NC; I_RE; I_FE; I_COIL; I_COILL; I_COILU; I_TON; I_TOF; I_TP; I_CTU; I_CTD; I_MOVE; I_SUB; I_ADD; I_MUL; I_DIV;
   I_MOD; I_SHL; I_SHR; I_ROL; I_ROR; I_AND; I_OR; I_XOR; I_NOT; I_EQ; I_GT; I_GE; I_LT; I_LE; I_NE; I_FOREIGN; I_TMOVE; I_INV; I_MULTI].
(** str_types[], by register code *)
Definition str_types : list (list Z) :=
  map txt ["NONE"; "M"; "Q"; "I"; "Cd"; "Cr"; "Td"; "Tr"; "IW"; "QW"; "C"; "T"; "D"; "CSTR"; "REAL"; "INV"]%string.
Definition all_regs : list reg := [R_NONE; R_M; R_Q; R_I; R_Cd; R_Cr; R_Td; R_Tr; R_IW; R_QW; R_C; R_T; R_D; R_S; R_R; R_INV].
(** str_basetime[] *)
Definition str_basetime : list (list Z) := map txt ["MS"; "10MS"; "100MS"; "SEC"; "MIN"]%string.
(** ladder_program_json.c:115-198 *)
Definition get_data_name (i : ins) (d : nat) : list Z :=
  txt (match i, d with
       | (I_NO | I_NC | I_RE | I_FE | I_COIL | I_COILL | I_COILU | I_NEG | I_NOT | I_SHL | I_SHR | I_ROL | I_ROR), O => "value"
       | (I_SHL | I_SHR), 1%nat => "n"
       | (I_NOT | I_ROL | I_ROR), 1%nat => "result"
       | (I_NO | I_NC | I_RE | I_FE | I_COIL | I_COILL | I_COILU | I_NEG | I_NOT | I_SHL | I_SHR | I_ROL | I_ROR), 2%nat => "result"
       | (I_TON | I_TOF | I_TP), O => "timer"
       | (I_TON | I_TOF | I_TP), 1%nat => "basetime"
       | (I_CTU | I_CTD), O => "counter"
       | (I_CTU | I_CTD), 1%nat => "preset value"
       | I_MOVE, O => "value"
       | I_MOVE, 1%nat => "to"
       | (I_SUB | I_ADD | I_MUL | I_DIV | I_MOD | I_AND | I_OR | I_XOR), O => "value1"
       | (I_SUB | I_ADD | I_MUL | I_DIV | I_MOD | I_AND | I_OR | I_XOR), 1%nat => "value2"
       | (I_SUB | I_ADD | I_MUL | I_DIV | I_MOD | I_AND | I_OR | I_XOR), 2%nat => "result"
       | (I_EQ | I_GT | I_GE | I_LT | I_LE | I_NE), O => "value1"
       | (I_EQ | I_GT | I_GE | I_LT | I_LE | I_NE), 1%nat => "value2"
       | I_TMOVE, O => "value1"
       | I_TMOVE, 1%nat => "value2"
       | I_TMOVE, 2%nat => "to"
       | _, _ => "value"
       end)%string.
(** The position of a text in a table, as the value paired with it. *)
Fixpoint look_up {A} (t : list (list Z)) (vs : list A) (s : list Z) : option A :=
  match t, vs with
  | x :: t, v :: vs => if same_text s x then Some v else look_up t vs s
  | _, _ => None
  end.
(** ladder_program_json.c:217-224 *)
Definition get_instruction_code (s : list Z) : ins := match look_up str_symbol all_codes s with Some i => i | None => I_INV end.
(** ladder_program_json.c:226-236. The time bases are values of the enumeration of registers too: MS is the code 0 (NONE), and so on. *)
Definition get_register_code (s : list Z) : reg :=
  match look_up str_types all_regs s with
  | Some r => r
  | None => match look_up str_basetime all_regs s with Some r => r | None => R_INV end
  end.

(** ** Numbers as text *)

(** Decimal digits of a non-negative number, as printed by %u and %lu. *)
Fixpoint digits_of (fuel : nat) (z : Z) (acc : list Z) : list Z :=
  match fuel with
  | O => acc
  | S f => let acc := 48 + z mod 10 :: acc in if z <? 10 then acc else digits_of f (z / 10) acc
  end.
(** Ten digits suffice for uint32_t. *)
Definition dec (z : Z) : list Z := digits_of 10 z [].
(** isspace in the C locale, used by strtoul and sscanf *)
Definition is_space (c : Z) : bool := (c =? 32) || ((9 <=? c) && (c <=? 13)).
Fixpoint skip_space (s : list Z) : list Z := match s with c :: t => if is_space c then skip_space t else s | [] => [] end.
Definition is_digit (c : Z) : bool := (48 <=? c) && (c <=? 57).
(** The longest prefix of digits: its value and what follows; [None] if there is no digit. *)
Fixpoint take_digits (s : list Z) (acc : Z) : Z * list Z :=
  match s with c :: t => if is_digit c then take_digits t (10 * acc + (c - 48)) else (acc, s) | [] => (acc, []) end.
Definition take_number (s : list Z) : option (Z * list Z) :=
  match s with c :: _ => if is_digit c then Some (take_digits s 0) else None | [] => None end.
(** strtoul(s, &end, 10): spaces, an optional sign and digits; the value (saturating, negated modulo 2^64 after a minus sign)
    and the text from end on. *)
Definition strtoul (s : list Z) : Z * list Z :=
  let t := skip_space s in
  let '(neg, t) := match t with c :: u => if c =? 45 then (true, u) else if c =? 43 then (false, u) else (false, t) | [] => (false, t) end in
  match take_number t with
  | None => (0, s)
  | Some (v, rest) => ((if 2 ^ 64 <=? v then 2 ^ 64 - 1 else if neg : bool then (- v) mod 2 ^ 64 else v), rest)
  end.
(** One %u of sscanf; [None] if there is no number. Numbers outside unsigned int are converted modulo 2^32, as glibc does. *)
Definition scan_u (s : list Z) : option (Z * list Z) :=
  let (v, rest) := strtoul s in
  let t := skip_space s in
  let t' := match t with c :: u => if (c =? 45) || (c =? 43) then u else t | [] => t end in
  match take_number t' with None => None | Some _ => Some (u32 v, rest) end.
(** ladder_program_json.c:200-215: sscanf(str, "%u.%u%n", ...) *)
Definition parse_module_port (s : list Z) : option (Z * Z) :=
  match scan_u s with
  | Some (m, c :: t) =>
      if negb (c =? 46) then None else
      match scan_u t with
      | Some (p, []) => if (m <=? 255) && (p <=? 255) then Some (m, p) else None
      | _ => None
      end
  | _ => None
  end.

(** ** The outside *)

(** Conversion of float to text with %f (cut to 31 characters by snprintf) and of text to float by strtof, which belong to the
    C library; floats are 32-bit patterns. [beyond] is what reading the number of operands from the entry after the last one
    of ladder_fn_iocd gives: for C it is undefined ([Bad UB_oob]), a machine may deliver a number. *)
Record outside : Type := mk_outside { print_f : Z -> list Z; read_f : list Z -> Z; beyond : res nat }.
(** ladder_fn_iocd[code].data_qty, fn_commons.c:39-78. The table ends before the code of occupied cells. *)
Definition data_qty (L : outside) (i : ins) : res nat :=
  match i with I_MULTI => beyond L | _ => let? d := fn_iocd i in Ok (d_dq d) end.
(** The allocations made while loading, by element of the document, row, column and operand, and whether they succeed. *)
Inductive site : Type := A_cells (i : nat) | A_row (i r : nat) | A_data (i r c : nat) | A_str (i r c d : nat).

(** ladder_program_json.h:38-61 *)
Inductive jerr : Type := J_OK | J_OPENFILE | J_PARSE | J_TYPE_INV | J_FAIL.
(** What is in the file: it cannot be opened, it is not JSON, or it is a tree. *)
Inductive file : Type := F_missing | F_garbage | F_doc (j : json).

(** ** Saving, ladder_program_json.c:903-1056 *)

Definition timer_base (i : ins) (d : nat) : bool := match i, d with (I_TON | I_TOF | I_TP), 1%nat => true | _, _ => false end.
Definition nth_text (t : list (list Z)) (z : Z) : list Z :=
  if (0 <=? z) && (z <? Z.of_nat (length t)) then nth (Z.to_nat z) t [] else txt "INV".
(** ladder_program_json.c:989-1002. The codes are unsigned; those that no name of the model stands for are outside the tables. *)
Definition type_text (i : ins) (d : nat) (t : reg) : list Z :=
  match t with
  | R_OTHER _ => txt "INV"
  | R_NONE => if same_text (get_data_name i d) (txt "preset value") then txt "NONE" else txt "K"
  | _ => if timer_base i d then nth_text str_basetime (reg_code t) else nth_text str_types (reg_code t)
  end.
(** ladder_program_json.c:986-1029: one operand. The value is written twice except for time bases; for a string the second
    time from a buffer that was never written. *)
Definition save_operand (L : outside) (i : ins) (d : nat) (v : value) : res json :=
  let head := [(txt "name", JStr (get_data_name i d)); (txt "type", JStr (type_text i d (v_type v)))] in
  let one s := Ok (JObj (head ++ [(txt "value", JStr s)])) in
  let two s := Ok (JObj (head ++ [(txt "value", JStr s); (txt "value", JStr s)])) in
  if timer_base i d then one (dec (u32 (v_raw v))) else
  match v_type v with
  | R_I | R_Q => two (dec (v_module v) ++ 46 :: dec (v_port v))
  | R_S => Bad UB_indet
  | R_R => two (firstn 31 (print_f L (u32 (v_raw v))))
  | _ => two (dec (u32 (v_raw v)))
  end.
Fixpoint save_operands (L : outside) (x : cell) (k d : nat) : res (list json) :=
  match k with
  | O => Ok []
  | S k =>
      let? v := pget (c_data x) (Z.of_nat d) in
      let? j := save_operand L (c_code x) d v in
      let? js := save_operands L x k (S d) in Ok (j :: js)
  end.
(** ladder_program_json.c:957 *)
Definition symbol_text (i : ins) : list Z := match i with I_OTHER _ => txt "INV" | _ => nth_text str_symbol (ins_code i) end.
(** ladder_program_json.c:945-1033 *)
Definition save_cell (L : outside) (x : cell) : res json :=
  let? ds := save_operands L x (c_dq x) 0 in
  Ok (JObj [(txt "symbol", JStr (symbol_text (c_code x))); (txt "bar", JBool (c_bar x)); (txt "data", JArr ds)]).
(** The first [k] elements from [i] on, through [f]. *)
Fixpoint save_list {A} (get : nat -> res A) (f : A -> res json) (k i : nat) : res (list json) :=
  match k with
  | O => Ok []
  | S k => let? x := get i in let? j := f x in let? js := save_list get f k (S i) in Ok (j :: js)
  end.
(** ladder_program_json.c:935-1038 *)
Definition save_row (L : outside) (nt : network) (r : nat) : res json :=
  let? l := save_list (fun c => cell_in nt r c) (save_cell L) (n_cols nt) 0 in Ok (JArr l).
(** ladder_program_json.c:915-1042 *)
Definition save_network (L : outside) (c : ctx) (n : nat) : res json :=
  let? nt := net_at n c in
  let? rows := save_list Ok (save_row L nt) (n_rows nt) 0 in
  Ok (JObj [(txt "id", int_num (Z.of_nat n)); (txt "rows", int_num (Z.of_nat (n_rows nt))); (txt "cols", int_num (Z.of_nat (n_cols nt)));
            (txt "networkData", JArr rows)]).
(** ladder_program_json.c:903-1056: the tree written, when the file can be opened. *)
Definition program_to_json (L : outside) (c : ctx) : res json :=
  let? l := save_list Ok (save_network L c) (q_nets (x_q c)) 0 in Ok (JArr l).

(** ** Loading, ladder_program_json.c:603-901 *)

(** ladder_program_json.c:815-821 and 847-853: a number that must fill the whole text. *)
Definition load_number (s : list Z) : option Z := match strtoul s with (v, []) => Some (i32 v) | _ => None end.
(** ladder_program_json.c:773-855: operand [d] of an instruction; [None] when it is refused. The pointer to a string fills
    the union; its low half, which would be read as a number, is given as 0. *)
Definition load_operand (L : outside) (al : bool) (i : ins) (d : nat) (j : json) : option value :=
  match member (txt "name") j, member (txt "type") j, member (txt "value") j with
  | Some (JStr _), Some (JStr ty), Some (JStr s) =>
      if timer_base i d then
        match look_up str_basetime all_regs ty, load_number s with
        | Some t, Some z => Some (mk_value t z None)
        | _, _ => None
        end
      else
        match get_register_code ty with
        | R_INV => None
        | R_S => if al then Some (mk_value R_S 0 (Some s)) else None
        | R_R => Some (mk_value R_R (i32 (read_f L s)) None)
        | (R_I | R_Q) as t => match parse_module_port s with Some (m, p) => Some (mk_value t (m + 256 * p) None) | None => None end
        | t => match load_number s with Some z => Some (mk_value t z None) | None => None end
        end
  | _, _, _ => None
  end.
Fixpoint load_operands (L : outside) (al : nat -> bool) (i : ins) (d : nat) (js : list json) : option (list value) :=
  match js with
  | [] => Some []
  | j :: js =>
      match load_operand L (al d) i d j with
      | None => None
      | Some v => match load_operands L al i (S d) js with None => None | Some vs => Some (v :: vs) end
      end
  end.
(** ladder_program_json.c:721-868: a cell; [None] when it is refused. *)
Definition load_cell (L : outside) (al : bool) (als : nat -> bool) (j : json) : res (option cell) :=
  match member (txt "symbol") j with
  | Some (JStr s) =>
      let i := get_instruction_code s in
      match i with
      | I_INV => Ok None
      | _ =>
          match member (txt "bar") j, member (txt "data") j with
          | Some (JBool b), Some (JArr ds) =>
              let? q := data_qty L i in
              if (length ds =? q)%nat then
                if (length ds =? 0)%nat then Ok (Some (mk_cell false b i 0 None)) else
                if al then
                  match load_operands L als i 0 ds with
                  | None => Ok None
                  | Some vs => Ok (Some (mk_cell false b i (length ds) (Some vs)))
                  end
                else Ok None
              else Ok None
          | _, _ => Ok None
          end
      end
  | _ => Ok None
  end.
Fixpoint load_cells (f : nat -> json -> res (option cell)) (c : nat) (js : list json) : res (option (list cell)) :=
  match js with
  | [] => Ok (Some [])
  | j :: js =>
      let? x := f c j in
      match x with
      | None => Ok None
      | Some x => let? xs := load_cells f (S c) js in match xs with None => Ok None | Some xs => Ok (Some (x :: xs)) end
      end
  end.
(** ladder_program_json.c:712-870. Sizes of arrays are int, so that a number above INT_MAX differs from all of them. *)
Fixpoint load_rows (L : outside) (al : site -> bool) (i : nat) (cols : Z) (r : nat) (js : list json) : res (option (list (list cell))) :=
  match js with
  | [] => Ok (Some [])
  | j :: js =>
      match j with
      | JArr cs =>
          if i32 cols =? Z.of_nat (length cs) then
            let? x := load_cells (fun c => load_cell L (al (A_data i r c)) (fun d => al (A_str i r c d))) 0 cs in
            match x with
            | None => Ok None
            | Some x => let? xs := load_rows L al i cols (S r) js in match xs with None => Ok None | Some xs => Ok (Some (x :: xs)) end
            end
          else Ok None
      | _ => Ok None
      end
  end.
(** ladder_program_json.c:646-663: releasing the old cells reads all the rows and all the operands counted. That the memory is
    released only once and was obtained from the allocator is not modelled. *)
Definition data_there (x : cell) : bool := match c_data x with None => true | Some d => (c_dq x <=? length d)%nat end.
Definition row_there (cols : nat) (row : list cell) : bool := (cols <=? length row)%nat && forallb data_there (firstn cols row).
Definition release_cells (nt : network) : res unit :=
  if (n_rows nt =? 0)%nat then Ok tt else
  match n_cells nt with
  | None => Bad UB_null
  | Some l => if (n_rows nt <=? length l)%nat && forallb (row_there (n_cols nt)) (firstn (n_rows nt) l) then Ok tt else Bad UB_oob
  end.
(** ladder_program_json.c:661-892: the new contents of a network after its old ones were released, and whether it was loaded. *)
Definition load_network (L : outside) (al : site -> bool) (i : nat) (j : json) : res (network * bool) :=
  match member (txt "rows") j with
  | Some (JNum d) =>
      let? rows := dbl_trunc d 0 (2 ^ 32 - 1) in
      match member (txt "cols") j with
      | Some (JNum d) =>
          let? cols := dbl_trunc d 0 (2 ^ 32 - 1) in
          let bad := Ok (mk_network true (Z.to_nat rows) (Z.to_nat cols) None, false) in
          match member (txt "networkData") j with
          | Some (JArr rs) =>
              if i32 rows =? Z.of_nat (length rs) then
                if al (A_cells i) then
                  if forallb (fun r => al (A_row i r)) (seq 0 (Z.to_nat rows)) then
                    let? x := load_rows L al i cols 0 rs in
                    match x with
                    | None => Ok (mk_network true 0 0 None, false)
                    | Some x => Ok (mk_network true (Z.to_nat rows) (Z.to_nat cols) (Some x), true)
                    end
                  else Ok (mk_network true 0 0 None, false)
                else bad
              else bad
          | _ => bad
          end
      | _ => Ok (mk_network true (Z.to_nat rows) 0 None, false)
      end
  | _ => Ok (mk_network true 0 0 None, false)
  end.
(** ladder_program_json.c:625-644: one element of the document; the result tells whether to go on. *)
Definition load_element (L : outside) (al : site -> bool) (i : nat) (j : json) (c : ctx) : res (ctx * bool) :=
  match j with
  | JObj _ =>
      match member (txt "id") j with
      | Some (JNum d) =>
          let? n := dbl_trunc d 0 (2 ^ 32 - 1) in
          if Z.of_nat (q_nets (x_q c)) <=? n then Ok (c, false) else
          let? nt := net_at (Z.to_nat n) c in
          let? _ := release_cells nt in
          let? x := load_network L al i j in
          let (nt', ok) := x in
          match x_net c with
          | None => Bad UB_null
          | Some l => Ok (set_x_net (Some (lset l (Z.to_nat n) nt')) c, ok)
          end
      | _ => Ok (c, false)
      end
  | _ => Ok (c, false)
  end.
Fixpoint load_elements (L : outside) (al : site -> bool) (i : nat) (js : list json) (c : ctx) : res (ctx * bool) :=
  match js with
  | [] => Ok (c, true)
  | j :: js => let? x := load_element L al i j c in let (c', ok) := x in if ok then load_elements L al (S i) js c' else Ok (c', false)
  end.
(** ladder_program_json.c:603-901 *)
Definition json_to_program (L : outside) (al : site -> bool) (f : file) (c : ctx) : res (jerr * ctx) :=
  match f with
  | F_missing => Ok (J_OPENFILE, c)
  | F_garbage => Ok (J_PARSE, c)
  | F_doc (JArr js) =>
      let? c1 := clear_program c in
      let? x := load_elements L al 0 js c1 in
      let (c2, ok) := x in
      if ok then Ok (J_OK, c2) else let? c3 := clear_program c2 in Ok (J_FAIL, c3)
  | F_doc _ => Ok (J_TYPE_INV, c)
  end.
