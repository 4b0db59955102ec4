(** The cron expression parser and matcher: optional/cron/lwdtc/lwdtc.c. Strings are lists of bytes without
    their terminator; reading at or past the end yields the terminator 0 (never further, see the proofs). *)
From Verif Require Export Types.

(** lwdtc.h: lwdtcr_t *)
Inductive lwdtcr : Type := L_OK | L_ERR | L_ERRPAR | L_ERRTOKEN.
Definition lok (r : lwdtcr) : bool := match r with L_OK => true | _ => false end.

Definition c_space : Z := 32.
Definition c_star : Z := 42.
Definition c_comma : Z := 44.
Definition c_minus : Z := 45.
Definition c_slash : Z := 47.
Definition c_zero : Z := 48.
(** lwdtc.c:54 *)
Definition is_num (c : Z) : bool := (48 <=? c) && (c <=? 57).
(** str[i] of a null-terminated string *)
Definition chr (s : list Z) (i : nat) : Z := nth i s 0.
Definition size_max : Z := 2 ^ 64 - 1.

(** lwdtc.c:57-58; [pos] is at most UINT32_MAX or SIZE_MAX, never negative. *)
Definition bit_is_set (m : list Z) (pos : Z) : res bool :=
  let? b := lget m (Z.shiftr pos 3) in
  Ok (negb (Z.land b (Z.shiftl 1 (Z.land pos 7)) =? 0)).
Definition bit_set (m : list Z) (pos : Z) : res (list Z) :=
  let? b := lget m (Z.shiftr pos 3) in
  Ok (lset m (Z.to_nat (Z.shiftr pos 3)) (u8 (Z.lor b (Z.shiftl 1 (Z.land pos 7))))).

(** lwdtc.c:92-95: the digits at the front of [s], accumulated in size_t, and how many there are. *)
Fixpoint digits (s : list Z) (acc : Z) : Z * nat :=
  match s with
  | c :: t => if is_num c then let (v, n) := digits t (u64 (acc * 10 + (c - 48))) in (v, S n) else (acc, O)
  | [] => (acc, O)
  end.
(** lwdtc.c:85-98: number at position [idx] and the position after it; [None] is lwdtcERRTOKEN. *)
Definition parse_num (tok : list Z) (len idx : nat) : option (Z * nat) :=
  if is_num (chr tok idx) then
    if (0 <? len - idx)%nat
    then let (v, n) := digits (skipn idx tok) 0 in Some (v, (idx + n)%nat)
    else Some (0, idx)
  else None.

(** lwdtc.c:110-111 and 118-119 *)
Fixpoint skip_spaces (s : list Z) : list Z :=
  match s with c :: t => if c =? c_space then skip_spaces t else s | [] => [] end.
Fixpoint token_len (s : list Z) : nat :=
  match s with c :: t => if c =? c_space then O else S (token_len t) | [] => O end.
(** lwdtc.c:105-126: the token (as the suffix starting at it), its length and what follows. The strings passed
    by the caller contain no NUL before their length, so the length bound and the NUL test coincide. *)
Definition next_token (s : list Z) : option (list Z * nat * list Z) :=
  let t := skip_spaces s in
  match t with
  | [] => None
  | _ => let n := token_len t in Some (t, n, skipn n t)
  end.

(** lwdtc.c:276-278, 280-282 and 285-287: for (bit = b; bit <= last; bit += step) BIT_SET(map, bit). Returns the
    map and the final value of bit. [fuel] bounds the number of iterations. *)
Fixpoint set_bits (fuel : nat) (m : list Z) (b last step : Z) : res (list Z * Z) :=
  if b <=? last then
    match fuel with
    | O => NoFuel
    | S f => let? m' := bit_set m b in set_bits f m' (u64 (b + step)) last step
    end
  else Ok (m, b).
(** A loop with this many iterations has left the map or never ends. *)
Definition bits_fuel (m : list Z) : nat := (8 * length m + 2)%nat.

(** lwdtc.c:183-253: one comma-separated item: start, end, step, opposite flag and next position. *)
Definition parse_item (tok : list Z) (len idx : nat) (mn mx : Z)
  : lwdtcr + (Z * Z * Z * bool * nat) :=
  let head :=
    if chr tok idx =? c_star then Some (mn, mx, S idx)
    else match parse_num tok len idx with Some (v, i) => Some (v, v, i) | None => None end in
  match head with
  | None => inl L_ERRTOKEN
  | Some (b, e, i) =>
      let range :=
        if (i <? len)%nat && (chr tok i =? c_minus) then
          if (S i <? len)%nat then
            match parse_num tok len (S i) with
            | None => inl L_ERRTOKEN
            | Some (v, j) => if v <? b then inr (v, b, true, true, j) else inr (b, v, false, true, j)
            end
          else inl L_ERR
        else inr (b, e, false, false, i) in
      match range with
      | inl r => inl r
      | inr (b, e, opp, isr, i) =>
          if (i <? len)%nat && (chr tok i =? c_slash) then
            match parse_num tok len (S i) with
            | None => inl L_ERRTOKEN
            | Some (v, j) => inr (b, (if isr : bool then e else size_max), v, opp, j)
            end
          else inr (b, e, 1, opp, i)
      end
  end.

(** lwdtc.c:256-288: the checks of one item and its effect on the map. *)
Definition apply_item (m : list Z) (mn mx : Z) (b e step : Z) (opp : bool) : res (lwdtcr * list Z) :=
  if b <? mn then Ok (L_ERRTOKEN, m) else
  if (mx <? e) && negb (e =? size_max) then Ok (L_ERRTOKEN, m) else
  let e := if mx <? e then mx else e in
  if opp then
    let? r := set_bits (bits_fuel m) m e mx step in
    let (m1, bit) := r in
    if step =? 0 then Bad UB_div else
    let? r2 := set_bits (bits_fuel m1) m1 (u64 (bit mod step + mn)) b step in
    Ok (L_OK, fst r2)
  else
    let? r := set_bits (bits_fuel m) m b e step in Ok (L_OK, fst r).

(** lwdtc.c:149-297: the do-while loop over the items of a token; every iteration consumes characters. *)
Fixpoint parse_items (fuel : nat) (m : list Z) (tok : list Z) (len idx : nat) (mn mx : Z)
  : res (lwdtcr * list Z) :=
  match fuel with
  | O => NoFuel
  | S f =>
      if (idx <? len)%nat then
        match parse_item tok len idx mn mx with
        | inl r => Ok (r, m)
        | inr (b, e, step, opp, i) =>
            let? x := apply_item m mn mx b e step opp in
            let (r, m') := x in
            if lok r then
              if (i =? len)%nat then Ok (L_OK, m')
              else if chr tok i =? c_comma then parse_items f m' tok len (S i) mn mx
              else Ok (L_ERRTOKEN, m')
            else Ok (r, m')
        end
      else Ok (L_ERR, m)
  end.

(** lwdtc.c:137-298: result code, bit map and rest of the string. *)
Definition parse_field (m : list Z) (mn mx : Z) (s : list Z) : res (lwdtcr * list Z * list Z) :=
  match next_token s with
  | None => Ok (L_ERR, m, s)
  | Some (tok, len, rest) =>
      let? x := parse_items (S len) m tok len 0 mn mx in
      let (r, m') := x in Ok (r, m', rest)
  end.

(** lwdtc.h:85-91: sizes of the bit maps; lwdtc.c:314 clears them. *)
Definition map0 : cronmap :=
  mk_cronmap (repeat 0 8) (repeat 0 8) (repeat 0 3) (repeat 0 4) (repeat 0 2) (repeat 0 1) (repeat 0 13).

(** lwdtc.c:309-375 (lwdtc_cron_parse): strlen of the string is its list length. The map is written also when
    parsing fails ([map] is left untouched only for the empty string). *)
Definition cron_parse (map : cronmap) (s : list Z) : res (lwdtcr * cronmap) :=
  match s with
  | [] => Ok (L_ERRPAR, map)
  | _ =>
  let k := map0 in
  let? x := parse_field (k_sec k) 0 59 s in
  let '(r, m, s) := x in let k := set_k_sec m k in if negb (lok r) then Ok (r, k) else
  let? x := parse_field (k_min k) 0 59 s in
  let '(r, m, s) := x in let k := set_k_min m k in if negb (lok r) then Ok (r, k) else
  let? x := parse_field (k_hour k) 0 23 s in
  let '(r, m, s) := x in let k := set_k_hour m k in if negb (lok r) then Ok (r, k) else
  let? x := parse_field (k_mday k) 1 31 s in
  let '(r, m, s) := x in let k := set_k_mday m k in if negb (lok r) then Ok (r, k) else
  let? x := parse_field (k_mon k) 1 12 s in
  let '(r, m, s) := x in let k := set_k_mon m k in if negb (lok r) then Ok (r, k) else
  let? x := parse_field (k_wday k) 0 6 s in
  let '(r, m, s) := x in let k := set_k_wday m k in if negb (lok r) then Ok (r, k) else
  let? x := parse_field (k_year k) 0 100 s in
  let '(r, m, s) := x in let k := set_k_year m k in Ok (r, k)
  end.

(** lwdtc.c:415-438 (lwdtc_cron_is_valid_for_time); || stops at the first field that does not match. *)
Definition and_bit (r : res bool) (k : res bool) : res bool := let? b := r in if b then k else Ok false.
Definition cron_valid (t : tm) (k : cronmap) : res bool :=
  and_bit (bit_is_set (k_sec k) (u32 (tm_sec t)))
  (and_bit (bit_is_set (k_min k) (u32 (tm_min t)))
  (and_bit (bit_is_set (k_hour k) (u32 (tm_hour t)))
  (and_bit (bit_is_set (k_mday k) (u32 (tm_mday t)))
  (and_bit (bit_is_set (k_mon k) (u32 (tm_mon t + 1)))
  (and_bit (bit_is_set (k_wday k) (u32 (tm_wday t)))
           (bit_is_set (k_year k) (u32 (tm_year t - 100)))))))).
