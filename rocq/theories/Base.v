(** Outcomes, machine integers and C arrays used by the model. *)
From Coq Require Export List ZArith Bool Lia Arith.
Export ListNotations.
Open Scope Z_scope.

(** Kinds of undefined behaviour of the C code. *)
Inductive ub : Type :=
| UB_null      (* null pointer dereference *)
| UB_oob       (* access outside an allocated array *)
| UB_overflow  (* signed integer overflow *)
| UB_div       (* integer division or remainder by zero *)
| UB_shift     (* shift by the width of the type or more *)
| UB_float     (* conversion of a float outside the range of int32_t *)
| UB_trap      (* reading a bool object whose byte is neither 0 nor 1 *)
| UB_indet.    (* reading an object that was never written *)

(** Result of running a piece of C code: a value, undefined behaviour, or a loop that did not finish
    within the fuel it was given. *)
Inductive res (A : Type) : Type :=
| Ok (a : A)
| Bad (u : ub)
| NoFuel.
Arguments Ok {A} a.
Arguments Bad {A} u.
Arguments NoFuel {A}.

Definition rbind {A B} (m : res A) (k : A -> res B) : res B :=
  match m with Ok a => k a | Bad u => Bad u | NoFuel => NoFuel end.

(** Widths of the C integer types: uint8_t, uint16_t, uint32_t, uint64_t and int32_t. *)
Definition u8  (z : Z) : Z := z mod 2 ^ 8.
Definition u16 (z : Z) : Z := z mod 2 ^ 16.
Definition u32 (z : Z) : Z := z mod 2 ^ 32.
Definition u64 (z : Z) : Z := z mod 2 ^ 64.
(** Conversion of an integer to int32_t (implementation-defined in C, modulo 2^32 for gcc and clang). *)
Definition i32 (z : Z) : Z := (z + 2 ^ 31) mod 2 ^ 32 - 2 ^ 31.
Definition in_i32 (z : Z) : bool := (- 2 ^ 31 <=? z) && (z <? 2 ^ 31).

(** Replace element [i] of a list; out of range positions leave the list unchanged. *)
Fixpoint lset {A} (l : list A) (i : nat) (v : A) : list A :=
  match l, i with
  | [], _ => []
  | _ :: t, O => v :: t
  | h :: t, S j => h :: lset t j v
  end.

(** A C array of integers reached through a pointer; [None] is the null pointer. *)
Definition arr : Type := option (list Z).

(** In-range test for a C index, which may be negative. *)
Definition idx_ok {A} (l : list A) (i : Z) : bool := (0 <=? i) && (i <? Z.of_nat (length l)).

(** [p[i]] as an rvalue. *)
Definition lget {A} (l : list A) (i : Z) : res A :=
  if idx_ok l i then
    match nth_error l (Z.to_nat i) with Some v => Ok v | None => Bad UB_oob end
  else Bad UB_oob.
Definition pget {A} (p : option (list A)) (i : Z) : res A :=
  match p with None => Bad UB_null | Some l => lget l i end.

(** [p[i] = v]. *)
Definition pset {A} (p : option (list A)) (i : Z) (v : A) : res (option (list A)) :=
  match p with
  | None => Bad UB_null
  | Some l => if idx_ok l i then Ok (Some (lset l (Z.to_nat i) v)) else Bad UB_oob
  end.

(** Read of a [bool] object: its byte must be 0 or 1. *)
Definition bget (p : arr) (i : Z) : res bool :=
  rbind (pget p i) (fun v => if v =? 0 then Ok false else if v =? 1 then Ok true else Bad UB_trap).

Definition b2z (b : bool) : Z := if b then 1 else 0.

(** [memset(p, 0, n * sizeof *p)]; zero-length calls are treated as no-ops also on NULL. *)
Definition pmemset0 (p : arr) (n : nat) : res arr :=
  match n with
  | O => Ok p
  | _ => match p with
         | None => Bad UB_null
         | Some l => if (n <=? length l)%nat then Ok (Some (repeat 0 n ++ skipn n l)) else Bad UB_oob
         end
  end.

(** [memcpy(dst, src, n * sizeof *dst)] between distinct arrays; zero-length calls are no-ops. *)
Definition pmemcpy (dst src : arr) (n : nat) : res arr :=
  match n with
  | O => Ok dst
  | _ => match dst, src with
         | Some d, Some s =>
             if ((n <=? length d) && (n <=? length s))%nat
             then Ok (Some (firstn n s ++ skipn n d)) else Bad UB_oob
         | _, _ => Bad UB_null
         end
  end.

Definition is_null {A} (p : option A) : bool := match p with None => true | Some _ => false end.
