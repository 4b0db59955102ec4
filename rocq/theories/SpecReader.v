(** Vocabulary for the typed accessors (C67): numbers rounded to singles, operands read without an index check. *)
From Verif Require Export SpecRun.

(** m * 2^e in units of 2^-149, the smallest single; [units m e] is whole for every single. *)
Definition units (m e : Z) : Z := m * 2 ^ (e + 149).
(** The pattern [p] denotes the single nearest to the whole number [z]; of two equally near the one whose last bit is 0. *)
Definition nearest (z p : Z) : Prop :=
  exists m e, f32_denotes p m e
    /\ forall p' m' e', 0 <= p' < 2 ^ 32 -> f32_denotes p' m' e' ->
         let d := Z.abs (units m e - units z 0) in
         let d' := Z.abs (units m' e' - units z 0) in
         d < d' \/ (d = d' /\ (units m' e' = units m e \/ Z.even m = true)).
(** Register types whose index the typed accessors do not check. *)
Definition unchecked (t : reg) : bool := match t with R_C | R_T | R_D | R_R => true | _ => false end.
(** A counter or a time does not fit in a signed 32-bit number. *)
Definition too_big (c : ctx) (v : value) : Prop :=
  match v_type v with
  | R_C => exists u, holds c (LReg B_C (ix (v_raw v))) u /\ 2 ^ 31 <= u
  | R_T => exists u, holds c (LAcc (ix (v_raw v))) u /\ 2 ^ 31 <= u
  | _ => False
  end.
(** A counter or a time fits in a signed 32-bit number. *)
Definition small (c : ctx) (v : value) : Prop :=
  match v_type v with
  | R_C => exists u, holds c (LReg B_C (ix (v_raw v))) u /\ 0 <= u < 2 ^ 31
  | R_T => exists u, holds c (LAcc (ix (v_raw v))) u /\ 0 <= u < 2 ^ 31
  | _ => True
  end.
(** The number behind an operand that is not a real register: counters and times in full, the others as they read. *)
Definition counts (c : ctx) (v : value) (z : Z) : Prop :=
  match v_type v with
  | R_C => holds c (LReg B_C (ix (v_raw v))) z
  | R_T => holds c (LAcc (ix (v_raw v))) z
  | R_R => False
  | _ => reads c v z
  end.
