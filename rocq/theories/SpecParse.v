(** What a cron expression is and what it denotes. *)
From Verif Require Export SpecCron.

(** ** Syntax *)

(** A field is a list of items separated by commas; an item is a star or a number, then optionally a minus sign and a
    number, then optionally a slash and a number. Characters are bytes in ASCII. *)
Inductive lead : Type := Star | From (ds : list Z).
Record item : Type := mk_item { it_head : lead; it_to : option (list Z); it_step : option (list Z) }.
Definition digit (c : Z) : Prop := 48 <= c <= 57.
(** A non-empty sequence of digits, and the number it denotes. *)
Definition numeral (ds : list Z) : Prop := ds <> [] /\ Forall digit ds.
Definition number (ds : list Z) : Z := fold_left (fun a c => 10 * a + (c - 48)) ds 0.
Definition well_formed (it : item) : Prop :=
  (forall ds, it_head it = From ds -> numeral ds) /\ (forall ds, it_to it = Some ds -> numeral ds) /\ (forall ds, it_step it = Some ds -> numeral ds).
Definition item_text (it : item) : list Z :=
  (match it_head it with Star => [42] | From ds => ds end)
  ++ (match it_to it with Some ds => 45 :: ds | None => [] end) ++ (match it_step it with Some ds => 47 :: ds | None => [] end).
Fixpoint field_text (its : list item) : list Z :=
  match its with
  | [] => []
  | [it] => item_text it
  | it :: t => item_text it ++ 44 :: field_text t
  end.

(** ** Meaning *)

(** The first and the last value of an item and its step, in a field whose values go from [mn] to [mx]. *)
Definition first_of (mn : Z) (it : item) : Z := match it_head it with Star => mn | From ds => number ds end.
Definition last_of (mx : Z) (it : item) : Z :=
  match it_to it with
  | Some ds => number ds
  | None => match it_head it, it_step it with From ds, None => number ds | _, _ => mx end
  end.
Definition step_of (it : item) : Z := match it_step it with Some ds => number ds | None => 1 end.
(** All values are in the range of the field. *)
Definition in_range (mn mx : Z) (it : item) : Prop := mn <= first_of mn it <= mx /\ mn <= last_of mx it <= mx.
(** The values an item denotes: counting cyclically from the first to the last value, every [step]-th one. The value [p] is
    (p - first) mod (number of values) places after the first. *)
Definition denotes (mn mx : Z) (it : item) (p : Z) : Prop :=
  let n := mx - mn + 1 in let f := first_of mn it in
  mn <= p <= mx /\ ((p - f) mod n) mod step_of it = 0 /\ (p - f) mod n <= (last_of mx it - f) mod n.
(** The item counts on past the end of the field. *)
Definition wraps (mn mx : Z) (it : item) : Prop := last_of mx it < first_of mn it.
(** The step is at least 1 and not absurdly large; a wrapping item has a step that divides [mx + 1], for instance 1. *)
Definition good_step (mn mx : Z) (it : item) : Prop := 1 <= step_of it < 2 ^ 63 /\ (wraps mn mx it -> (step_of it | mx + 1)).
(** A field: its text, and the values it denotes. *)
Definition good_field (mn mx : Z) (its : list item) : Prop :=
  its <> [] /\ Forall (fun it => well_formed it /\ in_range mn mx it /\ good_step mn mx it) its.
Definition field_has (mn mx : Z) (its : list item) (p : Z) : Prop := exists it, In it its /\ denotes mn mx it p.
(** Blanks: a field may be preceded by any number of spaces; what follows it is empty or begins with a space. *)
Definition blanks (sp : list Z) : Prop := Forall (fun c => c = 32) sp.
Definition ends_field (rest : list Z) : Prop := match rest with [] => True | c :: _ => c = 32 end.
(** The ranges of the seven fields, in their order: second, minute, hour, day of month, month, day of week, year. *)
Definition ranges : list (Z * Z) := [(0, 59); (0, 59); (0, 23); (1, 31); (1, 12); (0, 6); (0, 100)].
(** The text of the fields, each preceded by the given blanks. *)
Fixpoint expression (fs : list (list Z * list item)) : list Z :=
  match fs with [] => [] | (sp, its) :: t => sp ++ field_text its ++ expression t end.
(** The values of the fields at the time [t]. *)
Definition field_values (t : tm) : list Z := [tm_sec t; tm_min t; tm_hour t; tm_mday t; tm_mon t + 1; tm_wday t; tm_year t - 100].

(** ** What the parser does with numbers *)

(** The numbers of the item are below the largest value of the machine type size_t. *)
Definition small_numbers (it : item) : Prop :=
  forall ds, it_head it = From ds \/ it_to it = Some ds \/ it_step it = Some ds -> number ds < 2 ^ 64 - 1.
(** A single number above the range with a step, as in 75/5: it denotes nothing. *)
Definition overshoots (mx : Z) (it : item) : Prop :=
  exists ds ss, it = mk_item (From ds) None (Some ss) /\ mx < number ds.
(** Numbers are computed modulo 2^64. The step of the item comes out as zero. *)
Definition zero_step (it : item) : Prop := exists ds, it_step it = Some ds /\ number ds mod 2 ^ 64 = 0.
(** The item is a range whose first number comes out as the largest value of size_t. *)
Definition huge_range (it : item) : Prop :=
  exists ds dt, it_head it = From ds /\ it_to it = Some dt /\ number ds mod 2 ^ 64 = 2 ^ 64 - 1.
(** The text contains an item with the property [P]: it stands at the beginning or after a space or a comma, and no digit
    follows it. *)
Definition has_item (P : item -> Prop) (s : list Z) : Prop :=
  exists pre it post, s = pre ++ item_text it ++ post /\ well_formed it /\ P it
    /\ (pre = [] \/ exists q c, pre = q ++ [c] /\ (c = 32 \/ c = 44)) /\ (forall c t, post = c :: t -> it_step it <> None -> ~ digit c).

(** ** Whole expressions *)

(** Seven fields within their ranges; each but the first is preceded by at least one blank. *)
Definition good_expression (fs : list (list Z * list item)) : Prop :=
  Forall2 (fun f r => blanks (fst f) /\ good_field (fst r) (snd r) (snd f)) fs ranges /\ Forall (fun f => fst f <> []) (tl fs).
(** Every field of the time is among the values its field of the expression denotes. *)
Definition time_in (t : tm) (fs : list (list Z * list item)) : Prop :=
  forall i f r v, nth_error fs i = Some f -> nth_error ranges i = Some r -> nth_error (field_values t) i = Some v -> field_has (fst r) (snd r) (snd f) v.
