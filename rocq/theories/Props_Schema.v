(** Property theorems: validation of documents against schemas (C55). *)
From Coq Require Import String.
From Verif Require Import P_Schema Demo.
Open Scope list_scope.
Open Scope Z_scope.

(** ** C55 *)

(** C55: for plain schemas and testable documents the answer is whether the document is valid, where validity is given by
    the rules of JSON Schema and equality of values by the comparison of cJSON. *)
Theorem C55_exact : forall (E V : json -> json -> Prop) cmp j s, draft7 E V -> (forall a b, cmp a b = true <-> E a b) ->
  (forall x, part s x -> plain x) -> testable s j ->
  exists b, validate_file cmp (F_doc j) (F_doc s) = Ok b /\ (b = true <-> V j s).
Proof. exact C55_exact_l. Qed.
Print Assumptions C55_exact.

(** C55: the rules determine validity: for every notion of equality there is exactly one. *)
Theorem C55_meaning : forall E, exists V, draft7 E V /\ forall V', draft7 E V' -> forall j s, V j s <-> V' j s.
Proof. exact C55_meaning_l. Qed.
Print Assumptions C55_meaning.
Example C55_example : (forall x, part shipped x -> plain x) /\ testable shipped demo_json /\ valid_doc demo_json shipped = Some true
  /\ (forall V, draft7 (fun a b => cmp_text a b = true) V -> V demo_json shipped)
  /\ testable shipped (one_cell "NO" []) /\ forall V, draft7 (fun a b => cmp_text a b = true) V -> ~ V (one_cell "NO" []) shipped.
Proof.
  assert (T : testable shipped demo_json) by (apply testableb_ok; vm_compute; reflexivity).
  assert (T' : testable shipped (one_cell "NO" [])) by (apply testableb_ok; vm_compute; reflexivity).
  assert (R : validate_file cmp_text (F_doc demo_json) (F_doc shipped) = Ok true) by (vm_compute; reflexivity).
  assert (R' : validate_file cmp_text (F_doc (one_cell "NO" [])) (F_doc shipped) = Ok false) by (vm_compute; reflexivity).
  split; [exact shipped_plain|]. split; [exact T|]. split; [unfold valid_doc; now rewrite R|]. split; [|split; [exact T'|]].
  - intros V D. destruct (C55_exact _ V cmp_text demo_json shipped D (fun a b => iff_refl _) shipped_plain T) as (b & K & L). rewrite R in K. injection K as <-. now apply L.
  - intros V D K. destruct (C55_exact _ V cmp_text (one_cell "NO" []) shipped D (fun a b => iff_refl _) shipped_plain T') as (b & M & L). rewrite R' in M. injection M as <-. apply L in K. discriminate.
Qed.
Example C55_example_kinds : let s := obj_j [("type", JStr (txt "array")); ("items", JArr [obj_j [("minimum", JNum (Fin 3 (-1)))]; JBool true]); ("additionalItems", JBool false); ("minItems", int_num 1)]%string in
  (forall x, part s x -> plain x) /\ map (fun l => valid_doc (JArr l) s) [[int_num 2]; [int_num 1]; [JNull; JNull]; [JNull; JNull; JNull]; []] = [Some true; Some false; Some true; Some false; Some false].
Proof. split; [apply plain_parts; vm_compute; reflexivity|vm_compute; reflexivity]. Qed.

(** ** C55, every schema *)

(** C55: whatever the schema, the check ends with an answer, unless a number outside int is tested to be an integer: then
    the conversion to int is undefined. If all numbers are within int there is an answer. *)
Theorem C55_answers : forall cmp f g, ((exists b, validate_file cmp f g = Ok b) \/ validate_file cmp f g = Bad UB_float)
  /\ ((forall j d, f = F_doc j -> contains j (JNum d) -> exists z, truncates d z /\ - 2 ^ 31 <= z < 2 ^ 31) -> exists b, validate_file cmp f g = Ok b).
Proof. exact C55_answers_l. Qed.
Print Assumptions C55_answers.

(** C55: a file that is missing or not JSON is not valid, nor is anything against such a schema. *)
Theorem C55_files : forall cmp f g, (forall j, f <> F_doc j) \/ (forall j, g <> F_doc j) -> validate_file cmp f g = Ok false.
Proof. exact C55_files_l. Qed.
Print Assumptions C55_files.
Example C55_example_answers : validate_file cmp_text (F_doc (one_cell "NO" [])) (F_doc (obj_j [("type", JArr []); ("required", texts_j ["a"])])) = Ok true
  /\ validate_file cmp_text (F_doc demo_json) F_garbage = Ok false /\ validate_file cmp_text F_missing (F_doc shipped) = Ok false.
Proof. vm_compute. auto. Qed.

(** ** C55, as it is *)

(** C55: the number of an identifier outside int makes the check of a document against the shipped schema undefined. *)
Theorem C55_integer_actual : forall cmp d ps s, (forall z, truncates d z -> ~ - 2 ^ 31 <= z < 2 ^ 31) -> member_is s "type" (JStr (txt "integer")) ->
  absent s "if" -> absent s "allOf" -> s = JObj ps -> validate_file cmp (F_doc (JNum d)) (F_doc s) = Bad UB_float.
Proof. exact C55_integer_actual_l. Qed.
Print Assumptions C55_integer_actual.

(** C55: next to a condition with a consequence no other keyword of the schema counts. *)
Theorem C55_if_actual : forall cmp f l l' i t, member_is (JObj l) "if" i -> member_is (JObj l) "then" t -> member_is (JObj l') "if" i -> member_is (JObj l') "then" t ->
  validate_file cmp f (F_doc (JObj l)) = validate_file cmp f (F_doc (JObj l')).
Proof. exact C55_if_actual_l. Qed.
Print Assumptions C55_if_actual.

(** C55: names that are required but not listed are not looked for: whatever is required, any object is accepted. *)
Theorem C55_required_actual : forall cmp l rs, validate_file cmp (F_doc (JObj l)) (F_doc (JObj [(txt "type", JStr (txt "object")); (txt "required", JArr rs)])) = Ok true.
Proof. exact C55_required_actual_l. Qed.
Print Assumptions C55_required_actual.

(** C55: a schema for the properties or elements not listed is not applied. *)
Theorem C55_additional_actual : forall cmp l js k x, (k = "additionalProperties" /\ x <> JBool false -> validate_file cmp (F_doc (JObj l)) (F_doc (JObj [(txt k, x)])) = Ok true)%string
  /\ (k = "additionalItems" /\ x <> JBool false -> validate_file cmp (F_doc (JArr js)) (F_doc (JObj [(txt "items", JArr []); (txt k, x)])) = Ok true)%string.
Proof. exact C55_additional_actual_l. Qed.
Print Assumptions C55_additional_actual.

(** C55: what applies when a condition fails is not applied. *)
Theorem C55_else_actual : forall cmp j i x, validate_file cmp (F_doc j) (F_doc (JObj [(txt "if", i); (txt "else", x)])) = Ok true.
Proof. exact C55_else_actual_l. Qed.
Print Assumptions C55_else_actual.

(** C55: where only listed names are allowed, a name that differs from a listed one in case is allowed too, and its value is
    not looked at. *)
Theorem C55_case_actual : forall cmp k k' p v, but_for_case k k' -> k <> k' ->
  validate_file cmp (F_doc (JObj [(k', v)])) (F_doc (JObj [(txt "properties", JObj [(k, p)]); (txt "additionalProperties", JBool false)])) = Ok true.
Proof. exact C55_case_actual_l. Qed.
Print Assumptions C55_case_actual.
Example C55_example_actual :
  validate_file cmp_text (F_doc (JArr [obj_j [("id", int_num (2 ^ 31)); ("rows", int_num 0); ("cols", int_num 0); ("networkData", JArr [])]])) (F_doc shipped) = Bad UB_float
  /\ valid_doc JNull (obj_j [("type", JStr (txt "array")); ("if", JBool true); ("then", JBool true)]) = Some true
  /\ valid_doc JNull (obj_j [("if", JBool false); ("else", JBool false)]) = Some true
  /\ (let s := obj_j [("properties", obj_j [("name", obj_j [("type", JStr (txt "string"))])]); ("additionalProperties", JBool false)] in
      valid_doc (obj_j [("Name", JNull)]) s = Some true /\ valid_doc (obj_j [("name", JNull)]) s = Some false /\ valid_doc (obj_j [("nam", JNull)]) s = Some false).
Proof. repeat split; vm_compute; reflexivity. Qed.
Example C55_example_invalid : let E := fun a b => cmp_text a b = true in forall V, draft7 E V ->
  ~ V JNull (obj_j [("if", JBool false); ("else", JBool false)])
  /\ ~ V (obj_j []) (obj_j [("required", texts_j ["a"])])
  /\ ~ V (obj_j [("Name", JNull)]) (obj_j [("properties", obj_j [("name", JBool true)]); ("additionalProperties", JBool false)]).
Proof.
  intros E V D.
  assert (NB : forall j, ~ V j (JBool false)) by (intros j H; apply (draft7_bool E V) in H; [discriminate|exact D]).
  assert (MI : forall j k v, member (txt k) j = Some v -> member_is j k v) by (intros; now apply member_iff).
  split; [|split]; intros H; apply (D _ _) in H as [H|[_ H]]; try discriminate H.
  - apply (NB JNull). apply (kw_else _ _ _ _ H (JBool false)); [apply MI; vm_compute; reflexivity..|]. apply NB.
  - destruct (kw_required _ _ _ _ H [JStr (txt "a")] [] (txt "a")); [apply MI; vm_compute; reflexivity|reflexivity|simpl; auto].
  - apply (NB JNull). apply (kw_more_properties _ _ _ _ H (JBool false) [(txt "Name", JNull)] (txt "Name") JNull); [apply MI; vm_compute; reflexivity|reflexivity|simpl; auto|].
    intros ps M. apply member_iff in M. vm_compute in M. injection M as <-. cbn. intros [K|[]]. discriminate K.
Qed.
