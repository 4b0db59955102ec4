(** validation of documents against schemas (C55). *)
From Coq Require Import String.
From Verif Require Export DemoSchema.
Open Scope list_scope.
Open Scope Z_scope.

(** ** C55 *)

(** C55: for plain schemas and testable documents the answer is whether the document is valid, where validity is given by
    the rules of JSON Schema and equality of values by the comparison of cJSON. *)
Lemma C55_exact_l : forall (E V : json -> json -> Prop) cmp j s, draft7 E V -> (forall a b, cmp a b = true <-> E a b) ->
  (forall x, part s x -> plain x) -> testable s j ->
  exists b, validate_file cmp (F_doc j) (F_doc s) = Ok b /\ (b = true <-> V j s).
Proof. intros E V cmp j s D CE PL CH. exact (plain_decides E V cmp D CE (depth s) j s (le_n _) PL CH). Qed.

(** C55: the rules determine validity: for every notion of equality there is exactly one. *)
Lemma C55_meaning_l : forall E, exists V, draft7 E V /\ forall V', draft7 E V' -> forall j s, V j s <-> V' j s.
Proof. intros E. exists (fun j s => valid_at E (depth s) j s). split; [apply draft7_exists|]. intros V' D j s. exact (draft7_unique E _ _ (draft7_exists E) D j s). Qed.
(*EX
Example C55_example : (forall x, part shipped x -> plain x) /\ testable shipped demo_json /\ valid_doc demo_json shipped = Some true
  /\ (forall V, draft7 (fun a b => cmp_text a b = true) V -> V demo_json shipped)
  /\ testable shipped (one_cell "NO" []) /\ forall V, draft7 (fun a b => cmp_text a b = true) V -> ~ V (one_cell "NO" []) shipped.
Proof.
  assert (T : testable shipped demo_json) by (apply testableb_ok; vm_compute; reflexivity).
  assert (T' : testable shipped (one_cell "NO" [])) by (apply testableb_ok; vm_compute; reflexivity).
  assert (R : validate_file cmp_text (F_doc demo_json) (F_doc shipped) = Ok true) by (vm_compute; reflexivity).
  assert (R' : validate_file cmp_text (F_doc (one_cell "NO" [])) (F_doc shipped) = Ok false) by (vm_compute; reflexivity).
  split; [exact shipped_plain|]. split; [exact T|]. split; [unfold valid_doc; now rewrite R|]. split; [|split; [exact T'|]].
  - intros V D. destruct (C55_exact _ V cmp_text demo_json shipped D (fun a b => iff_refl _) shipped_plain T) as (b & K & L). rewrite R in K. injection K as <-. now apply L.
  - intros V D K. destruct (C55_exact _ V cmp_text (one_cell "NO" []) shipped D (fun a b => iff_refl _) shipped_plain T') as (b & M & L). rewrite R' in M. injection M as <-. apply L in K. discriminate.
Qed.
Example C55_example_kinds : let s := obj_j [("type", JStr (txt "array")); ("items", JArr [obj_j [("minimum", JNum (Fin 3 (-1)))]; JBool true]); ("additionalItems", JBool false); ("minItems", int_num 1)]%string in
  (forall x, part s x -> plain x) /\ map (fun l => valid_doc (JArr l) s) [[int_num 2]; [int_num 1]; [JNull; JNull]; [JNull; JNull; JNull]; []] = [Some true; Some false; Some true; Some false; Some false].
Proof. split; [apply plain_parts; vm_compute; reflexivity|vm_compute; reflexivity]. Qed.
EX*)

(** ** C55, every schema *)

Lemma all_ok_fine (Q : res bool -> Prop) {A} (f : A -> res bool) l : (forall b, Q (Ok b)) -> (forall m k, Q m -> (forall b, Q (k b)) -> Q (let? b := m in k b)) -> (forall x, In x l -> Q (f x)) -> Q (all_ok f l).
Proof. intros O0 B. induction l as [|x l IH]; intros H; cbn [all_ok]; auto. apply B; [apply H; simpl; auto|]. intros [|]; auto. apply IH. intros y Y. apply H. simpl; auto. Qed.
Lemma tuple_ok_fine (Q : res bool -> Prop) f : (forall b, Q (Ok b)) -> (forall m k, Q m -> (forall b, Q (k b)) -> Q (let? b := m in k b)) ->
  forall ss js, (forall x y, In x js -> In y ss -> Q (f x y)) -> Q (tuple_ok f ss js).
Proof. intros O0 B. induction ss as [|s ss IH]; intros [|j js] H; cbn [tuple_ok]; auto. apply B; [apply H; simpl; auto|]. intros [|]; auto. apply IH. intros x y X Y. apply H; simpl; auto. Qed.
Lemma validate_fine (Q : res bool -> Prop) cmp : (forall b, Q (Ok b)) -> (forall m k, Q m -> (forall b, Q (k b)) -> Q (let? b := m in k b)) ->
  forall n j s, (depth s <= n)%nat -> (forall t x, contains j x -> Q (type_ok t x)) -> Q (validate n cmp j s).
Proof.
  intros O0 B. induction n as [|n IH]; intros j s D T; [assert (K := depth_pos s); lia|]. cbn [validate]. destruct s as [| | | | |ms]; auto. set (s := JObj ms) in *.
  assert (SUB : forall x y, (depth y < depth s)%nat -> contains j x -> Q (validate n cmp x y)).
  { intros x y L X. apply IH; [lia|]. intros t z Z. apply T. eapply inside_trans; eauto. }
  assert (K : Q (let? b := match member (txt "allOf") s with Some (JArr ss) => all_ok (validate n cmp j) ss | _ => Ok true end in
              if b then
                let? b := match member (txt "type") s with Some (JStr t) => type_ok t j | _ => Ok true end in
                if b then
                  if enum_ok cmp s j then if const_ok cmp s j then keywords_ok (validate n cmp) s j else Ok false else Ok false
                else Ok false
              else Ok false)).
  { apply B.
    - destruct (member (txt "allOf") s) as [a|] eqn:M; auto. destruct a; auto. apply all_ok_fine; auto. intros x X. apply SUB; [|constructor]. apply depth_of in M. apply depth_elem in X. lia.
    - intros [|]; auto. apply B.
      + destruct (member (txt "type") s) as [a|] eqn:M; auto. destruct a; auto. apply T. constructor.
      + intros [|]; auto. destruct (enum_ok cmp s j); auto. destruct (const_ok cmp s j); auto. destruct j as [|b|d|t|js|l]; cbn [keywords_ok]; auto.
        * unfold array_ok. apply B; auto. destruct (member (txt "items") s) as [i|] eqn:M; auto. apply depth_of in M.
          assert (ALL : Q (all_ok (fun j => validate n cmp j i) js)). { apply all_ok_fine; auto. intros x X. apply SUB; auto. eapply is_elem; [exact X|constructor]. }
          destruct i as [|x|x|x|ss|x]; auto. apply B; auto. apply tuple_ok_fine; auto. intros x y X Y. apply SUB; [apply depth_elem in Y; lia|]. eapply is_elem; [exact X|constructor].
        * unfold object_ok. apply B; auto. destruct (member (txt "properties") s) as [i|] eqn:M; auto. apply depth_of in M. destruct i as [|x|x|x|x|ps]; auto.
          apply all_ok_fine; auto. intros [k p] I. cbn [fst snd member]. destruct (find_member l k) as [v|] eqn:F; auto. apply SUB; [apply depth_member in I; lia|].
          apply find_member_in in F. eapply is_member; [exact F|constructor]. }
  destruct (member (txt "if") s) as [i|] eqn:MI; auto. destruct (member (txt "then") s) as [t|] eqn:MT; auto. apply depth_of in MI, MT.
  apply B; [apply SUB; auto; constructor|]. intros [|]; auto. apply SUB; auto. constructor.
Qed.

(** C55: whatever the schema, the check ends with an answer, unless a number outside int is tested to be an integer: then
    the conversion to int is undefined. If all numbers are within int there is an answer. *)
Lemma C55_answers_l : forall cmp f g, ((exists b, validate_file cmp f g = Ok b) \/ validate_file cmp f g = Bad UB_float)
  /\ ((forall j d, f = F_doc j -> contains j (JNum d) -> exists z, truncates d z /\ - 2 ^ 31 <= z < 2 ^ 31) -> exists b, validate_file cmp f g = Ok b).
Proof.
  intros cmp f g. destruct f as [| |j]; [split; [left|]; exists false; auto..|]. destruct g as [| |s]; [split; [left|]; exists false; auto..|]. cbn [validate_file]. split.
  - apply (validate_fine (fun r => (exists b, r = Ok b) \/ r = Bad UB_float)); eauto.
    + intros m k [[b ->]| ->] K; cbn [rbind]; auto.
    + intros t x _. unfold type_ok. repeat match goal with |- context [same_text t ?n] => destruct (same_text t n); eauto end.
      destruct x as [|b|d|w|l|l]; eauto. destruct (dbl_trunc d (- 2 ^ 31) (2 ^ 31 - 1)) as [z|u|] eqn:T; cbn [rbind]; eauto.
      * right. unfold dbl_trunc in T. destruct d as [m e|]; [destruct (_ && _) in T|]; congruence.
      * unfold dbl_trunc in T. destruct d as [m e|]; [destruct (_ && _) in T|]; discriminate.
  - intros H. apply (validate_fine (fun r => exists b, r = Ok b)); eauto.
    + intros m k [b ->] K; cbn [rbind]; auto.
    + intros t x X. destruct (type_decides t x) as (b & K & _); eauto. intros d ->. eapply H; eauto.
Qed.

(** C55: a file that is missing or not JSON is not valid, nor is anything against such a schema. *)
Lemma C55_files_l : forall cmp f g, (forall j, f <> F_doc j) \/ (forall j, g <> F_doc j) -> validate_file cmp f g = Ok false.
Proof. intros cmp f g [H|H]; destruct f as [| |j]; auto; [destruct (H j)|destruct g as [| |s]; auto; destruct (H s)]; auto. Qed.
(*EX
Example C55_example_answers : validate_file cmp_text (F_doc (one_cell "NO" [])) (F_doc (obj_j [("type", JArr []); ("required", texts_j ["a"])])) = Ok true
  /\ validate_file cmp_text (F_doc demo_json) F_garbage = Ok false /\ validate_file cmp_text F_missing (F_doc shipped) = Ok false.
Proof. vm_compute. auto. Qed.
EX*)

(** ** C55, as it is *)

(** C55: the number of an identifier outside int makes the check of a document against the shipped schema undefined. *)
Lemma C55_integer_actual_l : forall cmp d ps s, (forall z, truncates d z -> ~ - 2 ^ 31 <= z < 2 ^ 31) -> member_is s "type" (JStr (txt "integer")) ->
  absent s "if" -> absent s "allOf" -> s = JObj ps -> validate_file cmp (F_doc (JNum d)) (F_doc s) = Bad UB_float.
Proof.
  intros cmp d ps s H M I A ->. cbn [validate_file]. set (s := JObj ps) in *. assert (P := depth_pos s). destruct (depth s) as [|n]; [lia|]. cbn [validate]. subst s. set (s := JObj ps) in *.
  destruct (member (txt "if") s) as [i|] eqn:E; [apply member_iff in E; destruct (I _ E)|]. destruct (member (txt "allOf") s) as [i|] eqn:F; [apply member_iff in F; destruct (A _ F)|]. cbn [rbind].
  apply member_iff in M. rewrite M. unfold type_ok.
  change (same_text (txt "integer") (txt "null")) with false. change (same_text (txt "integer") (txt "boolean")) with false. change (same_text (txt "integer") (txt "number")) with false. change (same_text (txt "integer") (txt "integer")) with true. cbv iota.
  rewrite dbl_trunc_bad; [auto|lia|]. intros z Z K. apply (H z Z). lia.
Qed.

(** C55: next to a condition with a consequence no other keyword of the schema counts. *)
Lemma C55_if_actual_l : forall cmp f l l' i t, member_is (JObj l) "if" i -> member_is (JObj l) "then" t -> member_is (JObj l') "if" i -> member_is (JObj l') "then" t ->
  validate_file cmp f (F_doc (JObj l)) = validate_file cmp f (F_doc (JObj l')).
Proof.
  intros cmp f l l' i t MI MT MI' MT'. destruct f as [| |j]; auto. cbn [validate_file].
  set (s := JObj l) in *. set (s' := JObj l') in *. set (N := (depth s + depth s')%nat).
  rewrite (validate_fuel cmp (depth s) (S N) j s), (validate_fuel cmp (depth s') (S N) j s') by lia. cbn [validate]. subst s s'. cbv iota.
  apply member_iff in MI, MT, MI', MT'. now rewrite MI, MT, MI', MT'.
Qed.

(** C55: names that are required but not listed are not looked for: whatever is required, any object is accepted. *)
Lemma C55_required_actual_l : forall cmp l rs, validate_file cmp (F_doc (JObj l)) (F_doc (JObj [(txt "type", JStr (txt "object")); (txt "required", JArr rs)])) = Ok true.
Proof.
  intros cmp l rs. cbn [validate_file]. set (s := JObj _). assert (P := depth_pos s). destruct (depth s) as [|n]; [lia|]. reflexivity.
Qed.

(** C55: a schema for the properties or elements not listed is not applied. *)
Lemma C55_additional_actual_l : forall cmp l js k x, (k = "additionalProperties" /\ x <> JBool false -> validate_file cmp (F_doc (JObj l)) (F_doc (JObj [(txt k, x)])) = Ok true)%string
  /\ (k = "additionalItems" /\ x <> JBool false -> validate_file cmp (F_doc (JArr js)) (F_doc (JObj [(txt "items", JArr []); (txt k, x)])) = Ok true)%string.
Proof.
  intros cmp l js k x. split.
  - intros [-> X]. cbn [validate_file]. set (s := JObj _). assert (P := depth_pos s). destruct (depth s) as [|n]; [lia|]. cbn. destruct x as [|[]| | | |]; auto. congruence.
  - intros [-> X]. cbn [validate_file]. set (s := JObj _). assert (P := depth_pos s). destruct (depth s) as [|n]; [lia|]. cbn. destruct x as [|[]| | | |]; auto. congruence.
Qed.

(** C55: what applies when a condition fails is not applied. *)
Lemma C55_else_actual_l : forall cmp j i x, validate_file cmp (F_doc j) (F_doc (JObj [(txt "if", i); (txt "else", x)])) = Ok true.
Proof.
  intros cmp j i x. cbn [validate_file]. set (s := JObj _). assert (P := depth_pos s). destruct (depth s) as [|n]; [lia|]. destruct j; reflexivity.
Qed.

(** C55: where only listed names are allowed, a name that differs from a listed one in case is allowed too, and its value is
    not looked at. *)
Lemma C55_case_actual_l : forall cmp k k' p v, but_for_case k k' -> k <> k' ->
  validate_file cmp (F_doc (JObj [(k', v)])) (F_doc (JObj [(txt "properties", JObj [(k, p)]); (txt "additionalProperties", JBool false)])) = Ok true.
Proof.
  intros cmp k k' p v C N. cbn [validate_file]. set (ms := [(txt "properties", JObj [(k, p)]); (txt "additionalProperties", JBool false)]).
  assert (P := depth_pos (JObj ms)). destruct (depth (JObj ms)) as [|n]; [lia|]. cbn [validate]. set (s := JObj ms).
  assert (M : forall x, In x ["if"; "allOf"; "type"; "enum"; "const"; "required"]%string -> member (txt x) s = None) by (intros x X; simpl in X; decompose [or] X; try tauto; subst x; reflexivity).
  assert (M1 : member (txt "properties") s = Some (JObj [(k, p)])) by reflexivity. assert (M2 : member (txt "additionalProperties") s = Some (JBool false)) by reflexivity.
  clearbody s. rewrite (M "if"%string), (M "allOf"%string), (M "type"%string) by (simpl; tauto). cbn [rbind]. unfold enum_ok, const_ok. rewrite (M "enum"%string), (M "const"%string) by (simpl; tauto).
  cbn [keywords_ok]. unfold object_ok, addprops_ok, is_required. rewrite M1, M2, (M "required"%string) by (simpl; tauto). cbn [all_ok fst snd member find_member].
  assert (F : same_text k k' = false) by now apply same_text_neq. rewrite F. cbn [negb rbind forallb has_item existsb fst].
  apply lower_text in C. apply same_text_eq in C. now rewrite C.
Qed.
(*EX
Example C55_example_actual :
  validate_file cmp_text (F_doc (JArr [obj_j [("id", int_num (2 ^ 31)); ("rows", int_num 0); ("cols", int_num 0); ("networkData", JArr [])]])) (F_doc shipped) = Bad UB_float
  /\ valid_doc JNull (obj_j [("type", JStr (txt "array")); ("if", JBool true); ("then", JBool true)]) = Some true
  /\ valid_doc JNull (obj_j [("if", JBool false); ("else", JBool false)]) = Some true
  /\ (let s := obj_j [("properties", obj_j [("name", obj_j [("type", JStr (txt "string"))])]); ("additionalProperties", JBool false)] in
      valid_doc (obj_j [("Name", JNull)]) s = Some true /\ valid_doc (obj_j [("name", JNull)]) s = Some false /\ valid_doc (obj_j [("nam", JNull)]) s = Some false).
Proof. repeat split; vm_compute; reflexivity. Qed.
Example C55_example_invalid : let E := fun a b => cmp_text a b = true in forall V, draft7 E V ->
  ~ V JNull (obj_j [("if", JBool false); ("else", JBool false)])
  /\ ~ V (obj_j []) (obj_j [("required", texts_j ["a"])])
  /\ ~ V (obj_j [("Name", JNull)]) (obj_j [("properties", obj_j [("name", JBool true)]); ("additionalProperties", JBool false)]).
Proof.
  intros E V D.
  assert (NB : forall j, ~ V j (JBool false)) by (intros j H; apply (draft7_bool E V) in H; [discriminate|exact D]).
  assert (MI : forall j k v, member (txt k) j = Some v -> member_is j k v) by (intros; now apply member_iff).
  split; [|split]; intros H; apply (D _ _) in H as [H|[_ H]]; try discriminate H.
  - apply (NB JNull). apply (kw_else _ _ _ _ H (JBool false)); [apply MI; vm_compute; reflexivity..|]. apply NB.
  - destruct (kw_required _ _ _ _ H [JStr (txt "a")] [] (txt "a")); [apply MI; vm_compute; reflexivity|reflexivity|simpl; auto].
  - apply (NB JNull). apply (kw_more_properties _ _ _ _ H (JBool false) [(txt "Name", JNull)] (txt "Name") JNull); [apply MI; vm_compute; reflexivity|reflexivity|simpl; auto|].
    intros ps M. apply member_iff in M. vm_compute in M. injection M as <-. cbn. intros [K|[]]. discriminate K.
Qed.
EX*)
