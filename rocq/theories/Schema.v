(** Validation of a document against a schema: utils/ladder_program_json.c:263-599 and 1096-1127. *)
From Coq Require Import String.
From Verif Require Export Json.
Open Scope list_scope.
Open Scope Z_scope.

(** cJSON_Compare, case sensitive, belongs to the cJSON library and is a parameter of the model. *)
Definition comparison : Type := json -> json -> bool.

(** The order of doubles, by bringing both to the smaller exponent. *)
Definition dbl_lt (a b : dbl) : bool :=
  match a, b with
  | Fin m e, Fin n f => let k := Z.min e f in m * 2 ^ (e - k) <? n * 2 ^ (f - k)
  | Inf true, Inf true => false
  | Inf true, _ => true
  | _, Inf true => false
  | _, Inf false => match a with Inf false => false | _ => true end
  | Inf false, _ => false
  end.
(** The member valueint of a cJSON number: cut to int, with the limits of int outside them. *)
Definition valueint (d : dbl) : Z :=
  match d with
  | Fin m e => let z := if 0 <=? e then m * 2 ^ e else Z.quot m (2 ^ (- e)) in Z.max (- 2 ^ 31) (Z.min (2 ^ 31 - 1) z)
  | Inf n => if n then - 2 ^ 31 else 2 ^ 31 - 1
  end.
(** (size_t) of an int *)
Definition size_t (z : Z) : Z := z mod 2 ^ 64.
(** tolower of the C locale, used by the case-insensitive look-up of cJSON *)
Definition lower (c : Z) : Z := if (65 <=? c) && (c <=? 90) then c + 32 else c.
(** cJSON_HasObjectItem, case insensitive; false for what is not an object *)
Definition has_item (j : json) (k : list Z) : bool :=
  match j with JObj l => existsb (fun p => same_text (map lower (fst p)) (map lower k)) l | _ => false end.
(** validate_json: 283-311, the type test; for "integer" the number is converted to int and back. *)
Definition type_ok (t : list Z) (j : json) : res bool :=
  if same_text t (txt "null") then Ok (match j with JNull => true | _ => false end) else
  if same_text t (txt "boolean") then Ok (match j with JBool _ => true | _ => false end) else
  if same_text t (txt "number") then Ok (match j with JNum _ => true | _ => false end) else
  if same_text t (txt "integer") then
    match j with
    | JNum d => let? z := dbl_trunc d (- 2 ^ 31) (2 ^ 31 - 1) in Ok (negb (dbl_lt d (Fin z 0)) && negb (dbl_lt (Fin z 0) d))
    | _ => Ok false
    end
  else
  if same_text t (txt "string") then Ok (match j with JStr _ => true | _ => false end) else
  if same_text t (txt "array") then Ok (match j with JArr _ => true | _ => false end) else
  if same_text t (txt "object") then Ok (match j with JObj _ => true | _ => false end) else Ok false.
(** validate_json: 328-351 *)
Definition enum_ok (cmp : comparison) (s j : json) : bool := match member (txt "enum") s with Some (JArr es) => existsb (cmp j) es | _ => true end.
Definition const_ok (cmp : comparison) (s j : json) : bool := match member (txt "const") s with Some v => cmp j v | None => true end.
(** validate_json: 355-363 and 483-492 *)
Definition range_ok (s : json) (d : dbl) : bool :=
  match member (txt "minimum") s with Some (JNum m) => negb (dbl_lt d m) | _ => true end
  && match member (txt "maximum") s with Some (JNum m) => negb (dbl_lt m d) | _ => true end.
(** validate_json: 366-375 and 495-504 *)
Definition lengths_ok (s : json) (t : list Z) : bool :=
  match member (txt "minLength") s with Some (JNum m) => size_t (valueint m) <=? Z.of_nat (length t) | _ => true end
  && match member (txt "maxLength") s with Some (JNum m) => Z.of_nat (length t) <=? size_t (valueint m) | _ => true end.
(** validate_json: 412-419 and 541-548 *)
Definition count_ok (s : json) (js : list json) : bool :=
  match member (txt "minItems") s with Some (JNum m) => valueint m <=? Z.of_nat (length js) | _ => true end
  && match member (txt "maxItems") s with Some (JNum m) => Z.of_nat (length js) <=? valueint m | _ => true end.
(** validate_json: 392-400: after a list of schemas for the first elements *)
Definition additems_ok (s : json) (k : nat) (js : list json) : bool :=
  match member (txt "additionalItems") s with Some (JBool false) => (length js <=? k)%nat | _ => true end.
(** validate_json: 428-440 *)
Definition is_required (s : json) (k : list Z) : bool :=
  match member (txt "required") s with
  | Some (JArr rs) => existsb (fun r => match r with JStr t => same_text t k | _ => false end) rs
  | _ => false
  end.
(** validate_json: 454-469 and 583-597 *)
Definition addprops_ok (s : json) (l : list (list Z * json)) : bool :=
  match member (txt "additionalProperties") s with
  | Some (JBool false) => forallb (fun p => match member (txt "properties") s with Some ps => has_item ps (fst p) | None => false end) l
  | _ => true
  end.
Fixpoint all_ok {A} (f : A -> res bool) (l : list A) : res bool :=
  match l with [] => Ok true | x :: l => let? b := f x in if b then all_ok f l else Ok false end.
(** Elements with the schemas for their positions. *)
Fixpoint tuple_ok (f : json -> json -> res bool) (ss js : list json) : res bool :=
  match ss, js with
  | s :: ss, j :: js => let? b := f j s in if b then tuple_ok f ss js else Ok false
  | _, _ => Ok true
  end.
(** validate_json: 378-420 *)
Definition array_ok (f : json -> json -> res bool) (s : json) (js : list json) : res bool :=
  let? b := match member (txt "items") s with
            | None => Ok true
            | Some (JArr ss) => let? b := tuple_ok f ss js in Ok (if b then additems_ok s (length ss) js else false)
            | Some i => all_ok (fun j => f j i) js
            end in
  Ok (if b then count_ok s js else false).
(** validate_json: 422-470 *)
Definition object_ok (f : json -> json -> res bool) (s : json) (j : json) (l : list (list Z * json)) : res bool :=
  let? b := match member (txt "properties") s with
            | Some (JObj ps) =>
                all_ok (fun p => match member (fst p) j with None => Ok (negb (is_required s (fst p))) | Some v => f v (snd p) end) ps
            | _ => Ok true
            end in
  Ok (if b then addprops_ok s l else false).
(** validate_json: 353-598. The keywords of the type given or, without one, of the value at hand are applied; when a type is
    given the value has it. *)
Definition keywords_ok (f : json -> json -> res bool) (s j : json) : res bool :=
  match j with
  | JNum d => Ok (range_ok s d)
  | JStr t => Ok (lengths_ok s t)
  | JArr js => array_ok f s js
  | JObj l => object_ok f s j l
  | JNull | JBool _ => Ok true
  end.
(** ladder_program_json.c:263-599. Every recursive call is made with a part of the schema; [fuel] bounds its depth. *)
Fixpoint validate (fuel : nat) (cmp : comparison) (j s : json) : res bool :=
  match fuel with
  | O => NoFuel
  | S n =>
      match s with
      | JBool b => Ok b
      | JObj _ =>
          match member (txt "if") s, member (txt "then") s with
          | Some i, Some t => let? b := validate n cmp j i in if b then validate n cmp j t else Ok true
          | _, _ =>
              let? b := match member (txt "allOf") s with Some (JArr ss) => all_ok (validate n cmp j) ss | _ => Ok true end in
              if b then
                let? b := match member (txt "type") s with Some (JStr t) => type_ok t j | _ => Ok true end in
                if b then
                  if enum_ok cmp s j then if const_ok cmp s j then keywords_ok (validate n cmp) s j else Ok false else Ok false
                else Ok false
              else Ok false
          end
      | _ => Ok false
      end
  end.
Fixpoint depth (j : json) : nat :=
  match j with
  | JArr l => S (list_max (map depth l))
  | JObj l => S (list_max (map (fun p => depth (snd p)) l))
  | _ => 1
  end.
(** ladder_program_json.c:1096-1127 *)
Definition validate_file (cmp : comparison) (f g : file) : res bool :=
  match f, g with F_doc j, F_doc s => validate (depth s) cmp j s | _, _ => Ok false end.
