(** What a schema means: the keywords of JSON Schema (draft 7) that the validator knows, each on its own, without reference
    to the order of evaluation. *)
From Coq Require Import String.
From Verif Require Export SpecJson Schema.
Open Scope list_scope.
Open Scope Z_scope.

Definition absent (s : json) (k : string) : Prop := forall v, ~ member_is s k v.
(** A number is a whole number; what it is at most and at least is said by comparing fractions. *)
Definition whole (d : dbl) (z : Z) : Prop := match d with Fin m e => m * 2 ^ Z.max e 0 = z * 2 ^ Z.max (- e) 0 | Inf _ => False end.
Definition at_most (a b : dbl) : Prop :=
  match a, b with
  | Fin m e, Fin n f => m * 2 ^ Z.max (e - f) 0 <= n * 2 ^ Z.max (f - e) 0
  | Inf n, _ => n = true \/ b = Inf false
  | _, Inf n => n = false
  end.
(** The names of types. *)
Definition has_type (t : string) (j : json) : Prop :=
  match j with
  | JNull => t = "null"
  | JBool _ => t = "boolean"
  | JNum d => t = "number" \/ t = "integer" /\ exists z, whole d z
  | JStr _ => t = "string"
  | JArr _ => t = "array"
  | JObj _ => t = "object"
  end%string.
(** The keywords, for a notion [V] of validity and [E] of equality. Lengths of texts count bytes. *)
Record keywords (E V : json -> json -> Prop) (s j : json) : Prop := {
  kw_type : forall t, string_is s "type" t -> exists k, t = txt k /\ has_type k j;
  kw_types : forall ts, member_is s "type" (JArr ts) -> exists k, In (JStr (txt k)) ts /\ has_type k j;
  kw_enum : forall es, member_is s "enum" (JArr es) -> exists e, In e es /\ E j e;
  kw_const : forall v, member_is s "const" v -> E j v;
  kw_minimum : forall m d, member_is s "minimum" (JNum m) -> j = JNum d -> at_most m d;
  kw_maximum : forall m d, member_is s "maximum" (JNum m) -> j = JNum d -> at_most d m;
  kw_min_length : forall m t, member_is s "minLength" (JNum m) -> j = JStr t -> at_most m (Fin (Z.of_nat (length t)) 0);
  kw_max_length : forall m t, member_is s "maxLength" (JNum m) -> j = JStr t -> at_most (Fin (Z.of_nat (length t)) 0) m;
  kw_min_items : forall m js, member_is s "minItems" (JNum m) -> j = JArr js -> at_most m (Fin (Z.of_nat (length js)) 0);
  kw_max_items : forall m js, member_is s "maxItems" (JNum m) -> j = JArr js -> at_most (Fin (Z.of_nat (length js)) 0) m;
  kw_tuple : forall ss js i x y, member_is s "items" (JArr ss) -> j = JArr js -> nth_error js i = Some x -> nth_error ss i = Some y -> V x y;
  kw_items : forall i js x, member_is s "items" i -> (forall ss, i <> JArr ss) -> j = JArr js -> In x js -> V x i;
  kw_more_items : forall ss a js i x, member_is s "items" (JArr ss) -> member_is s "additionalItems" a -> j = JArr js ->
    nth_error js i = Some x -> (length ss <= i)%nat -> V x a;
  kw_properties : forall ps a b k p v, member_is s "properties" (JObj ps) -> j = JObj (a ++ (k, v) :: b) -> ~ In k (map fst a) -> In (k, p) ps -> V v p;
  kw_required : forall rs l k, member_is s "required" (JArr rs) -> j = JObj l -> In (JStr k) rs -> In k (map fst l);
  kw_more_properties : forall a l k v, member_is s "additionalProperties" a -> j = JObj l -> In (k, v) l ->
    (forall ps, member_is s "properties" (JObj ps) -> ~ In k (map fst ps)) -> V v a;
  kw_all_of : forall ss x, member_is s "allOf" (JArr ss) -> In x ss -> V j x;
  kw_then : forall i t, member_is s "if" i -> member_is s "then" t -> V j i -> V j t;
  kw_else : forall i t, member_is s "if" i -> member_is s "else" t -> ~ V j i -> V j t }.
(** [V] is validity: a schema is true, false, or an object of keywords. *)
Definition draft7 (E V : json -> json -> Prop) : Prop :=
  forall j s, V j s <-> s = JBool true \/ (exists l, s = JObj l) /\ keywords E V s j.

(** ** Schemas the validator is made for *)

(** [x] is one of the schemas [s] consists of. *)
Inductive part : json -> json -> Prop :=
| pt_self s : part s s
| pt_if s v x : member_is s "if" v \/ member_is s "then" v -> part v x -> part s x
| pt_all s ss y x : member_is s "allOf" (JArr ss) \/ member_is s "items" (JArr ss) -> In y ss -> part y x -> part s x
| pt_items s v x : member_is s "items" v -> (forall ss, v <> JArr ss) -> part v x -> part s x
| pt_property s ps k v x : member_is s "properties" (JObj ps) -> In (k, v) ps -> part v x -> part s x.
(** [x] is inside [j]. *)
Inductive contains : json -> json -> Prop :=
| is_self j : contains j j
| is_elem l y x : In y l -> contains y x -> contains (JArr l) x
| is_member l k y x : In (k, y) l -> contains y x -> contains (JObj l) x.
(** The two names differ in the case of letters only. *)
Definition but_for_case (k k' : list Z) : Prop :=
  Forall2 (fun a b => a = b \/ 65 <= a <= 90 /\ b = a + 32 \/ 65 <= b <= 90 /\ a = b + 32) k k'.
(** One schema: a condition stands alone; types are single; what is required is listed; additional items and properties are
    allowed or not; counts are natural numbers of 31 bits. *)
Record plain (s : json) : Prop := {
  pl_shape : (exists b, s = JBool b) \/ exists l, s = JObj l;
  pl_if : absent s "if" \/ absent s "then" \/
    Forall (absent s) ["type"; "enum"; "const"; "minimum"; "maximum"; "minLength"; "maxLength"; "items"; "additionalItems"; "minItems"; "maxItems";
                       "properties"; "required"; "additionalProperties"; "allOf"]%string;
  pl_else : absent s "if" \/ absent s "else";
  pl_type : forall ts, ~ member_is s "type" (JArr ts);
  pl_required : forall rs k, member_is s "required" (JArr rs) -> In (JStr k) rs -> exists ps, member_is s "properties" (JObj ps) /\ In k (map fst ps);
  pl_more_items : forall v, member_is s "additionalItems" v -> exists b, v = JBool b;
  pl_more_properties : forall v, member_is s "additionalProperties" v -> exists b, v = JBool b;
  pl_counts : forall k d, In k ["minLength"; "maxLength"; "minItems"; "maxItems"]%string -> member_is s k (JNum d) -> exists z, whole d z /\ 0 <= z < 2 ^ 31 }.
(** A document to be checked by such schemas: numbers fit into int, no name differs from a listed one by case only. *)
Definition testable (s j : json) : Prop :=
  (forall d, contains j (JNum d) -> exists z, truncates d z /\ - 2 ^ 31 <= z < 2 ^ 31)
  /\ forall x ps l k k', part s x -> member_is x "properties" (JObj ps) -> contains j (JObj l) -> In k (map fst l) -> In k' (map fst ps) -> but_for_case k k' -> k = k'.
