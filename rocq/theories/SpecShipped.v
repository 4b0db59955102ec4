(** The documents ladder_networks_schema.json is meant for, in words of the programmer. *)
From Coq Require Import String.
From Verif Require Export SpecSchema.
Open Scope string_scope.
Open Scope list_scope.
Open Scope Z_scope.

(** The symbols and, for each, the names and possible types of its operands. *)
Definition value1 (names : list string) : list (string * list string) := map (fun n => (n, ["D"])) names.
Definition forms : list (list string * list (string * list string)) :=
  [(["CONN"; "occupied"; "NOP"], []);
   (["NO"; "NC"; "RE"; "FE"], [("value", ["I"; "M"; "Q"])]);
   (["COIL"; "COILL"; "COILU"], [("value", ["M"; "Q"])]);
   (["TON"; "TOF"; "TP"], [("timer", ["T"]); ("basetime", ["MS"; "10MS"; "100MS"; "SEC"; "MIN"])]);
   (["CTU"; "CTD"], [("counter", ["C"]); ("preset value", ["NONE"])]);
   (["MOV"], value1 ["from"; "to"]);
   (["ADD"; "SUB"; "MUL"; "DIV"; "MOD"; "AND"; "OR"; "XOR"], value1 ["value1"; "value2"; "result"]);
   (["EQ"; "NE"; "GT"; "GE"; "LT"; "LE"], value1 ["value1"; "value2"]);
   (["TMOV"], value1 ["value1"; "value2"; "to"]);
   (["NOT"; "NEG"], value1 ["value"; "result"]);
   (["SHL"; "SHR"; "ROL"; "ROR"], value1 ["value"; "n"; "result"])].
(** An object has these names only. *)
Definition only (j : json) (ks : list string) : Prop := exists l, j = JObj l /\ forall k, In k (map fst l) -> exists s, In s ks /\ k = txt s.
Definition operand_form (f : string * list string) (j : json) : Prop :=
  only j ["name"; "type"; "value"] /\ string_is j "name" (txt (fst f)) /\ (exists t, In t (snd f) /\ string_is j "type" (txt t)) /\ exists s, string_is j "value" s.
Definition cell_form (j : json) : Prop :=
  only j ["symbol"; "bar"; "data"] /\ (exists b, member_is j "bar" (JBool b))
  /\ exists ss os s ds, In (ss, os) forms /\ In s ss /\ string_is j "symbol" (txt s) /\ member_is j "data" (JArr ds) /\ Forall2 operand_form os ds.
Definition whole_member (j : json) (k : string) : Prop := exists d z, member_is j k (JNum d) /\ whole d z.
Definition network_form (j : json) : Prop :=
  only j ["id"; "rows"; "cols"; "networkData"] /\ whole_member j "id" /\ whole_member j "rows" /\ whole_member j "cols"
  /\ exists rs, member_is j "networkData" (JArr rs) /\ Forall (fun r => exists cs, r = JArr cs /\ Forall cell_form cs) rs.
Definition document_form (j : json) : Prop := exists js, j = JArr js /\ Forall network_form js.

(** ** Loading and saving *)

(** Symbols the schema allows but the loader refuses in the form the schema asks for. *)
Definition refused_symbols : list string := ["TOF"; "NEG"; "SHL"; "SHR"; "ROL"; "ROR"; "TMOV"].
(** The text of an operand is a value of its type: module and port for inputs and outputs, otherwise a number. *)
Definition legible (ty : string) (s : list Z) : Prop :=
  (In ty ["I"; "Q"] -> exists m p, port_text s m p) /\ (~ In ty ["I"; "Q"] -> exists z, word_text s z).
Definition loadable (L : outside) (j : json) : Prop :=
  (forall s, string_is j "symbol" (txt s) -> ~ In s refused_symbols /\ (s = "occupied" -> beyond L = Ok 0%nat))
  /\ forall ds o ty s, member_is j "data" (JArr ds) -> In o ds -> string_is o "type" (txt ty) -> string_is o "value" s -> legible ty s.
(** The network is one of the program and has the announced rows and columns, of cells that can be loaded. *)
Definition placeable (L : outside) (nets : nat) (j : json) : Prop :=
  exists n rows cols rs, natural_is j "id" n /\ (n < nets)%nat /\ natural_is j "rows" rows /\ natural_is j "cols" cols /\ member_is j "networkData" (JArr rs)
    /\ length rs = rows /\ Z.of_nat rows < 2 ^ 31
    /\ Forall (fun r => exists cs, r = JArr cs /\ length cs = cols /\ Z.of_nat cols < 2 ^ 31 /\ Forall (loadable L) cs) rs.
(** Somewhere in the document is a cell. *)
Definition cell_in_document (j x : json) : Prop :=
  exists js n rs cs, j = JArr js /\ In n js /\ member_is n "networkData" (JArr rs) /\ In (JArr cs) rs /\ In x cs.

(** Instructions with the types of their operands that the saver writes as the schema asks. *)
Definition saved_forms : list (list ins * list (list reg)) :=
  [([I_CONN; I_MULTI; I_NOP], []);
   ([I_NO; I_NC; I_RE; I_FE], [[R_I; R_M; R_Q]]);
   ([I_COIL; I_COILL; I_COILU], [[R_M; R_Q]]);
   ([I_TON; I_TP], [[R_T]; [R_M; R_Q; R_I; R_Cd]]);
   ([I_CTU; I_CTD], [[R_C]; [R_NONE]]);
   ([I_ADD; I_SUB; I_MUL; I_DIV; I_MOD; I_AND; I_OR; I_XOR; I_TMOVE; I_SHL; I_SHR], [[R_D]; [R_D]; [R_D]]);
   ([I_EQ; I_NE; I_GT; I_GE; I_LT; I_LE; I_NOT], [[R_D]; [R_D]])].
Definition conforming (c : ctx) : Prop :=
  forall n r col bar i dq, program_cell c n r col -> peek c (LCell n r col) = Some (VCell bar i dq) ->
    exists is os, In (is, os) saved_forms /\ In i is /\ length os = dq /\ forall d ts v, nth_error os d = Some ts -> operand_at c n r col d v -> In (v_type v) ts.
