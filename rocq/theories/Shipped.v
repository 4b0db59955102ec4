(** The schema that comes with the library. *)
From Coq Require Import String.
From Verif Require Export SchemaFacts.
Open Scope string_scope.
Open Scope list_scope.
Open Scope Z_scope.

Definition obj_j (l : list (string * json)) : json := JObj (map (fun p => (txt (fst p), snd p)) l).
Definition texts_j (l : list string) : json := JArr (map (fun t => JStr (txt t)) l).
(** ladder_networks_schema.json:1-662 *)
Definition shipped : json :=
 obj_j [
  ("$schema", JStr (txt "http://json-schema.org/draft-07/schema#"));
  ("type", JStr (txt "array"));
  ("items", obj_j [
   ("type", JStr (txt "object"));
   ("properties", obj_j [
    ("id", obj_j [("type", JStr (txt "integer"))]);
    ("rows", obj_j [("type", JStr (txt "integer"))]);
    ("cols", obj_j [("type", JStr (txt "integer"))]);
    ("networkData", obj_j [
     ("type", JStr (txt "array"));
     ("items", obj_j [
      ("type", JStr (txt "array"));
      ("items", obj_j [
       ("type", JStr (txt "object"));
       ("properties", obj_j [
        ("symbol", obj_j [
         ("type", JStr (txt "string"));
         ("enum", texts_j ["CONN"; "NEG"; "NO"; "NC"; "RE"; "FE"; "COIL"; "COILL"; "TON"; "TOF"; "TP"; "CTU"; "occupied"; "NOP"; "CTD"; "MOV"; "SUB"; "ADD"; "MUL"; "NE"; "TMOV"; "DIV"; "MOD"; "SHL"; "SHR"; "ROL"; "ROR"; "AND"; "OR"; "XOR"; "NOT"; "EQ"; "GT"; "GE"; "LT"; "LE"; "COILU"])]);
        ("bar", obj_j [("type", JStr (txt "boolean"))]);
        ("data", obj_j [
         ("type", JStr (txt "array"));
         ("items", obj_j [
          ("type", JStr (txt "object"));
          ("properties", obj_j [
           ("name", obj_j [("type", JStr (txt "string"))]);
           ("type", obj_j [("type", JStr (txt "string")); ("enum", texts_j ["I"; "M"; "T"; "MS"; "C"; "D"; "NONE"; "Q"; "SEC"; "10MS"; "100MS"; "MIN"])]);
           ("value", obj_j [("type", JStr (txt "string"))])]);
          ("required", texts_j ["name"; "type"; "value"]);
          ("additionalProperties", JBool false)])])]);
       ("required", texts_j ["symbol"; "bar"; "data"]);
       ("additionalProperties", JBool false);
       ("allOf", JArr [
        obj_j [
         ("if", obj_j [("properties", obj_j [("symbol", obj_j [("enum", texts_j ["CONN"; "occupied"; "NOP"])])])]);
         ("then", obj_j [("properties", obj_j [("data", obj_j [("minItems", int_num 0); ("maxItems", int_num 0)])])])];
        obj_j [
         ("if", obj_j [("properties", obj_j [("symbol", obj_j [("enum", texts_j ["NO"; "NC"; "RE"; "FE"])])])]);
         ("then", obj_j [
          ("properties", obj_j [
           ("data", obj_j [
            ("minItems", int_num 1);
            ("maxItems", int_num 1);
            ("items", JArr [
             obj_j [("properties", obj_j [("name", obj_j [("const", JStr (txt "value"))]); ("type", obj_j [("enum", texts_j ["I"; "M"; "Q"])]); ("value", obj_j [("type", JStr (txt "string"))])])]])])])])];
        obj_j [
         ("if", obj_j [("properties", obj_j [("symbol", obj_j [("enum", texts_j ["COIL"; "COILL"; "COILU"])])])]);
         ("then", obj_j [
          ("properties", obj_j [
           ("data", obj_j [
            ("minItems", int_num 1);
            ("maxItems", int_num 1);
            ("items", JArr [
             obj_j [("properties", obj_j [("name", obj_j [("const", JStr (txt "value"))]); ("type", obj_j [("enum", texts_j ["M"; "Q"])]); ("value", obj_j [("type", JStr (txt "string"))])])]])])])])];
        obj_j [
         ("if", obj_j [("properties", obj_j [("symbol", obj_j [("enum", texts_j ["TON"; "TOF"; "TP"])])])]);
         ("then", obj_j [
          ("properties", obj_j [
           ("data", obj_j [
            ("minItems", int_num 2);
            ("maxItems", int_num 2);
            ("items", JArr [
             obj_j [("properties", obj_j [("name", obj_j [("const", JStr (txt "timer"))]); ("type", obj_j [("const", JStr (txt "T"))]); ("value", obj_j [("type", JStr (txt "string"))])])];
             obj_j [
              ("properties", obj_j [
               ("name", obj_j [("const", JStr (txt "basetime"))]);
               ("type", obj_j [("enum", texts_j ["MS"; "10MS"; "100MS"; "SEC"; "MIN"])]);
               ("value", obj_j [("type", JStr (txt "string"))])])]])])])])];
        obj_j [
         ("if", obj_j [("properties", obj_j [("symbol", obj_j [("enum", texts_j ["CTU"; "CTD"])])])]);
         ("then", obj_j [
          ("properties", obj_j [
           ("data", obj_j [
            ("minItems", int_num 2);
            ("maxItems", int_num 2);
            ("items", JArr [
             obj_j [("properties", obj_j [("name", obj_j [("const", JStr (txt "counter"))]); ("type", obj_j [("const", JStr (txt "C"))]); ("value", obj_j [("type", JStr (txt "string"))])])];
             obj_j [("properties", obj_j [("name", obj_j [("const", JStr (txt "preset value"))]); ("type", obj_j [("const", JStr (txt "NONE"))]); ("value", obj_j [("type", JStr (txt "string"))])])]])])])])];
        obj_j [
         ("if", obj_j [("properties", obj_j [("symbol", obj_j [("const", JStr (txt "MOV"))])])]);
         ("then", obj_j [
          ("properties", obj_j [
           ("data", obj_j [
            ("minItems", int_num 2);
            ("maxItems", int_num 2);
            ("items", JArr [
             obj_j [("properties", obj_j [("name", obj_j [("const", JStr (txt "from"))]); ("type", obj_j [("const", JStr (txt "D"))]); ("value", obj_j [("type", JStr (txt "string"))])])];
             obj_j [("properties", obj_j [("name", obj_j [("const", JStr (txt "to"))]); ("type", obj_j [("const", JStr (txt "D"))]); ("value", obj_j [("type", JStr (txt "string"))])])]])])])])];
        obj_j [
         ("if", obj_j [("properties", obj_j [("symbol", obj_j [("enum", texts_j ["ADD"; "SUB"; "MUL"; "DIV"; "MOD"; "AND"; "OR"; "XOR"])])])]);
         ("then", obj_j [
          ("properties", obj_j [
           ("data", obj_j [
            ("minItems", int_num 3);
            ("maxItems", int_num 3);
            ("items", JArr [
             obj_j [("properties", obj_j [("name", obj_j [("const", JStr (txt "value1"))]); ("type", obj_j [("const", JStr (txt "D"))]); ("value", obj_j [("type", JStr (txt "string"))])])];
             obj_j [("properties", obj_j [("name", obj_j [("const", JStr (txt "value2"))]); ("type", obj_j [("const", JStr (txt "D"))]); ("value", obj_j [("type", JStr (txt "string"))])])];
             obj_j [("properties", obj_j [("name", obj_j [("const", JStr (txt "result"))]); ("type", obj_j [("const", JStr (txt "D"))]); ("value", obj_j [("type", JStr (txt "string"))])])]])])])])];
        obj_j [
         ("if", obj_j [("properties", obj_j [("symbol", obj_j [("enum", texts_j ["EQ"; "NE"; "GT"; "GE"; "LT"; "LE"])])])]);
         ("then", obj_j [
          ("properties", obj_j [
           ("data", obj_j [
            ("minItems", int_num 2);
            ("maxItems", int_num 2);
            ("items", JArr [
             obj_j [("properties", obj_j [("name", obj_j [("const", JStr (txt "value1"))]); ("type", obj_j [("const", JStr (txt "D"))]); ("value", obj_j [("type", JStr (txt "string"))])])];
             obj_j [("properties", obj_j [("name", obj_j [("const", JStr (txt "value2"))]); ("type", obj_j [("const", JStr (txt "D"))]); ("value", obj_j [("type", JStr (txt "string"))])])]])])])])];
        obj_j [
         ("if", obj_j [("properties", obj_j [("symbol", obj_j [("const", JStr (txt "TMOV"))])])]);
         ("then", obj_j [
          ("properties", obj_j [
           ("data", obj_j [
            ("minItems", int_num 3);
            ("maxItems", int_num 3);
            ("items", JArr [
             obj_j [("properties", obj_j [("name", obj_j [("const", JStr (txt "value1"))]); ("type", obj_j [("const", JStr (txt "D"))]); ("value", obj_j [("type", JStr (txt "string"))])])];
             obj_j [("properties", obj_j [("name", obj_j [("const", JStr (txt "value2"))]); ("type", obj_j [("const", JStr (txt "D"))]); ("value", obj_j [("type", JStr (txt "string"))])])];
             obj_j [("properties", obj_j [("name", obj_j [("const", JStr (txt "to"))]); ("type", obj_j [("const", JStr (txt "D"))]); ("value", obj_j [("type", JStr (txt "string"))])])]])])])])];
        obj_j [
         ("if", obj_j [("properties", obj_j [("symbol", obj_j [("enum", texts_j ["NOT"; "NEG"])])])]);
         ("then", obj_j [
          ("properties", obj_j [
           ("data", obj_j [
            ("minItems", int_num 2);
            ("maxItems", int_num 2);
            ("items", JArr [
             obj_j [("properties", obj_j [("name", obj_j [("const", JStr (txt "value"))]); ("type", obj_j [("const", JStr (txt "D"))]); ("value", obj_j [("type", JStr (txt "string"))])])];
             obj_j [("properties", obj_j [("name", obj_j [("const", JStr (txt "result"))]); ("type", obj_j [("const", JStr (txt "D"))]); ("value", obj_j [("type", JStr (txt "string"))])])]])])])])];
        obj_j [
         ("if", obj_j [("properties", obj_j [("symbol", obj_j [("enum", texts_j ["SHL"; "SHR"; "ROL"; "ROR"])])])]);
         ("then", obj_j [
          ("properties", obj_j [
           ("data", obj_j [
            ("minItems", int_num 3);
            ("maxItems", int_num 3);
            ("items", JArr [
             obj_j [("properties", obj_j [("name", obj_j [("const", JStr (txt "value"))]); ("type", obj_j [("const", JStr (txt "D"))]); ("value", obj_j [("type", JStr (txt "string"))])])];
             obj_j [("properties", obj_j [("name", obj_j [("const", JStr (txt "n"))]); ("type", obj_j [("const", JStr (txt "D"))]); ("value", obj_j [("type", JStr (txt "string"))])])];
             obj_j [("properties", obj_j [("name", obj_j [("const", JStr (txt "result"))]); ("type", obj_j [("const", JStr (txt "D"))]); ("value", obj_j [("type", JStr (txt "string"))])])]])])])])]])])])])]);
   ("required", texts_j ["id"; "rows"; "cols"; "networkData"]);
   ("additionalProperties", JBool false)])].

(** ladder_networks.json:1-805, the program that comes with the library *)
Definition demo_json : json :=
 JArr [
  obj_j [
   ("id", int_num 0);
   ("rows", int_num 7);
   ("cols", int_num 5);
   ("networkData", JArr [
    JArr [
     obj_j [("symbol", JStr (txt "NC")); ("bar", JBool false); ("data", JArr [
       obj_j [("name", JStr (txt "value")); ("type", JStr (txt "M")); ("value", JStr (txt "3"))]])];
     obj_j [("symbol", JStr (txt "NC")); ("bar", JBool false); ("data", JArr [
       obj_j [("name", JStr (txt "value")); ("type", JStr (txt "M")); ("value", JStr (txt "2"))]])];
     obj_j [
      ("symbol", JStr (txt "TON"));
      ("bar", JBool false);
      ("data", JArr [
       obj_j [("name", JStr (txt "timer")); ("type", JStr (txt "T")); ("value", JStr (txt "0"))];
       obj_j [("name", JStr (txt "basetime")); ("type", JStr (txt "SEC")); ("value", JStr (txt "5"))]])];
     obj_j [("symbol", JStr (txt "CONN")); ("bar", JBool false); ("data", JArr [])];
     obj_j [("symbol", JStr (txt "COIL")); ("bar", JBool false); ("data", JArr [
       obj_j [("name", JStr (txt "value")); ("type", JStr (txt "M")); ("value", JStr (txt "1"))]])]];
    JArr [
     obj_j [("symbol", JStr (txt "NOP")); ("bar", JBool false); ("data", JArr [])];
     obj_j [("symbol", JStr (txt "NOP")); ("bar", JBool false); ("data", JArr [])];
     obj_j [("symbol", JStr (txt "occupied")); ("bar", JBool false); ("data", JArr [])];
     obj_j [("symbol", JStr (txt "NOP")); ("bar", JBool false); ("data", JArr [])];
     obj_j [("symbol", JStr (txt "NOP")); ("bar", JBool false); ("data", JArr [])]];
    JArr [
     obj_j [("symbol", JStr (txt "NO")); ("bar", JBool false); ("data", JArr [
       obj_j [("name", JStr (txt "value")); ("type", JStr (txt "M")); ("value", JStr (txt "1"))]])];
     obj_j [("symbol", JStr (txt "CONN")); ("bar", JBool false); ("data", JArr [])];
     obj_j [
      ("symbol", JStr (txt "TON"));
      ("bar", JBool false);
      ("data", JArr [
       obj_j [("name", JStr (txt "timer")); ("type", JStr (txt "T")); ("value", JStr (txt "1"))];
       obj_j [("name", JStr (txt "basetime")); ("type", JStr (txt "SEC")); ("value", JStr (txt "5"))]])];
     obj_j [("symbol", JStr (txt "CONN")); ("bar", JBool false); ("data", JArr [])];
     obj_j [("symbol", JStr (txt "COIL")); ("bar", JBool false); ("data", JArr [
       obj_j [("name", JStr (txt "value")); ("type", JStr (txt "M")); ("value", JStr (txt "2"))]])]];
    JArr [
     obj_j [("symbol", JStr (txt "NOP")); ("bar", JBool false); ("data", JArr [])];
     obj_j [("symbol", JStr (txt "NOP")); ("bar", JBool false); ("data", JArr [])];
     obj_j [("symbol", JStr (txt "occupied")); ("bar", JBool false); ("data", JArr [])];
     obj_j [("symbol", JStr (txt "NOP")); ("bar", JBool false); ("data", JArr [])];
     obj_j [("symbol", JStr (txt "NOP")); ("bar", JBool false); ("data", JArr [])]];
    JArr [
     obj_j [("symbol", JStr (txt "NO")); ("bar", JBool false); ("data", JArr [
       obj_j [("name", JStr (txt "value")); ("type", JStr (txt "M")); ("value", JStr (txt "1"))]])];
     obj_j [("symbol", JStr (txt "CONN")); ("bar", JBool false); ("data", JArr [])];
     obj_j [("symbol", JStr (txt "CONN")); ("bar", JBool false); ("data", JArr [])];
     obj_j [("symbol", JStr (txt "CONN")); ("bar", JBool false); ("data", JArr [])];
     obj_j [("symbol", JStr (txt "COIL")); ("bar", JBool false); ("data", JArr [
       obj_j [("name", JStr (txt "value")); ("type", JStr (txt "Q")); ("value", JStr (txt "0.0"))]])]];
    JArr [
     obj_j [("symbol", JStr (txt "NO")); ("bar", JBool false); ("data", JArr [
       obj_j [("name", JStr (txt "value")); ("type", JStr (txt "Q")); ("value", JStr (txt "0.0"))]])];
     obj_j [("symbol", JStr (txt "CONN")); ("bar", JBool false); ("data", JArr [])];
     obj_j [
      ("symbol", JStr (txt "CTU"));
      ("bar", JBool false);
      ("data", JArr [
       obj_j [("name", JStr (txt "counter")); ("type", JStr (txt "C")); ("value", JStr (txt "0"))];
       obj_j [("name", JStr (txt "preset value")); ("type", JStr (txt "NONE")); ("value", JStr (txt "5"))]])];
     obj_j [("symbol", JStr (txt "CONN")); ("bar", JBool false); ("data", JArr [])];
     obj_j [("symbol", JStr (txt "COIL")); ("bar", JBool false); ("data", JArr [
       obj_j [("name", JStr (txt "value")); ("type", JStr (txt "M")); ("value", JStr (txt "3"))]])]];
    JArr [
     obj_j [("symbol", JStr (txt "NOP")); ("bar", JBool false); ("data", JArr [])];
     obj_j [("symbol", JStr (txt "NOP")); ("bar", JBool false); ("data", JArr [])];
     obj_j [("symbol", JStr (txt "occupied")); ("bar", JBool false); ("data", JArr [])];
     obj_j [("symbol", JStr (txt "NOP")); ("bar", JBool false); ("data", JArr [])];
     obj_j [("symbol", JStr (txt "NOP")); ("bar", JBool false); ("data", JArr [])]]])];
  obj_j [
   ("id", int_num 1);
   ("rows", int_num 7);
   ("cols", int_num 5);
   ("networkData", JArr [
    JArr [
     obj_j [("symbol", JStr (txt "NO")); ("bar", JBool false); ("data", JArr [
       obj_j [("name", JStr (txt "value")); ("type", JStr (txt "M")); ("value", JStr (txt "3"))]])];
     obj_j [("symbol", JStr (txt "NC")); ("bar", JBool false); ("data", JArr [
       obj_j [("name", JStr (txt "value")); ("type", JStr (txt "M")); ("value", JStr (txt "4"))]])];
     obj_j [("symbol", JStr (txt "NC")); ("bar", JBool false); ("data", JArr [
       obj_j [("name", JStr (txt "value")); ("type", JStr (txt "M")); ("value", JStr (txt "5"))]])];
     obj_j [
      ("symbol", JStr (txt "TON"));
      ("bar", JBool false);
      ("data", JArr [
       obj_j [("name", JStr (txt "timer")); ("type", JStr (txt "T")); ("value", JStr (txt "2"))];
       obj_j [("name", JStr (txt "basetime")); ("type", JStr (txt "SEC")); ("value", JStr (txt "5"))]])];
     obj_j [("symbol", JStr (txt "COIL")); ("bar", JBool false); ("data", JArr [
       obj_j [("name", JStr (txt "value")); ("type", JStr (txt "M")); ("value", JStr (txt "6"))]])]];
    JArr [
     obj_j [("symbol", JStr (txt "NOP")); ("bar", JBool false); ("data", JArr [])];
     obj_j [("symbol", JStr (txt "NOP")); ("bar", JBool false); ("data", JArr [])];
     obj_j [("symbol", JStr (txt "NOP")); ("bar", JBool false); ("data", JArr [])];
     obj_j [("symbol", JStr (txt "occupied")); ("bar", JBool false); ("data", JArr [])];
     obj_j [("symbol", JStr (txt "CONN")); ("bar", JBool false); ("data", JArr [])]];
    JArr [
     obj_j [("symbol", JStr (txt "NO")); ("bar", JBool false); ("data", JArr [
       obj_j [("name", JStr (txt "value")); ("type", JStr (txt "M")); ("value", JStr (txt "6"))]])];
     obj_j [("symbol", JStr (txt "CONN")); ("bar", JBool false); ("data", JArr [])];
     obj_j [("symbol", JStr (txt "CONN")); ("bar", JBool false); ("data", JArr [])];
     obj_j [
      ("symbol", JStr (txt "TON"));
      ("bar", JBool false);
      ("data", JArr [
       obj_j [("name", JStr (txt "timer")); ("type", JStr (txt "T")); ("value", JStr (txt "3"))];
       obj_j [("name", JStr (txt "basetime")); ("type", JStr (txt "SEC")); ("value", JStr (txt "5"))]])];
     obj_j [("symbol", JStr (txt "COIL")); ("bar", JBool false); ("data", JArr [
       obj_j [("name", JStr (txt "value")); ("type", JStr (txt "M")); ("value", JStr (txt "5"))]])]];
    JArr [
     obj_j [("symbol", JStr (txt "NOP")); ("bar", JBool false); ("data", JArr [])];
     obj_j [("symbol", JStr (txt "NOP")); ("bar", JBool false); ("data", JArr [])];
     obj_j [("symbol", JStr (txt "NOP")); ("bar", JBool false); ("data", JArr [])];
     obj_j [("symbol", JStr (txt "occupied")); ("bar", JBool false); ("data", JArr [])];
     obj_j [("symbol", JStr (txt "NOP")); ("bar", JBool false); ("data", JArr [])]];
    JArr [
     obj_j [("symbol", JStr (txt "NO")); ("bar", JBool false); ("data", JArr [
       obj_j [("name", JStr (txt "value")); ("type", JStr (txt "M")); ("value", JStr (txt "6"))]])];
     obj_j [("symbol", JStr (txt "CONN")); ("bar", JBool false); ("data", JArr [])];
     obj_j [("symbol", JStr (txt "CONN")); ("bar", JBool false); ("data", JArr [])];
     obj_j [("symbol", JStr (txt "CONN")); ("bar", JBool false); ("data", JArr [])];
     obj_j [("symbol", JStr (txt "COIL")); ("bar", JBool false); ("data", JArr [
       obj_j [("name", JStr (txt "value")); ("type", JStr (txt "Q")); ("value", JStr (txt "0.1"))]])]];
    JArr [
     obj_j [("symbol", JStr (txt "NO")); ("bar", JBool false); ("data", JArr [
       obj_j [("name", JStr (txt "value")); ("type", JStr (txt "Q")); ("value", JStr (txt "0.1"))]])];
     obj_j [("symbol", JStr (txt "CONN")); ("bar", JBool false); ("data", JArr [])];
     obj_j [("symbol", JStr (txt "CONN")); ("bar", JBool false); ("data", JArr [])];
     obj_j [
      ("symbol", JStr (txt "CTU"));
      ("bar", JBool false);
      ("data", JArr [
       obj_j [("name", JStr (txt "counter")); ("type", JStr (txt "C")); ("value", JStr (txt "1"))];
       obj_j [("name", JStr (txt "preset value")); ("type", JStr (txt "NONE")); ("value", JStr (txt "5"))]])];
     obj_j [("symbol", JStr (txt "COIL")); ("bar", JBool false); ("data", JArr [
       obj_j [("name", JStr (txt "value")); ("type", JStr (txt "M")); ("value", JStr (txt "4"))]])]];
    JArr [
     obj_j [("symbol", JStr (txt "NOP")); ("bar", JBool false); ("data", JArr [])];
     obj_j [("symbol", JStr (txt "NOP")); ("bar", JBool false); ("data", JArr [])];
     obj_j [("symbol", JStr (txt "NOP")); ("bar", JBool false); ("data", JArr [])];
     obj_j [("symbol", JStr (txt "occupied")); ("bar", JBool false); ("data", JArr [])];
     obj_j [("symbol", JStr (txt "NOP")); ("bar", JBool false); ("data", JArr [])]]])];
  obj_j [
   ("id", int_num 2);
   ("rows", int_num 7);
   ("cols", int_num 5);
   ("networkData", JArr [
    JArr [
     obj_j [("symbol", JStr (txt "NO")); ("bar", JBool false); ("data", JArr [
       obj_j [("name", JStr (txt "value")); ("type", JStr (txt "I")); ("value", JStr (txt "0.7"))]])];
     obj_j [("symbol", JStr (txt "CONN")); ("bar", JBool false); ("data", JArr [])];
     obj_j [("symbol", JStr (txt "CONN")); ("bar", JBool false); ("data", JArr [])];
     obj_j [("symbol", JStr (txt "CONN")); ("bar", JBool false); ("data", JArr [])];
     obj_j [("symbol", JStr (txt "COIL")); ("bar", JBool false); ("data", JArr [
       obj_j [("name", JStr (txt "value")); ("type", JStr (txt "Q")); ("value", JStr (txt "0.3"))]])]];
    JArr [
     obj_j [("symbol", JStr (txt "NOP")); ("bar", JBool false); ("data", JArr [])];
     obj_j [("symbol", JStr (txt "NOP")); ("bar", JBool false); ("data", JArr [])];
     obj_j [("symbol", JStr (txt "NOP")); ("bar", JBool false); ("data", JArr [])];
     obj_j [("symbol", JStr (txt "NOP")); ("bar", JBool true); ("data", JArr [])];
     obj_j [("symbol", JStr (txt "COIL")); ("bar", JBool false); ("data", JArr [
       obj_j [("name", JStr (txt "value")); ("type", JStr (txt "Q")); ("value", JStr (txt "0.4"))]])]];
    JArr [
     obj_j [("symbol", JStr (txt "NOP")); ("bar", JBool false); ("data", JArr [])];
     obj_j [("symbol", JStr (txt "NOP")); ("bar", JBool false); ("data", JArr [])];
     obj_j [("symbol", JStr (txt "NOP")); ("bar", JBool false); ("data", JArr [])];
     obj_j [("symbol", JStr (txt "NOP")); ("bar", JBool false); ("data", JArr [])];
     obj_j [("symbol", JStr (txt "NOP")); ("bar", JBool false); ("data", JArr [])]];
    JArr [
     obj_j [("symbol", JStr (txt "NOP")); ("bar", JBool false); ("data", JArr [])];
     obj_j [("symbol", JStr (txt "NOP")); ("bar", JBool false); ("data", JArr [])];
     obj_j [("symbol", JStr (txt "NOP")); ("bar", JBool false); ("data", JArr [])];
     obj_j [("symbol", JStr (txt "NOP")); ("bar", JBool false); ("data", JArr [])];
     obj_j [("symbol", JStr (txt "NOP")); ("bar", JBool false); ("data", JArr [])]];
    JArr [
     obj_j [("symbol", JStr (txt "NOP")); ("bar", JBool false); ("data", JArr [])];
     obj_j [("symbol", JStr (txt "NOP")); ("bar", JBool false); ("data", JArr [])];
     obj_j [("symbol", JStr (txt "NOP")); ("bar", JBool false); ("data", JArr [])];
     obj_j [("symbol", JStr (txt "NOP")); ("bar", JBool false); ("data", JArr [])];
     obj_j [("symbol", JStr (txt "NOP")); ("bar", JBool false); ("data", JArr [])]];
    JArr [
     obj_j [("symbol", JStr (txt "NOP")); ("bar", JBool false); ("data", JArr [])];
     obj_j [("symbol", JStr (txt "NOP")); ("bar", JBool false); ("data", JArr [])];
     obj_j [("symbol", JStr (txt "NOP")); ("bar", JBool false); ("data", JArr [])];
     obj_j [("symbol", JStr (txt "NOP")); ("bar", JBool false); ("data", JArr [])];
     obj_j [("symbol", JStr (txt "NOP")); ("bar", JBool false); ("data", JArr [])]];
    JArr [
     obj_j [("symbol", JStr (txt "COIL")); ("bar", JBool false); ("data", JArr [
       obj_j [("name", JStr (txt "value")); ("type", JStr (txt "M")); ("value", JStr (txt "10"))]])];
     obj_j [("symbol", JStr (txt "COIL")); ("bar", JBool false); ("data", JArr [
       obj_j [("name", JStr (txt "value")); ("type", JStr (txt "M")); ("value", JStr (txt "12"))]])];
     obj_j [("symbol", JStr (txt "COIL")); ("bar", JBool false); ("data", JArr [
       obj_j [("name", JStr (txt "value")); ("type", JStr (txt "M")); ("value", JStr (txt "14"))]])];
     obj_j [("symbol", JStr (txt "CONN")); ("bar", JBool false); ("data", JArr [])];
     obj_j [("symbol", JStr (txt "CONN")); ("bar", JBool false); ("data", JArr [])]]])]].
