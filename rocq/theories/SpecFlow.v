(** Vocabulary for programs that go from a document through the checker to the machine. *)
From Coq Require Import String.
From Verif Require Export SpecCheck SpecJson.
Open Scope list_scope.
Open Scope Z_scope.

(** Every element of the document that says how many columns it has says a number other than 0. *)
Definition columns_given (js : list json) : Prop := forall j, In j js -> ~ natural_is j "cols" 0.
(** The tables named by TMOVE instructions of enabled networks are networks of the program, whatever the registers hold. *)
Definition tables_known (c : ctx) : Prop :=
  forall n rows cols r col, scanned c n rows cols -> (r < rows)%nat -> (col < cols)%nat -> code_at c n r col = I_TMOVE ->
    forall z, possible (input c n r col 0) z \/ possible (input c n r col 2) z -> 0 <= z < Z.of_nat (q_nets (x_q c)).
