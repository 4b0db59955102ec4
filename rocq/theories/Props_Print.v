(** Property theorems: drawing programs as text (C58 to C60). *)
From Coq Require Import String.
From Verif Require Import P_Print Demo.
Open Scope list_scope.
Open Scope Z_scope.
From Verif Require Import DemoTask.

(** ** C58 *)

(** C58: drawing a program whose cells can be drawn has no undefined behaviour, whichever allocations fail. *)
Theorem C58_safe : forall fname al c, printable c -> exists t, ladder_print fname al c = Ok t.
Proof. exact C58_safe_l. Qed.
Print Assumptions C58_safe.

(** C58: a program loaded from a file is drawn without undefined behaviour if no cell is a foreign function and no operand is a
    real that is not a number.  Missing: these two (refuted below). *)
Theorem C58_loaded_partial : forall L al js c c' fname al', checkable c -> releasable c -> json_to_program L al (F_doc (JArr js)) c = Ok (J_OK, c') ->
  (forall n r col, program_cell c' n r col -> code_at c' n r col <> I_FOREIGN) ->
  (forall n r col d v, program_cell c' n r col -> operand_at c' n r col d v -> v_type v = R_R -> writable v) ->
  exists t, ladder_print fname al' c' = Ok t.
Proof. exact C58_loaded_partial_l. Qed.
Print Assumptions C58_loaded_partial.

(** C58: a program from a file that begins with a foreign function is drawn by dereferencing NULL: the loader gives such cells
    no operand, and the name of the function is looked up by the operand. *)
Theorem C58_foreign_actual : forall L al js c c' fname al' en rows cols, releasable c -> json_to_program L al (F_doc (JArr js)) c = Ok (J_OK, c') ->
  (0 < q_nets (x_q c'))%nat -> peek c' (LNet 0) = Some (VNet en rows cols) -> (0 < rows <= 32)%nat -> (0 < cols <= 255)%nat ->
  code_at c' 0 0 0 = I_FOREIGN -> al' 0%nat = true -> ladder_print fname al' c' = Bad UB_null.
Proof. exact C58_foreign_actual_l. Qed.
Print Assumptions C58_foreign_actual.

(** C58: a program that begins with a foreign function that is not registered is drawn by reading outside the table of foreign
    functions, or from NULL if there is none: the number is compared with their quantity only after the description is read. *)
Theorem C58_unregistered_actual : forall fname al c en rows cols v f, (0 < q_nets (x_q c))%nat -> peek c (LNet 0) = Some (VNet en rows cols) -> (0 < rows <= 32)%nat -> (0 < cols <= 255)%nat ->
  code_at c 0 0 0 = I_FOREIGN -> peek c (LData 0 0 0 0) = Some (VVal v) -> peek c LForeign = Some (VForeign f) -> elem (fo_fn f) (ix (u32 (v_raw v))) = None -> al 0%nat = true ->
  ladder_print fname al c = Bad UB_oob \/ ladder_print fname al c = Bad UB_null.
Proof. exact C58_unregistered_actual_l. Qed.
Print Assumptions C58_unregistered_actual.

(** C58 is false of instructions with too few operands: a MOVE that has one is accepted by the checker and drawn by reading
    outside its operands. *)
Theorem C58_operand_refuted : exists fname al c, laid_out c /\ accepts c /\ ladder_print fname al c = Bad UB_oob.
Proof. exact C58_operand_refuted_l. Qed.
Print Assumptions C58_operand_refuted.

(** C58 is false of reals that are not numbers: the operand is accepted by the checker, and its conversion to int is undefined. *)
Theorem C58_nan_refuted : exists fname al c, laid_out c /\ accepts c /\ complete c /\ ladder_print fname al c = Bad UB_float.
Proof. exact C58_nan_refuted_l. Qed.
Print Assumptions C58_nan_refuted.
(** A file with a timer, a contact of an input and a real is loaded and drawn. *)
Definition drawn_doc : list json :=
  [net_j 0 2 [[cell_j "NO" false [op_j "v" "I" "0.1"]; cell_j "COIL" true [op_j "v" "M" "2"]]; [cell_j "NC" false [op_j "v" "M" "5"]; cell_j "CONN" true []]]]%string.
Definition drawn : ctx := loaded strict plenty drawn_doc (wide [empty_net]).
Example C58_example : checkable (wide [empty_net]) /\ releasable (wide [empty_net]) /\ json_to_program strict plenty (F_doc (JArr drawn_doc)) (wide [empty_net]) = Ok (J_OK, drawn)
  /\ printable drawn /\ ladder_print (fun _ => []) (fun _ => false) drawn
     = Ok (txt "Error: Failed to allocate memory for network 0 print (size: 1600 bytes). Skipping." ++ [10]).
Proof.
  split; [apply checkableb_ok; vm_compute; reflexivity|]. split; [apply releasableb_ok; vm_compute; reflexivity|]. split; [vm_compute; reflexivity|]. split; [apply printableb_ok; vm_compute; reflexivity|vm_compute; reflexivity].
Qed.
(** A foreign function from a file. *)
Definition foreign_doc : list json := [net_j 0 1 [[cell_j "FOREIGN" false []]]]%string.
Example C58_example_foreign : releasable (wide [empty_net]) /\ json_to_program strict plenty (F_doc (JArr foreign_doc)) (wide [empty_net]) = Ok (J_OK, loaded strict plenty foreign_doc (wide [empty_net]))
  /\ code_at (loaded strict plenty foreign_doc (wide [empty_net])) 0 0 0 = I_FOREIGN
  /\ ladder_print (fun _ => []) (fun _ => true) (loaded strict plenty foreign_doc (wide [empty_net])) = Bad UB_null.
Proof. split; [apply releasableb_ok; vm_compute; reflexivity|]. repeat split; vm_compute; reflexivity. Qed.
Example C58_example_unregistered : elem (fo_fn (x_for (demo [[cellv I_FOREIGN [V R_NONE 3]]]))) 3 = None
  /\ ladder_print (fun _ => []) (fun _ => true) (demo [[cellv I_FOREIGN [V R_NONE 3]]]) = Bad UB_null.
Proof. split; vm_compute; reflexivity. Qed.

(** ** C59 *)

(** C59: if the cells can be drawn, the networks are of a size that is drawn, the columns follow the rules for instructions of
    several rows and memory suffices, the drawing consists of the networks one below the other, each with its number, and
    shows every instruction: its symbol, its operands, the marks of its bars. *)
Theorem C59_shows : forall fname al c, printable c -> presentable c -> columns_follow c -> (forall n, al n = true) ->
  exists P t, ladder_print fname al c = Ok t /\ drawing c P t /\ shows c P.
Proof. exact C59_shows_l. Qed.
Print Assumptions C59_shows.

(** C59: so it is for programs the checker accepts. *)
Theorem C59_accepted : forall fname al c, checkable c -> accepts c -> printable c -> presentable c -> (forall n, al n = true) ->
  exists P t, ladder_print fname al c = Ok t /\ drawing c P t /\ shows c P.
Proof. exact C59_accepted_l. Qed.
Print Assumptions C59_accepted.

(** C59: if all operands are narrow, all lines of a network have the same length, 19 characters for each column between the
    frame. *)
Theorem C59_aligned : forall c P, shows c P -> columns_follow c -> all_narrow c ->
  forall n en rows cols r l, (n < q_nets (x_q c))%nat -> peek c (LNet n) = Some (VNet en rows cols) -> (r < rows)%nat -> (l < 2)%nat ->
    length (line_text (map (P n r l) (seq 0 cols))) = (19 * cols + 7)%nat.
Proof. exact C59_aligned_l. Qed.
Print Assumptions C59_aligned.

(** C59 is false of the frame: a number of five digits in an accepted program shifts the right edge of its line. *)
Theorem C59_ragged_refuted : exists fname al c t, laid_out c /\ accepts c /\ complete c /\ printable c /\ presentable c /\ ladder_print fname al c = Ok t /\ ragged t.
Proof. exact C59_ragged_refuted_l. Qed.
Print Assumptions C59_ragged_refuted.

(** C59 is false of some bars: a bar joins a cell to the one above it; if that is empty, or the last row of a box, nothing is drawn
    between them. *)
Theorem C59_bar_refuted : exists fname al c P t r1 col1 r2 col2, laid_out c /\ accepts c /\ complete c /\ printable c /\ presentable c
  /\ ladder_print fname al c = Ok t /\ drawing c P t /\ shows c P
  /\ code_at c 0 r1 col1 = I_NOP /\ bar_on c 0 (S r1) col1 /\ ~ stands_at (P 0%nat r1 1%nat col1) 18 (txt "|")
  /\ code_at c 0 r2 col2 = I_MULTI /\ bar_on c 0 (S r2) col2 /\ ~ stands_at (P 0%nat r2 1%nat col2) 18 (txt "|").
Proof. exact C59_bar_refuted_l. Qed.
Print Assumptions C59_bar_refuted.
(** A contact, a timer over two rows and coils joined by a bar. *)
Definition shown_rows : list (list cell) :=
  [[cellv I_NO [V R_I 0]; cellv I_TON [V R_T 1; V R_Q 50]; cellv I_COIL [V R_Q 256]];
   [cellv I_NC [V R_M 3]; mk_cell false false I_MULTI 0 None; bar (cellv I_COILL [V R_M 2])]].
Definition shown_text : list Z :=
  flat_map (fun l => txt l ++ [10])
    ["[Network 0 (enabled)]"; "";
     "    |--------| |-----------+-TON--------+----------( )-------+|";
     "    |      I 0.0           |  T 0001    |        Q 0.1       ||";
     "    |--------|/|--------   | 0050 100ms |----------(L)-------+|";
     "    |      M 0003          +------------+        M 0002       |"; ""; ""]%string.
Example C59_example : checkable (demo shown_rows) /\ accepts (demo shown_rows) /\ printable (demo shown_rows) /\ presentable (demo shown_rows).
Proof.
  split; [apply checkableb_ok; vm_compute; reflexivity|]. split; [apply acceptsb_ok; vm_compute; reflexivity|]. split; [apply printableb_ok; vm_compute; reflexivity|apply presentableb_ok; vm_compute; reflexivity].
Qed.
Example C59_example_text : ladder_print (fun _ => []) (fun _ => true) (demo shown_rows) = Ok shown_text.
Proof. vm_compute. reflexivity. Qed.
Example C59_example_narrow : columns_follow (demo shown_rows) /\ all_narrow (demo shown_rows).
Proof.
  destruct C59_example as (K & A & _). split. { apply C40_accepts_l in A as [_ O1]; auto. intros n en rows cols r col N P R C. apply (O1 n en rows cols r col N P R C). }
  intros n r col h d v (N & en & rows & cols & P & R & C). vm_compute in N. assert (n = 0)%nat by lia. subst n. vm_compute in P. injection P as <- <- <-.
  assert (RC : (r = 0 \/ r = 1)%nat /\ (col = 0 \/ col = 1 \/ col = 2)%nat) by lia. destruct RC as [[->| ->] [->|[->| ->]]]; intros T; (split; [vm_compute; discriminate|]);
    vm_compute in T; try contradiction; destruct T as [k T]; injection T as <- <-; intros D V; (destruct d as [|[|d]]; [| |lia]); vm_compute in V; try discriminate; injection V as <-; vm_compute; repeat split; try discriminate; auto; left; split; reflexivity.
Qed.

(** ** C60 *)

(** C60: a real number of magnitude up to a million is written with two decimal places, rounded to the nearest hundredth, with a
    minus sign if it is negative and the part before the point is not zero. *)
Theorem C60_digits : forall u m e, f32_denotes (u32 u) m e -> e < 0 -> Z.abs m <= 10 ^ 6 * 2 ^ (- e) ->
  exists s w f, ftos u = Ok s /\ nearest_hundredth m e w f /\ real_text ((m <? 0) && negb (w =? 0)) w f s.
Proof. exact C60_digits_l. Qed.
Print Assumptions C60_digits.

(** C60: a larger one, an infinite one included, is written OVF. *)
Theorem C60_large : forall u, (exists m e, f32_denotes (u32 u) m e /\ (0 <= e \/ 10 ^ 6 * 2 ^ (- e) < Z.abs m)) \/ u32 u mod 2 ^ 31 = 255 * 2 ^ 23 -> ftos u = Ok (txt "OVF     ").
Proof. exact C60_large_l. Qed.
Print Assumptions C60_large.

(** C60 is false of the sign of numbers between -1 and 0: minus one half and one half are written alike. *)
Theorem C60_sign_refuted : exists u u' m m' e, f32_denotes (u32 u) m e /\ f32_denotes (u32 u') m' e /\ e = -24 /\ m = - 2 ^ 23 /\ m' = 2 ^ 23 /\ ftos u = Ok (txt "0.50  ") /\ ftos u' = Ok (txt "0.50  ").
Proof. exact C60_sign_refuted_l. Qed.
Print Assumptions C60_sign_refuted.
(** -3.14159 *)
Example C60_example : f32_denotes (u32 3226013648) (-13176784) (-22) /\ Z.abs (-13176784) <= 10 ^ 6 * 2 ^ 22 /\ ftos 3226013648 = Ok (txt "-3.14  ").
Proof. vm_compute. repeat split; discriminate. Qed.
(** 999.996 is carried over; 10^38 is too large. *)
Example C60_example_carry : ftos 1148846016 = Ok (txt "1000.00  ") /\ ftos 2123789977 = Ok (txt "OVF     ").
Proof. vm_compute. auto. Qed.
