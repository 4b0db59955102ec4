(** drawing programs as text (C58 to C60). *)
From Coq Require Import String.
From Verif Require Import DemoTask.
From Verif Require Export PrintShow DemoPrint FlowFacts P_Flow.
Open Scope list_scope.
Open Scope Z_scope.
(*IMPORT DemoTask *)

(** ** C58 *)

(** C58: drawing a program whose cells can be drawn has no undefined behaviour, whichever allocations fail. *)
Lemma C58_safe_l : forall fname al c, printable c -> exists t, ladder_print fname al c = Ok t.
Proof. intros fname al c H. now apply print_total. Qed.
Lemma loaded_type ty t : In (ty, t) (types ++ bases) -> match t with R_INV | R_OTHER _ => False | _ => True end.
Proof. intros H. simpl in H. repeat (destruct H as [H|H]; [injection H as <- <-; exact I|]). contradiction. Qed.
Lemma cell_text_operands L j x d v : cell_text L j x -> elem (c_data x) d = Some v -> base_place (c_code x) d \/ (v_type v <> R_R -> writable v).
Proof.
  intros (s & i & b & ds & vs & _ & _ & _ & _ & _ & LV & OT & ->). cbn [c_code c_data]. intros E.
  assert (E' : nth_error vs d = Some v) by (destruct ds; [destruct vs; [destruct d; discriminate|discriminate]|exact E]).
  destruct (nth_error ds d) as [o|] eqn:O1; [|apply nth_error_None in O1; assert (d < length vs)%nat by (apply nth_error_Some; congruence); lia].
  destruct (OT d o v O1 E') as (nm & ty & t & s0 & _ & _ & _ & [(B & _)|(_ & T & SF)]); [now left|]. right. apply loaded_type in T. inversion SF; subst; unfold writable; cbn [v_type v_str v_raw] in *; try congruence.
  - destruct H; subst; exact (fun _ => I).
  - intros _. destruct t; auto; simpl in H; tauto.
Qed.
Lemma loaded_operand L al f c c' n r col x d v : checkable c -> releasable c -> json_to_program L al f c = Ok (J_OK, c') -> program_cell c' n r col -> cell_of c' n r col = Some x ->
  elem (c_data x) d = Some v -> base_place (c_code x) d \/ (v_type v <> R_R -> writable v).
Proof.
  intros K R H (N & en & rows & cols & P & R1 & C1) X E. destruct (loaded_networks L al f c c' R H) as (js & _ & F & _ & NS).
  assert (Q : x_q c' = x_q c) by (apply same_machine in F; rewrite F; destruct c; reflexivity). rewrite Q in N.
  destruct (NS n N) as [(j & nt & _ & T & O1)|(nt0 & nt & O0 & M & O1)]; rewrite (net_peek _ _ _ O1) in P; injection P as <- <- <-; rewrite (cell_of_net _ _ _ _ _ O1) in X.
  - destruct (network_cell L j nt r col T R1 C1) as (jc & x' & X' & CT). rewrite X in X'. injection X' as <-. eapply cell_text_operands; eauto.
  - exfalso. assert (M' := M). apply map_cells_spec in M' as (_ & RR & CC & _ & _ & MS). rewrite RR in R1. rewrite CC in C1.
    assert (X2 := map_cells_exist _ _ _ r col M R1 C1). destruct (ncell nt0 r col) as [x0|] eqn:X1; [|congruence]. specialize (MS r col x0 X1).
    rewrite (proj2 (in_rect_lt nt0 r col)) in MS by auto. destruct MS as (y & Y & Y2). rewrite X in Y2. injection Y2 as <-. apply clear_cell_ok in Y as (_ & _ & _ & Y & _). rewrite Y in E. destruct d; discriminate.
Qed.
(** C58: a program loaded from a file is drawn without undefined behaviour if no cell is a foreign function and no operand is a
    real that is not a number.  Missing: these two (refuted below). *)
Lemma C58_loaded_partial_l : forall L al js c c' fname al', checkable c -> releasable c -> json_to_program L al (F_doc (JArr js)) c = Ok (J_OK, c') ->
  (forall n r col, program_cell c' n r col -> code_at c' n r col <> I_FOREIGN) ->
  (forall n r col d v, program_cell c' n r col -> operand_at c' n r col d v -> v_type v = R_R -> writable v) ->
  exists t, ladder_print fname al' c' = Ok t.
Proof.
  intros L al js c c' fname al' K R H NF NN. apply print_total. intros n N. destruct (loaded_cells L al _ c c' K R H n N) as (nt & O1 & LC).
  exists (n_en nt), (n_rows nt), (n_cols nt). split; [now apply net_peek|]. intros _ r col R1 C1. destruct (LC r col R1 C1) as (x & X & KN & DQ & DL & _).
  assert (PC : program_cell c' n r col) by (split; auto; exists (n_en nt), (n_rows nt), (n_cols nt); split; [now apply net_peek|auto]).
  specialize (NF n r col PC). rewrite (code_of _ _ _ _ _ X) in NF.
  assert (FR : exists h, figure_rows c' n r col = Some h /\ (c_code x <> I_MULTI -> exists k, documented (c_code x) = Some (h, k))).
  { unfold figure_rows. rewrite (code_of _ _ _ _ _ X). destruct KN as [KN|KN]; [destruct (c_code x); try contradiction; try congruence; simpl; eauto|rewrite KN; exists 1%nat; split; auto; congruence]. }
  destruct FR as (h & FR & DH). exists (c_bar x), (c_code x), (c_dq x), h. cbn [peek]. rewrite X. cbn [option_map]. split; auto. split; auto. split; [congruence|].
  intros N1 N2 D H3 d HD. destruct (DH N2) as (k & DK). specialize (DQ _ _ DK). assert (HK : (h <= k)%nat) by (clear -DK D DQ; rewrite DQ in D; destruct (c_code x); try discriminate; injection DK as <- <-; lia).
  destruct DL as [DL|(vs & EV & LV)]; [lia|]. destruct (nth_error vs d) as [v|] eqn:V; [|apply nth_error_None in V; lia].
  assert (EL : elem (c_data x) d = Some v) by (rewrite EV; exact V). exists v. cbn [obind]. rewrite EL. split; [reflexivity|].
  destruct (loaded_operand L al _ c c' n r col x d v K R H PC X EL) as [[B ->]|B].
  - right. split; auto. destruct B as [B|[B|B]]; rewrite B; reflexivity.
  - left. destruct (v_type v) eqn:T; try (apply B; discriminate). apply (NN n r col d v PC); auto. split.
    + cbn [peek]. rewrite X. cbn [obind]. now rewrite EL.
    + exists (c_bar x), (c_code x), (c_dq x). cbn [peek]. rewrite X. split; [reflexivity|lia].
Qed.
(** The first cell of a program is drawn first. *)
Lemma first_cell fname al c en rows cols u : (0 < q_nets (x_q c))%nat -> peek c (LNet 0) = Some (VNet en rows cols) -> (0 < rows <= 32)%nat -> (0 < cols <= 255)%nat -> al 0%nat = true ->
  (forall nt, net_at 0 c = Ok nt -> fn_to_str fname (x_for c) nt 0 0 = Bad u) -> ladder_print fname al c = Bad u.
Proof.
  intros N P R C A F. destruct (net_of_at _ _ _ _ _ P) as (nt & HN & <- & <-). unfold ladder_print. destruct (q_nets (x_q c)) as [|q]; [lia|]. cbn [seq each]. unfold print_network at 1. rewrite HN. cbn [rbind].
  rewrite (proj2 (Nat.ltb_ge _ _)) by lia. rewrite (proj2 (Nat.ltb_ge _ _)) by lia. rewrite A. cbn [orb negb]. unfold places_of. destruct (n_rows nt) as [|nr] eqn:ER; [lia|]. destruct (n_cols nt) as [|nc] eqn:EC; [lia|].
  cbn [seq flat_map map app each]. unfold draw_cell at 1. rewrite ?ER, ?EC. change (room (S nc) 0 0 0) with 0. cbn [lget].
  replace (lget (repeat [] ((S nr + 3) * (S nc + 3) * 2)) 0) with (@Ok (list Z) []) by (cbn; reflexivity). cbn [rbind]. rewrite (F nt HN). reflexivity.
Qed.
(** C58: a program from a file that begins with a foreign function is drawn by dereferencing NULL: the loader gives such cells
    no operand, and the name of the function is looked up by the operand. *)
Lemma C58_foreign_actual_l : forall L al js c c' fname al' en rows cols, releasable c -> json_to_program L al (F_doc (JArr js)) c = Ok (J_OK, c') ->
  (0 < q_nets (x_q c'))%nat -> peek c' (LNet 0) = Some (VNet en rows cols) -> (0 < rows <= 32)%nat -> (0 < cols <= 255)%nat ->
  code_at c' 0 0 0 = I_FOREIGN -> al' 0%nat = true -> ladder_print fname al' c' = Bad UB_null.
Proof.
  intros L al js c c' fname al' en rows cols R H N P R1 C1 CF A. apply (first_cell _ _ _ en rows cols); auto. intros nt HN.
  destruct (loaded_networks L al _ c c' R H) as (js' & _ & F & _ & NS). assert (Q : x_q c' = x_q c) by (apply same_machine in F; rewrite F; destruct c; reflexivity). rewrite Q in N.
  unfold code_at in CF. cbn [peek] in CF. destruct (cell_of c' 0 0 0) as [x|] eqn:X; [|discriminate]. cbn [option_map] in CF. apply (cell_in_at c' 0 nt 0 0 x HN) in X as X'.
  unfold fn_to_str. rewrite X'. cbn [rbind]. rewrite CF. replace (c_data x) with (@None (list value)); [reflexivity|].
  destruct (NS 0%nat N) as [(j & nt' & _ & T & O1)|(nt0 & nt' & O0 & M & O1)]; rewrite (net_peek _ _ _ O1) in P; injection P as E1 E2 E3; rewrite (cell_of_net _ _ _ _ _ O1) in X.
  - destruct (network_cell L j nt' 0 0 T ltac:(lia) ltac:(lia)) as (jc & x' & Y & CT). rewrite X in Y. injection Y as <-. destruct CT as (s & i & b & ds & vs & _ & _ & _ & _ & OP & _ & _ & ->). cbn [c_code c_data] in *. subst i. destruct ds; [reflexivity|discriminate].
  - exfalso. assert (M' := M). apply map_cells_spec in M' as (_ & RR & CC & _ & _ & MS). rewrite RR in E2. rewrite CC in E3.
    assert (X2 := map_cells_exist _ _ _ 0%nat 0%nat M ltac:(lia) ltac:(lia)). destruct (ncell nt0 0 0) as [x0|] eqn:X1; [|congruence]. specialize (MS _ _ x0 X1).
    rewrite (proj2 (in_rect_lt nt0 0 0)) in MS by lia. destruct MS as (y & Y & Y2). rewrite X in Y2. injection Y2 as <-. unfold clear_cell in Y. destruct (c_data x0); [destruct (_ <=? _)%nat in Y|]; try discriminate; injection Y as <-; discriminate.
Qed.
(** C58: a program that begins with a foreign function that is not registered is drawn by reading outside the table of foreign
    functions, or from NULL if there is none: the number is compared with their quantity only after the description is read. *)
Lemma C58_unregistered_actual_l : forall fname al c en rows cols v f, (0 < q_nets (x_q c))%nat -> peek c (LNet 0) = Some (VNet en rows cols) -> (0 < rows <= 32)%nat -> (0 < cols <= 255)%nat ->
  code_at c 0 0 0 = I_FOREIGN -> peek c (LData 0 0 0 0) = Some (VVal v) -> peek c LForeign = Some (VForeign f) -> elem (fo_fn f) (ix (u32 (v_raw v))) = None -> al 0%nat = true ->
  ladder_print fname al c = Bad UB_oob \/ ladder_print fname al c = Bad UB_null.
Proof.
  intros fname al c en rows cols v f N P R1 C1 CF V PF EN A. cbn [peek] in PF. injection PF as <-.
  assert (G : forall u, pget (fo_fn (x_for c)) (u32 (v_raw v)) = Bad u -> ladder_print fname al c = Bad u).
  { intros u U. apply (first_cell _ _ _ en rows cols); auto. intros nt HN. unfold code_at in CF. cbn [peek] in CF, V. destruct (cell_of c 0 0 0) as [x|] eqn:X; [|discriminate]. cbn [option_map obind] in CF, V.
    apply (cell_in_at c 0 nt 0 0 x HN) in X as X'. unfold fn_to_str. rewrite X'. cbn [rbind]. rewrite CF. assert (EV : elem (c_data x) 0 = Some v) by (destruct (elem (c_data x) 0); [simpl in V; congruence|discriminate]).
    change 0 with (Z.of_nat 0) at 1. rewrite (PrintFigures.pget_elem _ _ _ EV). cbn [rbind]. rewrite U. reflexivity. }
  assert (U : 0 <= u32 (v_raw v)) by (unfold u32; apply Z.mod_pos_bound; lia). assert (PG := pget_nth_elem (fo_fn (x_for c)) (ix (u32 (v_raw v)))). replace (Z.of_nat (ix (u32 (v_raw v)))) with (u32 (v_raw v)) in PG by (unfold ix; lia).
  rewrite EN in PG. destruct (fo_fn (x_for c)); [left|right]; apply G; exact PG.
Qed.
Definition one_operand_rows : list (list cell) := [[cellv I_NO [V R_M 0]; cellv I_MOVE [V R_D 0]]; [cellv I_NOP []; mk_cell false false I_MULTI 0 None]].
Definition nan_rows : list (list cell) := [[cellv I_NO [V R_M 0]; cellv I_MOVE [V R_R 2143289344; V R_D 0]]; [cellv I_NOP []; mk_cell false false I_MULTI 0 None]].
(** C58 is false of instructions with too few operands: a MOVE that has one is accepted by the checker and drawn by reading
    outside its operands. *)
Lemma C58_operand_refuted_l : exists fname al c, laid_out c /\ accepts c /\ ladder_print fname al c = Bad UB_oob.
Proof.
  exists (fun _ => []), (fun _ => true), (demo one_operand_rows). split; [apply laid_outb_ok; vm_compute; reflexivity|]. split; [apply acceptsb_ok; vm_compute; reflexivity|vm_compute; reflexivity].
Qed.
(** C58 is false of reals that are not numbers: the operand is accepted by the checker, and its conversion to int is undefined. *)
Lemma C58_nan_refuted_l : exists fname al c, laid_out c /\ accepts c /\ complete c /\ ladder_print fname al c = Bad UB_float.
Proof.
  exists (fun _ => []), (fun _ => true), (demo nan_rows). split; [apply laid_outb_ok; vm_compute; reflexivity|]. split; [apply acceptsb_ok; vm_compute; reflexivity|]. split; [apply completeb_ok; vm_compute; reflexivity|vm_compute; reflexivity].
Qed.

(*EX
(** A file with a timer, a contact of an input and a real is loaded and drawn. *)
Definition drawn_doc : list json :=
  [net_j 0 2 [[cell_j "NO" false [op_j "v" "I" "0.1"]; cell_j "COIL" true [op_j "v" "M" "2"]]; [cell_j "NC" false [op_j "v" "M" "5"]; cell_j "CONN" true []]]]%string.
Definition drawn : ctx := loaded strict plenty drawn_doc (wide [empty_net]).
Example C58_example : checkable (wide [empty_net]) /\ releasable (wide [empty_net]) /\ json_to_program strict plenty (F_doc (JArr drawn_doc)) (wide [empty_net]) = Ok (J_OK, drawn)
  /\ printable drawn /\ ladder_print (fun _ => []) (fun _ => false) drawn
     = Ok (txt "Error: Failed to allocate memory for network 0 print (size: 1600 bytes). Skipping." ++ [10]).
Proof.
  split; [apply checkableb_ok; vm_compute; reflexivity|]. split; [apply releasableb_ok; vm_compute; reflexivity|]. split; [vm_compute; reflexivity|]. split; [apply printableb_ok; vm_compute; reflexivity|vm_compute; reflexivity].
Qed.
(** A foreign function from a file. *)
Definition foreign_doc : list json := [net_j 0 1 [[cell_j "FOREIGN" false []]]]%string.
Example C58_example_foreign : releasable (wide [empty_net]) /\ json_to_program strict plenty (F_doc (JArr foreign_doc)) (wide [empty_net]) = Ok (J_OK, loaded strict plenty foreign_doc (wide [empty_net]))
  /\ code_at (loaded strict plenty foreign_doc (wide [empty_net])) 0 0 0 = I_FOREIGN
  /\ ladder_print (fun _ => []) (fun _ => true) (loaded strict plenty foreign_doc (wide [empty_net])) = Bad UB_null.
Proof. split; [apply releasableb_ok; vm_compute; reflexivity|]. repeat split; vm_compute; reflexivity. Qed.
Example C58_example_unregistered : elem (fo_fn (x_for (demo [[cellv I_FOREIGN [V R_NONE 3]]]))) 3 = None
  /\ ladder_print (fun _ => []) (fun _ => true) (demo [[cellv I_FOREIGN [V R_NONE 3]]]) = Bad UB_null.
Proof. split; vm_compute; reflexivity. Qed.
EX*)

(** ** C59 *)

(** C59: if the cells can be drawn, the networks are of a size that is drawn, the columns follow the rules for instructions of
    several rows and memory suffices, the drawing consists of the networks one below the other, each with its number, and
    shows every instruction: its symbol, its operands, the marks of its bars. *)
Lemma C59_shows_l : forall fname al c, printable c -> presentable c -> columns_follow c -> (forall n, al n = true) ->
  exists P t, ladder_print fname al c = Ok t /\ drawing c P t /\ shows c P.
Proof.
  intros fname al c HP HS HF A. destruct (all_shown fname c HP HS HF al A) as (t & E & D). exists (piece fname c), t. split; auto. split; auto. now apply instructions_shown.
Qed.
(** C59: so it is for programs the checker accepts. *)
Lemma C59_accepted_l : forall fname al c, checkable c -> accepts c -> printable c -> presentable c -> (forall n, al n = true) ->
  exists P t, ladder_print fname al c = Ok t /\ drawing c P t /\ shows c P.
Proof.
  intros fname al c K A HP HS HA. apply C59_shows_l; auto. apply C40_accepts_l in A as [_ O1]; auto. intros n en rows cols r col N P R C. apply (O1 n en rows cols r col N P R C).
Qed.
(** C59: if all operands are narrow, all lines of a network have the same length, 19 characters for each column between the
    frame. *)
Lemma C59_aligned_l : forall c P, shows c P -> columns_follow c -> all_narrow c ->
  forall n en rows cols r l, (n < q_nets (x_q c))%nat -> peek c (LNet n) = Some (VNet en rows cols) -> (r < rows)%nat -> (l < 2)%nat ->
    length (line_text (map (P n r l) (seq 0 cols))) = (19 * cols + 7)%nat.
Proof.
  intros c P HS HF HN n en rows cols r l N PN R L.
  assert (W : forall col, (col < cols)%nat -> length (P n r l col) = 19%nat).
  { intros col C. assert (B : exists r0 h, (r0 <= r)%nat /\ takes c n r0 col h /\ (r < r0 + h)%nat).
    { destruct (HF n en rows cols r col N PN R C) as [A1 A2]. assert (ED : code_at c n r col = I_MULTI \/ code_at c n r col <> I_MULTI) by (destruct (code_at c n r col); auto; right; discriminate). destruct ED as [E|E].
      - destruct (A2 E) as (r0 & h & B1 & B2 & B3). exists r0, h. split; [lia|auto].
      - destruct (A1 E) as (h & T & B1 & B2). exists r, h. split; auto. split; auto. assert (h <> 0)%nat; [|lia].
        intros ->. destruct (HN n r col 0%nat 0%nat (V R_NONE 0)) as [NF _]; auto. { split; auto. exists en, rows, cols. auto. }
        unfold takes in T. destruct (code_at c n r col); try contradiction; try discriminate; try congruence; destruct T as [k T]; discriminate. }
    destruct B as (r0 & h & B1 & B2 & B3). assert (PC : program_cell c n r0 col) by (split; auto; exists en, rows, cols; repeat split; auto; lia).
    destruct (HS n en rows cols r0 col h N PN ltac:(lia) C B2) as [_ _ _ _ IW]. destruct (HN n r0 col h 0%nat (V R_NONE 0) PC B2) as [NF _].
    specialize (IW NF (fun d v D V => proj2 (HN n r0 col h d v PC B2) D V) (2 * (r - r0) + l)%nat ltac:(lia)).
    unfold figure_line in IW. replace ((2 * (r - r0) + l) / 2)%nat with (r - r0)%nat in IW by (rewrite Nat.mul_comm, Nat.div_add_l, Nat.div_small by lia; lia).
    replace ((2 * (r - r0) + l) mod 2)%nat with l in IW by (rewrite Nat.add_comm, (Nat.mul_comm 2), Nat.mod_add, Nat.mod_small by lia; reflexivity).
    replace (r0 + (r - r0))%nat with r in IW by lia. exact IW. }
  unfold line_text. rewrite !app_length. assert (G : forall a k, (a + k <= cols)%nat -> length (concat (map (P n r l) (seq a k))) = (19 * k)%nat).
  { intros a k. revert a. induction k as [|k IH]; intros a K; cbn [seq map concat]; auto. rewrite app_length, W, IH by lia. lia. }
  rewrite G by lia. cbn [length app]. change (length (txt "    |")) with 5%nat. change (length (txt "|")) with 1%nat. lia.
Qed.
Definition wide_rows : list (list cell) := [[cellv I_MOVE [V R_NONE 12345; V R_D 0]]; [mk_cell false false I_MULTI 0 None]].
Definition barred_rows : list (list cell) := [[cellv I_NO [V R_M 0]; cellv I_NOP []]; [cellv I_MOVE [V R_D 0; V R_D 1]; bar (cellv I_COIL [V R_M 1])]; [mk_cell false false I_MULTI 0 None; cellv I_NOP []]; [bar (cellv I_CONN []); cellv I_COIL [V R_M 3]]].
(** C59 is false of the frame: a number of five digits in an accepted program shifts the right edge of its line. *)
Lemma C59_ragged_refuted_l : exists fname al c t, laid_out c /\ accepts c /\ complete c /\ printable c /\ presentable c /\ ladder_print fname al c = Ok t /\ ragged t.
Proof.
  exists (fun _ => []), (fun _ => true), (demo wide_rows). eexists. split; [apply laid_outb_ok; vm_compute; reflexivity|]. split; [apply acceptsb_ok; vm_compute; reflexivity|]. split; [apply completeb_ok; vm_compute; reflexivity|].
  split; [apply printableb_ok; vm_compute; reflexivity|]. split; [apply presentableb_ok; vm_compute; reflexivity|]. split; [vm_compute; reflexivity|].
  exists (txt "[Network 0 (enabled)]" ++ [10; 10]), (txt "---+-MOV--------+--"), (txt "   | -- 12345    |  "). eexists. split; [vm_compute; reflexivity|].
  split; [intros H; vm_compute in H; repeat (destruct H as [H|H]; [discriminate|]); exact H|]. split; [intros H; vm_compute in H; repeat (destruct H as [H|H]; [discriminate|]); exact H|vm_compute; discriminate].
Qed.
(** C59 is false of some bars: a bar joins a cell to the one above it; if that is empty, or the last row of a box, nothing is drawn
    between them. *)
Lemma C59_bar_refuted_l : exists fname al c P t r1 col1 r2 col2, laid_out c /\ accepts c /\ complete c /\ printable c /\ presentable c
  /\ ladder_print fname al c = Ok t /\ drawing c P t /\ shows c P
  /\ code_at c 0 r1 col1 = I_NOP /\ bar_on c 0 (S r1) col1 /\ ~ stands_at (P 0%nat r1 1%nat col1) 18 (txt "|")
  /\ code_at c 0 r2 col2 = I_MULTI /\ bar_on c 0 (S r2) col2 /\ ~ stands_at (P 0%nat r2 1%nat col2) 18 (txt "|").
Proof.
  set (c := demo barred_rows). assert (PR : printable c) by (apply printableb_ok; vm_compute; reflexivity). assert (PS : presentable c) by (apply presentableb_ok; vm_compute; reflexivity).
  assert (LO : laid_out c) by (apply laid_outb_ok; vm_compute; reflexivity). assert (AC : accepts c) by (apply acceptsb_ok; vm_compute; reflexivity).
  assert (CF : columns_follow c). { assert (A := AC). apply C40_accepts_l in A as [_ O1]; [|apply LO]. intros n en rows cols r col N P R C. apply (O1 n en rows cols r col N P R C). }
  destruct (all_shown (fun _ => []) c PR PS CF (fun _ => true) (fun _ => eq_refl)) as (t & E & D).
  exists (fun _ => []), (fun _ => true), c, (piece (fun _ => []) c), t, 0%nat, 1%nat, 2%nat, 0%nat. split; auto. split; auto. split; [apply completeb_ok; vm_compute; reflexivity|]. split; auto. split; auto. split; auto. split; auto.
  split; [now apply instructions_shown|]. split; [vm_compute; reflexivity|]. split.
  { eexists _, _. split; [vm_compute; reflexivity|]. eexists _, _, _. split; [vm_compute; reflexivity|]. lia. }
  split; [intros H; apply stands_sub in H; vm_compute in H; discriminate|]. split; [vm_compute; reflexivity|]. split.
  { eexists _, _. split; [vm_compute; reflexivity|]. eexists _, _, _. split; [vm_compute; reflexivity|]. lia. }
  intros H; apply stands_sub in H; vm_compute in H; discriminate.
Qed.

(*EX
(** A contact, a timer over two rows and coils joined by a bar. *)
Definition shown_rows : list (list cell) :=
  [[cellv I_NO [V R_I 0]; cellv I_TON [V R_T 1; V R_Q 50]; cellv I_COIL [V R_Q 256]];
   [cellv I_NC [V R_M 3]; mk_cell false false I_MULTI 0 None; bar (cellv I_COILL [V R_M 2])]].
Definition shown_text : list Z :=
  flat_map (fun l => txt l ++ [10])
    ["[Network 0 (enabled)]"; "";
     "    |--------| |-----------+-TON--------+----------( )-------+|";
     "    |      I 0.0           |  T 0001    |        Q 0.1       ||";
     "    |--------|/|--------   | 0050 100ms |----------(L)-------+|";
     "    |      M 0003          +------------+        M 0002       |"; ""; ""]%string.
Example C59_example : checkable (demo shown_rows) /\ accepts (demo shown_rows) /\ printable (demo shown_rows) /\ presentable (demo shown_rows).
Proof.
  split; [apply checkableb_ok; vm_compute; reflexivity|]. split; [apply acceptsb_ok; vm_compute; reflexivity|]. split; [apply printableb_ok; vm_compute; reflexivity|apply presentableb_ok; vm_compute; reflexivity].
Qed.
Example C59_example_text : ladder_print (fun _ => []) (fun _ => true) (demo shown_rows) = Ok shown_text.
Proof. vm_compute. reflexivity. Qed.
Example C59_example_narrow : columns_follow (demo shown_rows) /\ all_narrow (demo shown_rows).
Proof.
  destruct C59_example as (K & A & _). split. { apply C40_accepts_l in A as [_ O1]; auto. intros n en rows cols r col N P R C. apply (O1 n en rows cols r col N P R C). }
  intros n r col h d v (N & en & rows & cols & P & R & C). vm_compute in N. assert (n = 0)%nat by lia. subst n. vm_compute in P. injection P as <- <- <-.
  assert (RC : (r = 0 \/ r = 1)%nat /\ (col = 0 \/ col = 1 \/ col = 2)%nat) by lia. destruct RC as [[->| ->] [->|[->| ->]]]; intros T; (split; [vm_compute; discriminate|]);
    vm_compute in T; try contradiction; destruct T as [k T]; injection T as <- <-; intros D V; (destruct d as [|[|d]]; [| |lia]); vm_compute in V; try discriminate; injection V as <-; vm_compute; repeat split; try discriminate; auto; left; split; reflexivity.
Qed.
EX*)

(** ** C60 *)

Lemma rnd24_near m k : 0 <= m < 2 ^ (k + 7) -> 0 <= k -> 2 ^ 18 * Z.abs (rnd24 m - m) <= 2 ^ k /\ 0 <= rnd24 m.
Proof.
  intros M K. unfold rnd24. destruct (Z.leb_spec (Z.log2 m - 23) 0) as [B|B].
  { rewrite Z.sub_diag. split; [|lia]. change (Z.abs 0) with 0. pose proof (Z.pow_nonneg 2 k). lia. }
  set (b := Z.log2 m - 23) in *. assert (m <> 0) by (intros ->; simpl in b; subst b; lia). assert (BK : b + 17 <= k).
  { assert (Z.log2 m < k + 7) by (apply Z.log2_lt_pow2; lia). subst b. lia. }
  assert (P : 0 < 2 ^ b) by (apply Z.pow_pos_nonneg; lia). pose proof (Z.mod_pos_bound m (2 ^ b) P) as R. pose proof (Z.div_mod m (2 ^ b) ltac:(lia)) as D.
  assert (Q0 : 0 <= m / 2 ^ b) by (apply Z.div_pos; lia).
  assert (PK : 2 ^ k = 2 ^ (k - b - 17) * 2 ^ b * 2 ^ 17) by (rewrite <- !Z.pow_add_r by lia; f_equal; lia). assert (1 <= 2 ^ (k - b - 17)) by (apply (Z.pow_le_mono_r 2 0); lia).
  set (q' := if 2 * (m mod 2 ^ b) <? 2 ^ b then m / 2 ^ b else if 2 ^ b <? 2 * (m mod 2 ^ b) then m / 2 ^ b + 1 else if Z.even (m / 2 ^ b) then m / 2 ^ b else m / 2 ^ b + 1).
  assert (Q : 2 * Z.abs (q' * 2 ^ b - m) <= 2 ^ b /\ 0 <= q').
  { subst q'. destruct (Z.ltb_spec (2 * (m mod 2 ^ b)) (2 ^ b)); [nia|]. destruct (Z.ltb_spec (2 ^ b) (2 * (m mod 2 ^ b))); [nia|]. destruct (Z.even (m / 2 ^ b)); nia. }
  destruct Q as [Q1 Q2]. split; [|nia]. change (2 ^ 18) with (2 * 2 ^ 17). nia.
Qed.
Lemma u32_bounds z : 0 <= u32 z < 2 ^ 32. Proof. apply Z.mod_pos_bound. lia. Qed.
Lemma f32_parts u m e : 0 <= u < 2 ^ 32 -> f32_denotes u m e ->
  let a := u mod 2 ^ 31 in let x := a / 2 ^ 23 in
  a <= 2139095039 /\ (m < 0 -> 2 ^ 31 <= u) /\ (0 < m -> u < 2 ^ 31) /\ Z.abs m = (if x =? 0 then a else 2 ^ 23 + a mod 2 ^ 23) /\ e = (if x =? 0 then -149 else x - 150) /\ 0 <= x < 255.
Proof.
  intros U (X & D). cbv zeta. set (a := u mod 2 ^ 31).
  assert (A : 0 <= a < 2 ^ 31) by (apply Z.mod_pos_bound; lia).
  assert (S1 : u = a \/ u = a + 2 ^ 31). { subst a. Z.to_euclidean_division_equations. lia. }
  clearbody a.
  assert (E1 : (u / 2 ^ 23) mod 2 ^ 8 = a / 2 ^ 23). { destruct S1 as [->| ->]; [|change (2 ^ 31) with (2 ^ 8 * 2 ^ 23); rewrite Z.div_add by lia; change (2 ^ 8) with (1 * 2 ^ 8) at 1; rewrite Z.mod_add by lia]; apply Z.mod_small; split; [apply Z.div_pos; lia|apply Z.div_lt_upper_bound; lia|apply Z.div_pos; lia|apply Z.div_lt_upper_bound; lia]. }
  assert (E2 : u mod 2 ^ 23 = a mod 2 ^ 23). { destruct S1 as [->| ->]; auto. change (2 ^ 31) with (2 ^ 8 * 2 ^ 23). now rewrite Z.mod_add by lia. }
  rewrite E1, E2 in *. pose proof (Z.mod_pos_bound a (2 ^ 23) ltac:(lia)). pose proof (Z.div_mod a (2 ^ 23) ltac:(lia)). assert (0 <= a / 2 ^ 23 < 2 ^ 8) by (split; [apply Z.div_pos; lia|apply Z.div_lt_upper_bound; lia]).
  destruct (Z.ltb_spec u (2 ^ 31)); destruct (Z.eqb_spec (a / 2 ^ 23) 0); destruct D as [-> ->]; repeat split; lia.
Qed.
(** C60: a real number of magnitude up to a million is written with two decimal places, rounded to the nearest hundredth, with a
    minus sign if it is negative and the part before the point is not zero. *)
Lemma C60_digits_l : forall u m e, f32_denotes (u32 u) m e -> e < 0 -> Z.abs m <= 10 ^ 6 * 2 ^ (- e) ->
  exists s w f, ftos u = Ok s /\ nearest_hundredth m e w f /\ real_text ((m <? 0) && negb (w =? 0)) w f s.
Proof.
  intros u m e D E0 M. destruct (f32_parts _ m e (u32_bounds u) D) as (A1 & N1 & N2 & AM & EE & XB). unfold ftos. set (p := u32 u) in *. set (a := p mod 2 ^ 31) in *.
  set (x := a / 2 ^ 23) in *. rewrite (proj2 (Z.ltb_ge 2139095040 a)) by lia.
  assert (A0 : 0 <= a < 2 ^ 31) by (apply Z.mod_pos_bound; lia). pose proof (Z.mod_pos_bound a (2 ^ 23) ltac:(lia)) as R. pose proof (Z.div_mod a (2 ^ 23) ltac:(lia)) as DM. fold x in DM.
  assert (K4 : 4 <= - e).
  { destruct (Z.eqb_spec x 0); [lia|]. destruct (Z_lt_le_dec (- e) 4); auto. exfalso. assert (2 ^ (- e) <= 2 ^ 3) by (apply Z.pow_le_mono_r; lia). lia. }
  assert (AB : a <= 1232348160).
  { destruct (Z.eqb_spec x 0); [lia|]. destruct (Z_lt_le_dec 146 x); [lia|]. destruct (Z.eq_dec x 146) as [Ex|Ex]; [|lia]. subst e. rewrite Ex in *. change (2 ^ (- (146 - 150))) with 16 in M. lia. }
  rewrite (proj2 (Z.ltb_ge 1232348160 a)) by lia.
  replace (if x =? 0 then a else 2 ^ 23 + a mod 2 ^ 23) with (Z.abs m) by exact AM. replace (if x =? 0 then 149 else 150 - x) with (- e) by (rewrite EE; destruct (x =? 0); lia).
  set (k := - e) in *. set (mm := Z.abs m) in *. assert (PK : 0 < 2 ^ k) by (apply Z.pow_pos_nonneg; lia). assert (MM : 0 <= mm) by (subst mm; lia).
  pose proof (Z.div_mod mm (2 ^ k) ltac:(lia)) as DW. pose proof (Z.mod_pos_bound mm (2 ^ k) PK) as FR. set (w := mm / 2 ^ k) in *. set (fr := mm mod 2 ^ k) in *.
  assert (W : 0 <= w <= 10 ^ 6) by (split; [apply Z.div_pos; lia|apply Z.div_le_upper_bound; lia]).
  assert (K7 : 2 ^ (k + 7) = 128 * 2 ^ k) by (rewrite Z.pow_add_r by lia; lia). assert (K1 : 2 ^ k = 2 * 2 ^ (k - 1)) by (rewrite <- Z.pow_succ_r by lia; f_equal; lia).
  destruct (rnd24_near (100 * fr) k) as [G1 G2]; [lia|lia|]. set (y := rnd24 (100 * fr)) in *. destruct (rnd24_near (y + 2 ^ (k - 1)) k) as [G3 G4]; [lia|lia|]. set (g := rnd24 (y + 2 ^ (k - 1))) in *.
  assert (FIN : forall w' g', 0 <= w' <= 10 ^ 6 + 1 -> 0 <= g' < 100 * 2 ^ k -> w' * (100 * 2 ^ k) + g' = w * (100 * 2 ^ k) + g ->
    exists s w0 f, Ok (firstn 11 (sdec (if 2 ^ 31 <=? p then - w' else w') ++ 46 :: pad 2 (g' / 2 ^ k) ++ gaps 2)) = Ok s /\ nearest_hundredth m e w0 f /\ real_text ((m <? 0) && negb (w0 =? 0)) w0 f s).
  { intros w' g' W' G' SG. pose proof (Z.div_mod g' (2 ^ k) ltac:(lia)) as DF. pose proof (Z.mod_pos_bound g' (2 ^ k) PK) as FF. set (f := g' / 2 ^ k) in *.
    assert (FB : 0 <= f < 100) by (split; [apply Z.div_pos; lia|apply Z.div_lt_upper_bound; lia]). eexists _, w', f. split; [reflexivity|]. split.
    { split; [lia|]. split; auto. fold k mm. change (2 ^ 18) with 262144 in *. change (2 ^ 17) with 131072. change (2 ^ 16) with 65536.
      replace (100 * mm - (100 * w' + f) * 2 ^ k) with (100 * fr - g + g' mod 2 ^ k) by (rewrite DW; assert (f * 2 ^ k = g' - g' mod 2 ^ k) by lia; lia). lia. }
    assert (PD : pad 2 f = noughts (2 - length (dec f)) ++ dec f) by (unfold pad; rewrite Z.abs_eq, (proj2 (Z.ltb_ge f 0)) by lia; reflexivity).
    destruct (dec_figures f) as [F1 F2]; [lia|]. destruct (dec_figures w') as [F3 F4]; [lia|].
    assert (PL : length (pad 2 f) = 2%nat).
    { rewrite PD, app_length. unfold noughts. rewrite repeat_length. pose proof (dec_len_le 1 f ltac:(change (10 ^ Z.of_nat 2) with 100; lia)). lia. }
    assert (WL : (length (dec w') <= 7)%nat) by (apply (dec_len_le 6); change (10 ^ Z.of_nat 7) with (10 * 10 ^ 6); lia).
    assert (SG' : sdec (if 2 ^ 31 <=? p then - w' else w') = (if (m <? 0) && negb (w' =? 0) then [45] else []) ++ dec w').
    { unfold sdec. destruct (Z.eqb_spec w' 0) as [->|NZ].
      - rewrite andb_false_r. destruct (2 ^ 31 <=? p); reflexivity.
      - rewrite andb_true_r. assert (m <> 0). { intros ->. subst mm. change (Z.abs 0) with 0 in *. assert (fr = 0) by (subst fr; apply Z.mod_0_l; lia). assert (w = 0) by (subst w; apply Z.div_0_l; lia). change (2 ^ 18) with 262144 in *. nia. }
        destruct (Z.leb_spec (2 ^ 31) p), (Z.ltb_spec m 0); try lia.
        + rewrite (proj2 (Z.ltb_lt (- w') 0)) by lia. rewrite Z.opp_involutive. reflexivity.
        + rewrite (proj2 (Z.ltb_ge w' 0)) by lia. reflexivity. }
    rewrite SG'. set (sg := if (m <? 0) && negb (w' =? 0) then [45] else []). assert (SL : (length sg <= 1)%nat) by (subst sg; destruct ((m <? 0) && negb (w' =? 0)); simpl; lia).
    exists (dec w'), (pad 2 f), (firstn (11 - (length sg + length (dec w') + 3)) (gaps 2)). split.
    { change (46 :: pad 2 f ++ gaps 2) with ([46] ++ pad 2 f ++ gaps 2). rewrite !app_assoc. rewrite firstn_app. rewrite firstn_all2 by (rewrite !app_length, PL; cbn [length]; lia). f_equal. f_equal. rewrite !app_length, PL. cbn [length]. lia. }
    split; auto. split; auto. split; [rewrite PD; now apply figures_noughts|]. split; [rewrite PD, value_noughts; auto|]. split; auto.
    intros z I1. assert (I2 : In z (gaps 2)) by (rewrite <- (firstn_skipn (11 - (length sg + length (dec w') + 3)) (gaps 2)); apply in_or_app; now left). now apply repeat_spec in I2. }
  change (2 ^ 18) with 262144 in *. destruct (Z.leb_spec (100 * 2 ^ k) g).
  - apply (FIN (w + 1) (g - 100 * 2 ^ k)); lia.
  - apply (FIN w g); lia.
Qed.
(** C60: a larger one, an infinite one included, is written OVF. *)
Lemma C60_large_l : forall u, (exists m e, f32_denotes (u32 u) m e /\ (0 <= e \/ 10 ^ 6 * 2 ^ (- e) < Z.abs m)) \/ u32 u mod 2 ^ 31 = 255 * 2 ^ 23 -> ftos u = Ok (txt "OVF     ").
Proof.
  intros u H. assert (B : 1232348160 < u32 u mod 2 ^ 31 <= 2139095040).
  { destruct H as [(m & e & D & L)| ->]; [|lia]. destruct (f32_parts _ m e (u32_bounds u) D) as (A1 & N1 & N2 & AM & EE & XB). set (a := u32 u mod 2 ^ 31) in *. set (x := a / 2 ^ 23) in *.
    assert (A0 : 0 <= a < 2 ^ 31) by (apply Z.mod_pos_bound; lia). pose proof (Z.mod_pos_bound a (2 ^ 23) ltac:(lia)) as R. pose proof (Z.div_mod a (2 ^ 23) ltac:(lia)) as DM. fold x in DM.
    split; [|lia]. destruct (Z_lt_le_dec 1232348160 a) as [|LE]; auto. exfalso. assert (x <= 146) by (apply Z.lt_succ_r; apply Z.div_lt_upper_bound; lia).
    destruct L as [L|L]; [destruct (x =? 0); lia|]. assert (4 <= - e) by (destruct (x =? 0); lia). destruct (Z.eq_dec (- e) 4) as [E4|N4].
    - rewrite E4 in L. change (10 ^ 6 * 2 ^ 4) with 16000000 in L. destruct (Z.eqb_spec x 0); lia.
    - assert (2 ^ 5 <= 2 ^ (- e)) by (apply Z.pow_le_mono_r; lia). destruct (Z.eqb_spec x 0); lia. }
  unfold ftos. rewrite (proj2 (Z.ltb_ge 2139095040 _)), (proj2 (Z.ltb_lt 1232348160 _)) by lia. reflexivity.
Qed.
(** C60 is false of the sign of numbers between -1 and 0: minus one half and one half are written alike. *)
Lemma C60_sign_refuted_l : exists u u' m m' e, f32_denotes (u32 u) m e /\ f32_denotes (u32 u') m' e /\ e = -24 /\ m = - 2 ^ 23 /\ m' = 2 ^ 23 /\ ftos u = Ok (txt "0.50  ") /\ ftos u' = Ok (txt "0.50  ").
Proof.
  exists 3204448256, 1056964608, (- 2 ^ 23), (2 ^ 23), (-24). repeat split; vm_compute; try reflexivity; discriminate.
Qed.

(*EX
(** -3.14159 *)
Example C60_example : f32_denotes (u32 3226013648) (-13176784) (-22) /\ Z.abs (-13176784) <= 10 ^ 6 * 2 ^ 22 /\ ftos 3226013648 = Ok (txt "-3.14  ").
Proof. vm_compute. repeat split; discriminate. Qed.
(** 999.996 is carried over; 10^38 is too large. *)
Example C60_example_carry : ftos 1148846016 = Ok (txt "1000.00  ") /\ ftos 2123789977 = Ok (txt "OVF     ").
Proof. vm_compute. auto. Qed.
EX*)
