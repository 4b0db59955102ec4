(** loading programs from JSON (C52, C53). *)
From Coq Require Import String.
From Verif Require Export DemoJson.
Open Scope list_scope.
Open Scope Z_scope.

(** ** C52 *)

(** C52: with memory available, an array is accepted exactly if its elements describe networks of the program: a position
    within the program, numbers of rows and columns, as many rows of as many cells, each with the symbol of an instruction,
    a bar, and as many operands as the instruction has, each with a type and a text that is a value of this type. *)
Lemma C52_accepts_l : forall L al js c, releasable c -> (forall s, al s = true) ->
  (exists c', json_to_program L al (F_doc (JArr js)) c = Ok (J_OK, c')) <-> exists ps, describes_networks L (q_nets (x_q c)) js ps.
Proof.
  intros L al js c R AL. apply releasable_nets in R. destruct (clearing_ok c R) as (c1 & C1 & R1). destruct (clear_q _ _ C1) as (Q & _). unfold json_to_program. rewrite C1. cbn [rbind]. split.
  - intros (c' & H). apply rbind_inv in H as ([c2 ok] & E & H). destruct ok; [|apply rbind_inv in H as (c3 & _ & H); discriminate]. injection H as <-.
    apply load_elements_sound in E as (ps & D & _). rewrite Q in D. eauto.
  - intros (ps & D). rewrite <- Q in D. destruct (load_elements_app L al js 0 c1 ps [] (fun s _ => AL s) R1 D) as [E _]. rewrite app_nil_r in E. rewrite E. cbn [load_elements rbind]. eauto.
Qed.

(** C52: whatever is accepted is an array of such elements, and the program is the described one: every described network is
    as its last description says, all other networks keep their size and become empty, and nothing else changes. *)
Lemma C52_program_l : forall L al f c c', releasable c -> json_to_program L al f c = Ok (J_OK, c') ->
  exists js ps, f = F_doc (JArr js) /\ describes_networks L (q_nets (x_q c)) js ps
    /\ (forall n nt, final ps n = Some nt -> net_of c' n = Some nt)
    /\ (forall n r col, final ps n = None -> program_cell c n r col -> blank c' n r col)
    /\ releasable c'
    /\ changes_only c c' (fun l => exists n, network_place n l /\ (n < q_nets (x_q c))%nat
         /\ (final ps n <> None \/ exists r col, program_cell c n r col /\ cell_place n r col l)).
Proof.
  intros L al f c c' R H. unfold json_to_program in H. destruct f as [| |j]; try discriminate. destruct j as [| | | |js|]; try discriminate. apply releasable_nets in R.
  destruct (clearing_ok c R) as (c1 & C1 & R1). rewrite C1 in H. cbn [rbind] in H. destruct (clear_q _ _ C1) as (Q & F1 & S1).
  apply rbind_inv in H as ([c2 ok] & E & H). destruct ok; [|apply rbind_inv in H as (c3 & _ & H); discriminate]. injection H as <-.
  apply load_elements_sound in E as (ps & D & ->). exists js, ps. split; auto. rewrite <- Q. split; auto.
  assert (IN : forall n nt, final ps n = Some nt -> (n < q_nets (x_q c1))%nat /\ net_ok nt).
  { clear -D. intros n nt. induction D as [|j [k x] js ps (A & B & C) _ IH]; simpl; [discriminate|]. destruct (final ps n) as [y|]; [auto|].
    destruct (Nat.eqb_spec k n) as [->|]; [|discriminate]. intros H. injection H as <-. simpl in *. split; auto. eapply network_text_ok; eauto. }
  assert (FN : forall n nt, final ps n = Some nt -> net_of (put_all ps c1) n = Some nt).
  { intros n nt F. rewrite put_all_of, F. destruct (IN n nt F) as [N _]. destruct (R1 n N) as (x & -> & _). auto. }
  assert (OT : forall n, final ps n = None -> net_of (put_all ps c1) n = net_of c1 n) by (intros n F; now rewrite put_all_of, F).
  destruct (C36_program_l c) as (c1' & C1' & B1 & CH).
  { destruct (proj2 (releasable_nets c) R) as [W _]. exact W. }
  rewrite C1 in C1'. injection C1' as <-.
  destruct (put_all_nets ps c1) as [F2 S2].
  split; [auto|]. split; [|split].
  - intros n r col F P. destruct (B1 n r col P) as (P1 & P2 & dq & P3 & _). unfold blank, powered in *. simpl peek in *. unfold cell_of, row_of in *. rewrite (OT n F). eauto.
  - apply releasable_nets. intros n N. rewrite put_all_q in N. destruct (final ps n) as [nt|] eqn:F; [exists nt; split; [auto|]; eapply IN; eauto|]. rewrite (OT n F). auto.
  - intros l NL. transitivity (peek c1 l).
    + apply nets_frame; auto. intros n P. destruct (final ps n) as [nt|] eqn:F; [|auto]. exfalso. apply NL. exists n. split; auto.
      destruct (IN n nt F) as [N _]. split; [auto|]. left. congruence.
    + apply CH. intros (n & r & col & P & K). apply NL. exists n. split; [right; right; right; exists r, col; auto|]. rewrite Q. split; [apply P|]. right. exists r, col. auto.
Qed.
(*EX
Example C52_example : exists c' ps, releasable old_program /\ json_to_program strict plenty (F_doc (JArr [net_doc])) old_program = Ok (J_OK, c')
  /\ describes_networks strict 2 [net_doc] ps
  /\ net_of c' 1 = Some (net_on true [[cellv I_NC [V R_I (1 + 256 * 3)]; bar (cellv I_TON [V R_T 2; V R_I 15])];
                                      [mk_cell false false I_CONN 0 None; cellv I_MOVE [V R_D 0; V R_QW (-1)]]])
  /\ blank c' 0 1 1 /\ powered old_program 0 1 1 true /\ final ps 0 = None.
Proof.
  assert (R : releasable old_program) by (apply releasableb_ok; vm_compute; reflexivity).
  assert (H : json_to_program strict plenty (F_doc (JArr [net_doc])) old_program = Ok (J_OK, loaded strict plenty [net_doc] old_program)) by (vm_compute; reflexivity).
  destruct (C52_program strict plenty _ _ _ R H) as (js & ps & E & D & _). injection E as <-. exists (loaded strict plenty [net_doc] old_program), ps.
  split; [exact R|]. split; [exact H|]. split; [exact D|]. split; [vm_compute; reflexivity|]. split; [|split].
  - split; [vm_compute; reflexivity|]. split; [vm_compute; reflexivity|]. eexists. vm_compute. reflexivity.
  - vm_compute. reflexivity.
  - inversion D as [|j [n nt] js' ps' (A & B & C) D']; subst. inversion D'; subst. simpl in A. destruct A as (d & (x & y & K & NI) & T & _). simpl.
    destruct (Nat.eqb_spec n 0) as [->|]; auto. exfalso. assert (MI : member (txt "id") net_doc = Some (JNum d)) by (apply member_iff; exists x, y; auto).
    vm_compute in MI. injection MI as <-. destruct T as (f & T1 & T2 & _). simpl in T1, T2. lia.
Qed.
(** Each of these is refused: an unknown symbol, a missing operand, a port above 255, text behind a number, a row too short,
    a network outside the program. *)
Example C52_example_refused :
  map (fun js => verdict strict plenty (F_doc (JArr js)) old_program)
    [[net_j 1 1 [[cell_j "TOF" false [op_j "timer" "T" "2"; op_j "base" "SEC" "15"]]]]; [net_j 1 1 [[cell_j "MOV" false [op_j "a" "D" "1"]]]];
     [net_j 1 1 [[cell_j "NO" false [op_j "value" "I" "1.256"]]]]; [net_j 1 1 [[cell_j "NO" false [op_j "value" "M" "1x"]]]];
     [net_j 1 2 [[cell_j "NOP" false []]]]; [net_j 2 1 [[cell_j "NOP" false []]]]]%string
  = repeat (Some J_FAIL) 6.
Proof. vm_compute. reflexivity. Qed.
EX*)

(** ** C53 *)

(** C53: a file that is refused: one that cannot be read, is not JSON or not an array leaves the program alone; any other
    leaves a program of empty cells, so the old program is lost. *)
Lemma C53_refused_l : forall L al f c e c', json_to_program L al f c = Ok (e, c') -> e <> J_OK ->
  match f with
  | F_missing => e = J_OPENFILE /\ c' = c
  | F_garbage => e = J_PARSE /\ c' = c
  | F_doc (JArr _) => e = J_FAIL /\ emptied c' /\ changes_only c c' (fun l => exists n, network_place n l /\ (n < q_nets (x_q c))%nat)
  | F_doc _ => e = J_TYPE_INV /\ c' = c
  end.
Proof.
  intros L al f c e c' H NE. unfold json_to_program in H. destruct f as [| |j]; try (injection H as <- <-; auto; fail). destruct j as [| | | |js|]; try (injection H as <- <-; auto; fail).
  apply rbind_inv in H as (c1 & C1 & H). apply rbind_inv in H as ([c2 ok] & E & H). destruct ok; [congruence|]. apply rbind_inv in H as (c3 & C3 & H). injection H as <- <-.
  split; auto. split; [eapply clear_emptied; eauto|]. apply clear_frame in C1 as (A1 & A2 & A3 & A4). apply load_frame in E as (B1 & B2 & B3 & B4). apply clear_frame in C3 as (D1 & D2 & D3 & D4).
  intros l NL. apply nets_frame; [congruence|congruence|]. intros n P. destruct (le_lt_dec (q_nets (x_q c)) n) as [K|K]; [|exfalso; apply NL; eauto].
  rewrite D4, B4, A4; auto; congruence.
Qed.

(*EX
Example C53_example_refused : exists c', json_to_program strict plenty (F_doc (JArr [net_doc; net_j 0 1 [[cell_j "SET" false []]]]%string)) old_program = Ok (J_FAIL, c')
  /\ program_cell c' 1 0 1 /\ blank c' 1 0 1 /\ releasable old_program.
Proof.
  eexists. split; [vm_compute; reflexivity|]. split; [|split].
  - split; [vm_compute; auto|]. do 3 eexists. split; [vm_compute; reflexivity|]. split; auto with arith.
  - split; [vm_compute; reflexivity|]. split; [vm_compute; reflexivity|]. eexists. vm_compute. reflexivity.
  - apply releasableb_ok. vm_compute. reflexivity.
Qed.
Example C53_example_kept : verdict strict plenty F_missing old_program = Some J_OPENFILE /\ verdict strict plenty F_garbage old_program = Some J_PARSE
  /\ verdict strict plenty (F_doc net_doc) old_program = Some J_TYPE_INV.
Proof. vm_compute. auto. Qed.
EX*)

(** C53: loading a document whose numbers fit into 32 bits, whose networks have the rows they announce, and which does not
    reach past the table of instructions is free of undefined behaviour whatever else is in it, even if memory for rows and
    operands runs out, and leaves a program in shape. *)
Lemma C53_safe_l : forall L al js c, releasable c -> Forall (tame_element L) js -> (forall i, al (A_cells i) = true) ->
  exists e c', json_to_program L al (F_doc (JArr js)) c = Ok (e, c') /\ (e = J_OK \/ e = J_FAIL) /\ releasable c'.
Proof.
  intros L al js c R T AL. apply releasable_nets in R. destruct (clearing_ok c R) as (c1 & C1 & R1). unfold json_to_program. rewrite C1. cbn [rbind].
  destruct (load_elements_total L al AL js 0 c1 R1 T) as (c2 & ok & E & R2). rewrite E. cbn [rbind]. destruct ok.
  - exists J_OK, c2. split; auto. split; auto. now apply releasable_nets.
  - destruct (clearing_ok c2 R2) as (c3 & C3 & R3). rewrite C3. cbn [rbind]. exists J_FAIL, c3. split; auto. split; auto. now apply releasable_nets.
Qed.

(*EX
(** Whatever the memory for rows and operands does. *)
Example C53_example_safe : releasable old_program /\ Forall (tame_element strict) [net_doc; net_doc]
  /\ verdict strict (fun s => match s with A_data 1 1 _ => false | _ => true end) (F_doc (JArr [net_doc; net_doc])) old_program = Some J_FAIL.
Proof.
  split; [apply releasableb_ok; vm_compute; reflexivity|]. split; [|vm_compute; reflexivity].
  assert (T : tame_element strict net_doc); [|auto].
  assert (tame : forall k z, member (txt k) net_doc = Some (int_num z) -> 0 <= z < 2 ^ 32 -> tame_number net_doc k).
  { intros k z M B d D. apply member_iff in D. rewrite M in D. injection D as <-. exists z. split; auto. exists 0. simpl. lia. }
  split; [apply (tame _ 1); [vm_compute; reflexivity|lia]|]. split; [apply (tame _ 2); [vm_compute; reflexivity|lia]|]. split; [apply (tame _ 2); [vm_compute; reflexivity|lia]|]. split.
  - intros r N _. destruct N as (d & D & T & _). apply member_iff in D. vm_compute in D. injection D as <-. destruct T as (f & T1 & T2 & _). simpl in T1, T2.
    assert (r = 2%nat) as -> by lia. split; [lia|]. exists 2%nat. eexists. split; [|split].
    + exists (Fin 2 0). split; [apply member_iff; vm_compute; reflexivity|]. split; [exists 0; simpl; lia|lia].
    + apply member_iff. vm_compute. reflexivity.
    + reflexivity.
  - intros rs D. right. intros cs x I1 I2 O. apply member_iff in D, O. vm_compute in D. injection D as <-. simpl in I1.
    repeat destruct I1 as [I1|I1]; try contradiction; injection I1 as <-; simpl in I2; repeat destruct I2 as [I2|I2]; try contradiction; subst x; vm_compute in O; discriminate.
Qed.
EX*)

(** The state of the loader in front of the first element that is not loaded. *)
Lemma at_element L al c js ps j rest : releasable c -> (forall s, (element_of s < length js)%nat -> al s = true) -> describes_networks L (q_nets (x_q c)) js ps ->
  exists c2, nets_ok c2 /\ q_nets (x_q c2) = q_nets (x_q c)
    /\ json_to_program L al (F_doc (JArr (js ++ j :: rest))) c
       = let? x := (let? x := load_element L al (length js) j c2 in let (c', ok) := x in if ok then load_elements L al (S (length js)) rest c' else Ok (c', false)) in
         let (c2, ok) := x in if ok then Ok (J_OK, c2) else let? c3 := clear_program c2 in Ok (J_FAIL, c3).
Proof.
  intros R AL D. apply releasable_nets in R. destruct (clearing_ok c R) as (c1 & C1 & R1). destruct (clear_q _ _ C1) as (Q & _).
  rewrite <- Q in D. destruct (load_elements_app L al js 0 c1 ps (j :: rest) AL R1 D) as [E K]. exists (put_all ps c1). split; auto. split; [rewrite put_all_q; congruence|].
  unfold json_to_program. rewrite C1. cbn [rbind]. rewrite E. reflexivity.
Qed.

(** C53: after elements that are loaded, a network with rows and columns that does not have the announced rows of cells makes
    the loader follow a null pointer. *)
Lemma C53_rows_actual_l : forall L al c js ps j rest n r k, releasable c -> (forall s, (element_of s < length js)%nat -> al s = true) -> describes_networks L (q_nets (x_q c)) js ps ->
  natural_is j "id" n -> (n < q_nets (x_q c))%nat -> natural_is j "rows" r -> natural_is j "cols" k -> (0 < r)%nat -> (0 < k)%nat ->
  ~ (Z.of_nat r < 2 ^ 31 /\ exists rs, member_is j "networkData" (JArr rs) /\ length rs = r) ->
  json_to_program L al (F_doc (JArr (js ++ j :: rest))) c = Bad UB_null.
Proof.
  intros L al c js ps j rest n r k R AL D A B C E R0 K0 W. destruct (at_element L al c js ps j rest R AL D) as (c2 & OK & Q & ->). rewrite <- Q in B. destruct (OK n B) as (old & O1 & O2).
  rewrite (load_element_run L al _ j c2 n old _ A B O1 O2 (load_network_wrong L al _ j r k C E (or_intror W))). cbn [rbind fst snd].
  rewrite (clear_bad (put_net n (mk_network true r k None) c2) n (mk_network true r k None) UB_null); auto.
  - intros m M. rewrite put_net_of. destruct (Nat.eqb_spec n m); [lia|]. apply OK. lia.
  - rewrite put_net_of, Nat.eqb_refl, O1. auto.
  - destruct r; [lia|]. destruct k; [lia|]. reflexivity.
Qed.
(*EX
Example C53_example_rows :
  json_to_program strict plenty (F_doc (JArr [net_doc; obj [("id", int_num 0); ("rows", int_num 2); ("cols", int_num 1); ("networkData", JArr [JArr [cell_j "NOP" false []]])]]%string)) old_program
  = Bad UB_null
  /\ json_to_program strict plenty (F_doc (JArr [net_doc; obj [("id", int_num 0); ("rows", int_num 2); ("cols", int_num 1)]]%string)) old_program = Bad UB_null
  /\ (exists ps, describes_networks strict 2 [net_doc] ps) /\ releasable old_program.
Proof.
  split; [vm_compute; reflexivity|]. split; [vm_compute; reflexivity|]. assert (R : releasable old_program) by (apply releasableb_ok; vm_compute; reflexivity). split; auto.
  apply (C52_accepts strict plenty [net_doc] old_program R (fun _ => eq_refl)). eexists. vm_compute. reflexivity.
Qed.
EX*)

(** C53: the same when memory for the rows of a network runs out. *)
Lemma C53_memory_actual_l : forall L al c js ps j rest n r k, releasable c -> (forall s, (element_of s < length js)%nat -> al s = true) -> al (A_cells (length js)) = false ->
  describes_networks L (q_nets (x_q c)) js ps ->
  natural_is j "id" n -> (n < q_nets (x_q c))%nat -> natural_is j "rows" r -> natural_is j "cols" k -> (0 < r)%nat -> (0 < k)%nat ->
  json_to_program L al (F_doc (JArr (js ++ j :: rest))) c = Bad UB_null.
Proof.
  intros L al c js ps j rest n r k R AL AF D A B C E R0 K0. destruct (at_element L al c js ps j rest R AL D) as (c2 & OK & Q & ->). rewrite <- Q in B. destruct (OK n B) as (old & O1 & O2).
  rewrite (load_element_run L al _ j c2 n old _ A B O1 O2 (load_network_wrong L al _ j r k C E (or_introl AF))). cbn [rbind fst snd].
  rewrite (clear_bad (put_net n (mk_network true r k None) c2) n (mk_network true r k None) UB_null); auto.
  - intros m M. rewrite put_net_of. destruct (Nat.eqb_spec n m); [lia|]. apply OK. lia.
  - rewrite put_net_of, Nat.eqb_refl, O1. auto.
  - destruct r; [lia|]. destruct k; [lia|]. reflexivity.
Qed.
(*EX
Example C53_example_memory :
  json_to_program strict (fun s => match s with A_cells 1 => false | _ => true end) (F_doc (JArr [net_doc; net_doc])) old_program = Bad UB_null.
Proof. vm_compute. reflexivity. Qed.
EX*)

(** C53: after elements that are loaded, a position, number of rows or number of columns outside 32 bits is converted with
    undefined behaviour. *)
Lemma C53_numbers_actual_l : forall L al c js ps j rest d, releasable c -> (forall s, (element_of s < length js)%nat -> al s = true) ->
  describes_networks L (q_nets (x_q c)) js ps -> (forall z, truncates d z -> ~ 0 <= z < 2 ^ 32) ->
  member_is j "id" (JNum d)
  \/ (exists n, natural_is j "id" n /\ (n < q_nets (x_q c))%nat /\ (member_is j "rows" (JNum d) \/ (exists r, natural_is j "rows" r) /\ member_is j "cols" (JNum d))) ->
  json_to_program L al (F_doc (JArr (js ++ j :: rest))) c = Bad UB_float.
Proof.
  intros L al c js ps j rest d R AL D T H. destruct (at_element L al c js ps j rest R AL D) as (c2 & OK & Q & ->).
  assert (TB : dbl_trunc d 0 (2 ^ 32 - 1) = Bad UB_float) by (apply dbl_trunc_bad; [lia|]; intros z Z K; apply (T z Z); lia).
  destruct H as [H|(n & N & NQ & H)].
  - apply member_iff in H. unfold load_element. destruct j; try discriminate H. rewrite H, TB. reflexivity.
  - rewrite <- Q in NQ. destruct (OK n NQ) as (old & O1 & O2). rewrite (load_element_run L al _ j c2 n old (Bad UB_float) N NQ O1 O2); [reflexivity|].
    unfold load_network. destruct H as [H|((r & K) & H)].
    + apply member_iff in H. rewrite H, TB. reflexivity.
    + apply natural_iff in K as (d' & K1 & K2). rewrite K1, K2. cbn [rbind]. apply member_iff in H. rewrite H, TB. reflexivity.
Qed.
(*EX
Example C53_example_numbers :
  json_to_program strict plenty (F_doc (JArr [net_doc; net_j (-1) 1 []])) old_program = Bad UB_float
  /\ json_to_program strict plenty (F_doc (JArr [net_doc; net_j 0 (2 ^ 32) []])) old_program = Bad UB_float
  /\ (forall z, truncates (Fin (-1) 0) z -> ~ 0 <= z < 2 ^ 32).
Proof.
  split; [vm_compute; reflexivity|]. split; [vm_compute; reflexivity|]. intros z (f & A & B & _). simpl in *. lia.
Qed.
EX*)

(** C53: after elements, rows and cells that are loaded, a cell that is part of a taller instruction makes the loader read
    past the end of the table of instructions. *)
Lemma C53_occupied_actual_l : forall L al c js ps j rest n r k before rows above xs x row below b ds, releasable c -> (forall s, al s = true) ->
  describes_networks L (q_nets (x_q c)) js ps -> beyond L = Bad UB_oob ->
  natural_is j "id" n -> (n < q_nets (x_q c))%nat -> natural_is j "rows" r -> natural_is j "cols" k -> Z.of_nat r < 2 ^ 31 -> Z.of_nat k < 2 ^ 31 ->
  member_is j "networkData" (JArr (above ++ JArr (before ++ x :: row) :: below)) -> length (above ++ JArr (before ++ x :: row) :: below) = r ->
  Forall2 (row_text L k) above rows -> length (before ++ x :: row) = k -> Forall2 (cell_text L) before xs ->
  occupied x -> member_is x "bar" (JBool b) -> member_is x "data" (JArr ds) ->
  json_to_program L al (F_doc (JArr (js ++ j :: rest))) c = Bad UB_oob.
Proof.
  intros L al c js ps j rest n r k before rows above xs x row below b ds R AL D BY A B C E RB KB ND LR FA LK FX OX BX DX.
  destruct (at_element L al c js ps j rest R (fun s _ => AL s) D) as (c2 & OK & Q & ->). rewrite <- Q in B. destruct (OK n B) as (old & O1 & O2).
  rewrite (load_element_run L al _ j c2 n old (Bad UB_oob) A B O1 O2); [reflexivity|]. generalize (length js). intros i.
  apply natural_iff in C as (dr & A1 & A2). apply natural_iff in E as (dc & B1 & B2). apply member_iff in ND.
  unfold load_network. rewrite A1, A2. cbn [rbind]. rewrite B1, B2. cbn [rbind]. cbv zeta. rewrite ND.
  rewrite (proj2 (cols_test _ (length (above ++ JArr (before ++ x :: row) :: below)) (trunc_range _ _ A2))) by (split; [lia|auto]). rewrite AL.
  replace (forallb _ _) with true by (symmetry; apply forallb_forall; auto).
  assert (RX : forall rr, load_rows L al i (Z.of_nat k) rr (above ++ JArr (before ++ x :: row) :: below) = Bad UB_oob); [|now rewrite RX].
  clear ND LR.
  assert (CX : forall a s, load_cell L a s x = Bad UB_oob).
  { intros a s. unfold load_cell. unfold occupied, string_is in OX. apply member_iff in OX, BX, DX. rewrite OX, BX, DX. change (get_instruction_code (txt "occupied")) with I_MULTI. cbn [data_qty]. rewrite BY. reflexivity. }
  assert (CS : forall rr cc, load_cells (fun c => load_cell L (al (A_data i rr c)) (fun d => al (A_str i rr c d))) cc (before ++ x :: row) = Bad UB_oob).
  { intros rr. clear LK. induction FX as [|y z before xs H _ IH]; intros cc; cbn [app load_cells].
    - now rewrite CX.
    - rewrite AL. rewrite (load_cell_complete L (fun d => al (A_str i rr cc d)) y z) by auto. cbn [rbind]. now rewrite IH. }
  induction FA as [|y z above rows (cs & -> & L1 & L2 & H) _ IH]; intros rr; cbn [app load_rows].
  - rewrite (proj2 (cols_test _ (length (before ++ x :: row)) (trunc_range _ _ B2))) by (split; [lia|auto]). now rewrite CS.
  - rewrite (proj2 (cols_test _ (length cs) (trunc_range _ _ B2))) by (split; [lia|auto]).
    rewrite (load_cells_complete L (fun c => load_cell L (al (A_data i rr c)) (fun d => al (A_str i rr c d)))) with (xs := z); auto.
    + cbn [rbind]. now rewrite IH.
    + intros cc j0 x0 K. rewrite AL. apply load_cell_complete; auto.
Qed.
(*EX
(** As in the program shipped with the library. *)
Example C53_example_occupied :
  json_to_program strict plenty (F_doc (JArr [net_doc;
    net_j 0 1 [[cell_j "CTU" false [op_j "counter" "C" "1"; op_j "preset" "NONE" "3"]]; [cell_j "occupied" false []]]]%string)) old_program = Bad UB_oob
  /\ (exists x, cell_text strict (cell_j "CTU" false [op_j "counter" "C" "1"; op_j "preset" "NONE" "3"]) x) /\ occupied (cell_j "occupied" false []).
Proof.
  split; [vm_compute; reflexivity|]. split.
  - eexists. eapply load_cell_sound with (al := true) (als := fun _ => true). vm_compute. reflexivity.
  - apply member_iff. vm_compute. reflexivity.
Qed.
EX*)

(** C53: a network that has rows but no number of columns is refused, and the next document that describes the same network
    makes the loader follow a null pointer. *)
Lemma C53_again_actual_l : forall L al c js ps j rest n r, releasable c -> (forall s, (element_of s < length js)%nat -> al s = true) ->
  describes_networks L (q_nets (x_q c)) js ps -> natural_is j "id" n -> (n < q_nets (x_q c))%nat -> natural_is j "rows" r -> (0 < r)%nat ->
  (forall d, ~ member_is j "cols" (JNum d)) ->
  exists c', json_to_program L al (F_doc (JArr (js ++ j :: rest))) c = Ok (J_FAIL, c')
    /\ forall L' al' j' rest', natural_is j' "id" n -> json_to_program L' al' (F_doc (JArr (j' :: rest'))) c' = Bad UB_null.
Proof.
  intros L al c js ps j rest n r R AL D A B C R0 NC. destruct (at_element L al c js ps j rest R AL D) as (c2 & OK & Q & ->). rewrite <- Q in B. destruct (OK n B) as (old & O1 & O2).
  assert (LN : load_network L al (length js) j = Ok (mk_network true r 0 None, false)).
  { apply natural_iff in C as (dr & A1 & A2). unfold load_network. rewrite A1, A2. cbn [rbind]. rewrite Nat2Z.id. destruct (member (txt "cols") j) as [jc|] eqn:E; auto.
    destruct jc; auto. apply member_iff in E. exfalso. eapply NC; eauto. }
  rewrite (load_element_run L al _ j c2 n old _ A B O1 O2 LN). cbn [rbind fst snd]. set (c3 := put_net n (mk_network true r 0 None) c2).
  assert (ON : net_of c3 n = Some (mk_network true r 0 None)) by (unfold c3; rewrite put_net_of, Nat.eqb_refl, O1; auto).
  assert (Q3 : q_nets (x_q c3) = q_nets (x_q c2)) by apply put_q.
  assert (CL : forall m, (m < q_nets (x_q c2))%nat -> exists x y, net_of c3 m = Some x /\ map_cells clear_cell x = Ok y).
  { intros m M. destruct (Nat.eq_dec m n) as [->|NE].
    - exists (mk_network true r 0 None), (mk_network true r 0 None). split; auto. unfold map_cells. simpl. now rewrite orb_true_r.
    - destruct (OK m M) as (x & X1 & X2). destruct (clear_net x X2) as (y & Y & _). exists x, y. split; auto. unfold c3. rewrite put_net_of. destruct (Nat.eqb_spec n m); [congruence|auto]. }
  assert (CP : forall c, q_nets (x_q c) = q_nets (x_q c2) -> (forall m, (m < q_nets (x_q c2))%nat -> exists x y, net_of c m = Some x /\ map_cells clear_cell x = Ok y) -> exists c', clear_program c = Ok c').
  { intros c0 Q0 H. destruct (pmap_first_ok (q_nets (x_q c0)) (map_cells clear_cell) (x_net c0)) as [p Hp]; [intros m M; apply H; lia|]. unfold clear_program. rewrite Hp. cbn [rbind]. eauto. }
  destruct (CP c3 Q3 CL) as [c4 C4]. rewrite C4. cbn [rbind]. exists c4. split; auto. intros L' al' j' rest' A'.
  destruct (clear_q _ _ C4) as (Q4 & _). assert (NS := proj2 (proj2 (clear_program_nets _ _ C4))).
  assert (ON4 : net_of c4 n = Some (mk_network true r 0 None)).
  { specialize (NS n). rewrite ON in NS. rewrite Q3, (proj2 (Nat.ltb_lt _ _) B) in NS. destruct NS as (nt' & M & ->). unfold map_cells in M. simpl in M. rewrite orb_true_r in M. congruence. }
  assert (exists c5, clear_program c4 = Ok c5) as [c5 C5].
  { apply CP; [congruence|]. intros m M. destruct (Nat.eq_dec m n) as [->|NE].
    - exists (mk_network true r 0 None), (mk_network true r 0 None). split; auto. unfold map_cells. simpl. now rewrite orb_true_r.
    - destruct (OK m M) as (x & X1 & X2). destruct (clear_net x X2) as (y & Y1 & Y2). destruct (clear_net y Y2) as (z & Z1 & _). exists y, z. split; auto.
      specialize (NS m). unfold c3 in NS. rewrite put_net_of in NS. destruct (Nat.eqb_spec n m); [congruence|]. rewrite X1 in NS. rewrite put_q, (proj2 (Nat.ltb_lt _ _) M) in NS.
      destruct NS as (w & W & ->). congruence. }
  unfold json_to_program. rewrite C5. cbn [rbind load_elements]. destruct (clear_q _ _ C5) as (Q5 & _).
  assert (ON5 : net_of c5 n = Some (mk_network true r 0 None)).
  { assert (NS5 := proj2 (proj2 (clear_program_nets _ _ C5)) n). rewrite ON4 in NS5. rewrite Q4, Q3, (proj2 (Nat.ltb_lt _ _) B) in NS5. destruct NS5 as (nt' & M & ->).
    unfold map_cells in M. simpl in M. rewrite orb_true_r in M. congruence. }
  apply natural_iff in A' as (d & A1 & A2). unfold load_element. destruct j'; try discriminate A1. rewrite A1, A2. cbn [rbind]. rewrite Q5, Q4, Q3. rewrite (proj2 (Z.leb_gt _ _)) by lia.
  rewrite Nat2Z.id, (net_at_of _ _ _ ON5). cbn [rbind]. unfold release_cells. simpl. destruct r; [lia|]. reflexivity.
Qed.
(*EX
Example C53_example_again : exists c', let bad := obj [("id", int_num 1); ("rows", int_num 3)]%string in
  json_to_program strict plenty (F_doc (JArr [net_doc; bad])) old_program = Ok (J_FAIL, c')
  /\ json_to_program strict plenty (F_doc (JArr [net_doc])) c' = Bad UB_null
  /\ exists c'', json_to_program strict plenty (F_doc (JArr [net_doc])) old_program = Ok (J_OK, c'').
Proof.
  eexists. split; [vm_compute; reflexivity|]. split; [vm_compute; reflexivity|]. eexists. vm_compute. reflexivity.
Qed.
EX*)
