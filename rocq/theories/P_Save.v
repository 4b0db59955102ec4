(** saving programs as JSON and loading them again (C54). *)
From Coq Require Import String.
From Verif Require Export SaveFacts P_Load.
Open Scope list_scope.
Open Scope Z_scope.

(** ** C54 *)

(** C54: a complete program without strings is saved without undefined behaviour; with a string, a value that was never
    written is read. *)
Lemma C54_saves_l : forall L c, releasable c -> has_operands c ->
  (no_strings c -> exists j, program_to_json L c = Ok j) /\ (~ no_strings c -> program_to_json L c = Bad UB_indet).
Proof.
  intros L c R HO. apply releasable_nets in R.
  set (badc := fun x : cell => exists d v, (d < c_dq x)%nat /\ elem (c_data x) d = Some v /\ stringy (c_code x) d v).
  set (badr := fun (nt : network) (r : nat) => exists col x, (col < n_cols nt)%nat /\ ncell nt r col = Some x /\ badc x).
  set (badn := fun n => exists nt r, net_of c n = Some nt /\ (r < n_rows nt)%nat /\ badr nt r).
  assert (CX : forall n nt r col, (n < q_nets (x_q c))%nat -> net_of c n = Some nt -> (r < n_rows nt)%nat -> (col < n_cols nt)%nat ->
    exists x, ncell nt r col = Some x /\ ((exists j, save_cell L x = Ok j) /\ ~ badc x \/ save_cell L x = Bad UB_indet /\ badc x)).
  { intros n nt r col NQ N RR C. destruct (R n NQ) as (nt0 & N0 & NO). rewrite N in N0. injection N0 as <-. destruct (proj2 NO r col RR C) as (x & X & _). exists x. split; auto.
    unfold save_cell. destruct (save_operands_or L x (c_dq x) 0) as [[(js & ->) F]|[-> (e & v & A & B & K)]].
    - intros e E. simpl. assert (P : program_cell c n r col) by (apply (program_cell_net _ _ _ _ _ N); auto).
      assert (H := HO n r col (c_bar x) (c_code x) (c_dq x) e P). simpl in H. rewrite (cell_of_net _ _ _ r col N), X in H. specialize (H eq_refl E). simpl in H. destruct (elem (c_data x) e); [discriminate|contradiction].
    - left. split; [cbn [rbind]; eauto|]. intros (d & v & A & B & K). apply (F d v A B K).
    - right. split; auto. exists e, v. auto. }
  assert (RX : forall n nt r, (n < q_nets (x_q c))%nat -> net_of c n = Some nt -> (r < n_rows nt)%nat ->
    (exists j, save_row L nt r = Ok j) /\ ~ badr nt r \/ save_row L nt r = Bad UB_indet /\ badr nt r).
  { intros n nt r NQ N RR. unfold save_row. destruct (save_list_or (fun col => cell_in nt r col) (save_cell L) badc (n_cols nt) 0) as [[(js & ->) F]|[-> (col & x & A & B & K)]].
    - intros col C. destruct (CX n nt r col NQ N RR C) as (x & X & H). exists x. split; [now apply cell_in_of|auto].
    - left. split; [cbn [rbind]; eauto|]. intros (col & x & A & B & K). apply (F col x A); auto. now apply cell_in_of.
    - right. split; auto. exists col, x. split; auto. split; auto. now apply cell_in_inv in B. }
  assert (NX : forall n, (n < q_nets (x_q c))%nat -> (exists j, save_network L c n = Ok j) /\ ~ badn n \/ save_network L c n = Bad UB_indet /\ badn n).
  { intros n NQ. destruct (R n NQ) as (nt & N & NO). unfold save_network. rewrite (net_at_of _ _ _ N). cbn [rbind].
    destruct (save_list_or Ok (save_row L nt) (badr nt) (n_rows nt) 0) as [[(js & ->) F]|[-> (r & x & A & B & K)]].
    - intros r RR. exists r. split; auto. apply (RX n); auto.
    - left. split; [cbn [rbind]; eauto|]. intros (nt' & r & N' & A & K). rewrite N in N'. injection N' as <-. apply (F r r A); auto.
    - right. split; auto. injection B as <-. exists nt, r. auto. }
  assert (BS : no_strings c <-> forall n, (n < q_nets (x_q c))%nat -> ~ badn n).
  { split.
    - intros NS n NQ (nt & r & N & RR & col & x & C & X & d & v & D & V & T & S').
      apply (NS n r col (c_bar x) (c_code x) (c_dq x) d v); auto.
      + apply (program_cell_net _ _ _ _ _ N); auto.
      + simpl. now rewrite (cell_of_net _ _ _ r col N), X.
      + apply (operand_at_net _ _ _ _ _ _ _ _ N X). auto.
      + now apply timer_base_not.
    - intros H n r col bar i dq d v P E O B S'. destruct (R n (proj1 P)) as (nt & N & NO). assert (NQ := proj1 P). apply (program_cell_net _ _ _ _ _ N) in P as (_ & RR & C).
      destruct (proj2 NO r col RR C) as (x & X & _). apply (operand_at_net _ _ _ _ _ _ _ _ N X) in O as [V D]. simpl in E. rewrite (cell_of_net _ _ _ r col N), X in E. injection E as <- <- <-.
      apply (H n NQ). exists nt, r. split; auto. split; auto. exists col, x. split; auto. split; auto. exists d, v. split; auto. split; auto. split; auto. now apply timer_base_not. }
  unfold program_to_json. destruct (save_list_or Ok (save_network L c) badn (q_nets (x_q c)) 0) as [[(js & ->) F]|[-> (n & x & A & B & K)]].
  - intros n NQ. exists n. split; auto.
  - split; [cbn [rbind]; eauto|]. intros NS. exfalso. apply NS, BS. intros n NQ. apply (F n n NQ eq_refl).
  - injection B as <-. split; auto. intros NS. exfalso. apply (proj1 BS NS n A K).
Qed.
(*EX
Example C54_example_saves : releasable stored_program /\ has_operands stored_program
  /\ member (txt "rows") (match saved strict stored_program with JArr (j :: _) => j | j => j end) = Some (int_num 2)
  /\ program_to_json strict (demo_nets [net_on true [[cellv I_NO [V R_M 0]; cellv I_MOVE [mk_value R_S 0 (Some (txt "a")); V R_D 2]]]]) = Bad UB_indet.
Proof. split; [apply releasableb_ok; vm_compute; reflexivity|]. split; [apply has_operandsb; vm_compute; reflexivity|]. split; vm_compute; reflexivity. Qed.
EX*)

(** C54: what was saved is accepted again exactly if the program has only known instructions with their operands, no
    constants except presets of counters, no strings, and no timers counting milliseconds. *)
Lemma C54_accepted_l : forall L al c j c0, releasable c -> moderate c -> program_to_json L c = Ok j ->
  releasable c0 -> q_nets (x_q c0) = q_nets (x_q c) -> (forall s, al s = true) ->
  ((exists c', json_to_program L al (F_doc j) c0 = Ok (J_OK, c')) <-> storable L c).
Proof.
  intros L al c j c0 R [M1 M2] J R0 Q AL. destruct (program_saved _ _ _ J) as (js & -> & LN & SN). rewrite (C52_accepts_l L al js c0 R0 AL), Q. apply releasable_nets in R.
  rewrite (storable_nets L c R). split.
  - intros (ps & D) n nt NQ N. destruct (nth_error js n) as [jn|] eqn:JN; [|apply nth_error_None in JN; lia].
    destruct (forall2_nth _ _ _ _ _ D JN) as ([k nt'] & _ & _ & _ & T). simpl in T. apply (net_saved_back _ _ _ _ _ _ (SN n jn JN) N T).
  - intros ST. destruct (list_choice (fun n jn p => natural_is jn "id" (fst p) /\ (fst p < q_nets (x_q c))%nat /\ network_text L jn (snd p)) js 0) as (ps & LP & F).
    + intros n jn JN. simpl. assert (NQ : (n < q_nets (x_q c))%nat) by (rewrite <- LN; apply nth_error_Some; congruence). destruct (R n NQ) as (nt & N & _).
      destruct (M2 n (n_en nt) (n_rows nt) (n_cols nt) NQ) as [RB CB]; [simpl; now rewrite N|].
      destruct (net_saved_text _ _ _ _ _ (SN n jn JN) N (ST n nt NQ N) RB CB) as (nt' & T). exists (n, nt'). simpl. split; auto.
      destruct (network_saved _ _ _ _ (SN n jn JN)) as (_ & _ & _ & _ & _ & M & _). apply int_natural; auto. lia.
    + exists ps. unfold describes_networks. clear -LP F. revert ps LP F. assert (G : forall m ps, length ps = length js ->
        (forall e o v, nth_error js e = Some o -> nth_error ps e = Some v -> natural_is o "id" (fst v) /\ (fst v < m)%nat /\ network_text L o (snd v)) ->
        Forall2 (fun j p => natural_is j "id" (fst p) /\ (fst p < m)%nat /\ network_text L j (snd p)) js ps).
      { intros m. induction js as [|o js IH]; intros [|p ps] LP F; try discriminate; constructor; [apply (F 0%nat); auto|]. apply IH; [simpl in LP; lia|]. intros e o' v A B. apply (F (S e)); auto. }
      intros ps LP F. apply G; auto.
Qed.
(*EX
Example C54_example_accepted : releasable stored_program /\ moderate stored_program /\ storable strict stored_program
  /\ verdict strict plenty (F_doc (saved strict stored_program)) old_program = Some J_OK.
Proof.
  split; [apply releasableb_ok; vm_compute; reflexivity|]. split; [apply moderateb_ok; vm_compute; reflexivity|]. split; [apply storableb; vm_compute; reflexivity|]. vm_compute. reflexivity.
Qed.
EX*)

(** C54: a program that is loaded from what was saved is the saved one exactly if all reals survive their conversion to text;
    but all networks are enabled. *)
Lemma C54_restored_l : forall L al c j c0 c', releasable c -> has_operands c -> program_to_json L c = Ok j ->
  releasable c0 -> q_nets (x_q c0) = q_nets (x_q c) -> json_to_program L al (F_doc j) c0 = Ok (J_OK, c') ->
  (same_program c c' <-> reals_kept L c)
  /\ (forall n en rows cols, (n < q_nets (x_q c))%nat -> peek c' (LNet n) = Some (VNet en rows cols) -> en = true)
  /\ (forall n r col, program_cell c' n r col -> powered c' n r col false)
  /\ changes_only c0 c' (fun l => exists n, network_place n l).
Proof.
  intros L al c j c0 c' R HO J R0 Q H. destruct (program_saved _ _ _ J) as (js & -> & LN & SN). destruct (C52_program_l _ _ _ _ _ R0 H) as (js' & ps & E & D & FN & _ & _ & CH). injection E as <-.
  apply releasable_nets in R. rewrite Q in D.
  assert (QC : q_nets (x_q c') = q_nets (x_q c)).
  { assert (K : peek c' LQty = peek c0 LQty). { apply CH. intros (n & P & _). destruct P as [P|[P|[(r & P)|(r & col & P)]]]; try discriminate. unfold cell_place in P. destruct P as [P|[P|[P|(d & P)]]]; discriminate. }
    simpl in K. injection K as K. rewrite K. exact Q. }
  assert (NB : forall n nt, (n < q_nets (x_q c))%nat -> net_of c n = Some nt -> exists nt', net_of c' n = Some nt' /\ net_storable L nt /\ net_back L nt nt').
  { intros n nt NQ N. destruct (nth_error js n) as [jn|] eqn:JN; [|apply nth_error_None in JN; lia]. destruct (forall2_nth _ _ _ _ _ D JN) as ([k nt'] & PN & _ & _ & T). simpl in T.
    exists nt'. destruct (net_saved_back _ _ _ _ _ _ (SN n jn JN) N T) as [A B]. split; auto. apply FN.
    assert (FI : forall e p, nth_error ps e = Some p -> fst p = (0 + e)%nat).
    { intros e p P. destruct (nth_error_forall2 _ _ _ _ _ D P) as (je & JE & I & _). destruct (network_saved _ _ _ _ (SN e je JE)) as (_ & _ & _ & _ & _ & M & _). apply (natural_int _ _ _ _ M) in I. simpl. lia. }
    assert (K := FI n _ PN). simpl in K. subst k. apply (final_index ps 0 n nt'); auto. }
  clear H D FN SN LN J.
  assert (RB : forall n r col x nt, (n < q_nets (x_q c))%nat -> net_of c n = Some nt -> (r < n_rows nt)%nat -> (col < n_cols nt)%nat -> ncell nt r col = Some x ->
    exists nt' x', net_of c' n = Some nt' /\ ncell nt' r col = Some x' /\ cell_storable L x /\ read_back L x x').
  { intros n r col x nt NQ N RR C X. destruct (NB n nt NQ N) as (nt' & N' & A & B). destruct B as (_ & _ & _ & B). destruct (B r col x RR C X) as (x' & X' & K). exists nt', x'. split; auto. split; auto. split; auto. eapply A; eauto. }
  split; [|split; [|split]].
  - split.
    + intros [_ SP] n r col d v P O T. destruct (R n (proj1 P)) as (nt & N & NO). assert (NQ := proj1 P). apply (program_cell_net _ _ _ _ _ N) in P as (_ & RR & C).
      destruct (proj2 NO r col RR C) as (x & X & _). destruct (SP n (n_en nt) (n_rows nt) (n_cols nt) NQ) as [_ K]; [simpl; now rewrite N|].
      destruct (K r col (c_bar x) (c_code x) (c_dq x) RR C) as [_ K2]; [simpl; now rewrite (cell_of_net _ _ _ r col N), X|].
      destruct (K2 d v O) as (v' & O' & SO). destruct (RB n r col x nt NQ N RR C X) as (nt' & x' & N' & X' & ST & B). apply (operand_at_net _ _ _ _ _ _ _ _ N X) in O as [V DQ].
      apply (operand_at_net _ _ _ _ _ _ _ _ N' X') in O' as [V' _]. destruct B as (_ & _ & _ & _ & B). rewrite (B d v DQ V) in V'. injection V' as <-.
      assert (NM := proj2 ST d v DQ V). rewrite T in NM. destruct SO as (_ & _ & S3). destruct NM as [[_ NM]|[NBP _]]; [simpl in NM; repeat destruct NM as [NM|NM]; try discriminate; contradiction|].
      specialize (S3 NBP). rewrite T in S3. unfold restored in S3. rewrite (proj2 (timer_base_not _ _) NBP), T in S3. cbn [v_raw] in S3. rewrite i32_mod in S3. exact S3.
    + intros RK. split; auto. intros n en rows cols NQ P. destruct (R n NQ) as (nt & N & NO). simpl in P. rewrite N in P. injection P as <- <- <-. split.
      * destruct (NB n nt NQ N) as (nt' & N' & _ & (_ & B2 & B3 & _)). exists (n_en nt'). simpl. rewrite N'. simpl. congruence.
      * intros r col bar i dq RR C P. destruct (proj2 NO r col RR C) as (x & X & _). simpl in P. rewrite (cell_of_net _ _ _ r col N), X in P. injection P as <- <- <-.
        destruct (RB n r col x nt NQ N RR C X) as (nt' & x' & N' & X' & ST & (B1 & B2 & B3 & B4 & B5)). split.
        -- simpl. rewrite (cell_of_net _ _ _ r col N'), X'. simpl. congruence.
        -- intros d v O. apply (operand_at_net _ _ _ _ _ _ _ _ N X) in O as [V DQ]. exists (restored L (c_code x) d v). split.
           ++ apply (operand_at_net _ _ _ _ _ _ _ _ N' X'). split; auto. lia.
           ++ assert (NM := proj2 ST d v DQ V). split; auto. split.
              ** intros BP. unfold restored. rewrite (proj2 (timer_base_iff _ _) BP). cbn [v_raw]. apply i32_mod.
              ** intros BP. unfold restored. rewrite (proj2 (timer_base_not _ _) BP). cbn [v_raw]. destruct (v_type v) eqn:T; try apply i32_mod.
                 --- apply port_mod.
                 --- apply port_mod.
                 --- exfalso. destruct NM as [[NM _]|[_ [NM|(NM & _)]]]; [contradiction| |discriminate]. simpl in NM. repeat destruct NM as [NM|NM]; try discriminate; contradiction.
                 --- assert (K := RK n r col d v (proj2 (program_cell_net _ _ _ _ _ N) (conj NQ (conj RR C))) (proj2 (operand_at_net _ _ _ _ _ _ _ _ N X) (conj V DQ)) T). rewrite i32_mod. exact K.
  - intros n en rows cols NQ P. destruct (R n NQ) as (nt & N & NO). destruct (NB n nt NQ N) as (nt' & N' & _ & (B & _)). simpl in P. rewrite N' in P. simpl in P. congruence.
  - intros n r col P. assert (NQ := proj1 P). rewrite QC in NQ. destruct (R n NQ) as (nt & N & NO). destruct (NB n nt NQ N) as (nt' & N' & _ & (_ & B2 & B3 & _)).
    apply (program_cell_net _ _ _ _ _ N') in P as (_ & RR & C). rewrite B2 in RR. rewrite B3 in C. destruct (proj2 NO r col RR C) as (x & X & _).
    destruct (RB n r col x nt NQ N RR C X) as (nt2 & x' & N2 & X' & _ & (B & _)). rewrite N' in N2. injection N2 as <-. unfold powered. simpl. rewrite (cell_of_net _ _ _ r col N'), X'. simpl. congruence.
  - intros l NL. apply CH. intros (n & P & _). apply NL. eauto.
Qed.
(*EX
(** A program with a disabled network comes back enabled. *)
Example C54_example_restored : exists c', json_to_program strict plenty (F_doc (saved strict stored_program)) old_program = Ok (J_OK, c')
  /\ same_program stored_program c' /\ peek stored_program (LNet 1) = Some (VNet false 1 2) /\ peek c' (LNet 1) = Some (VNet true 1 2).
Proof.
  exists (match json_to_program strict plenty (F_doc (saved strict stored_program)) old_program with Ok (_, c') => c' | _ => garbage end).
  assert (H : json_to_program strict plenty (F_doc (saved strict stored_program)) old_program
    = Ok (J_OK, match json_to_program strict plenty (F_doc (saved strict stored_program)) old_program with Ok (_, c') => c' | _ => garbage end)) by (vm_compute; reflexivity).
  split; [exact H|]. split; [|split; vm_compute; reflexivity].
  apply (C54_restored strict plenty stored_program (saved strict stored_program) old_program).
  - apply releasableb_ok; vm_compute; reflexivity.
  - apply has_operandsb; vm_compute; reflexivity.
  - vm_compute. reflexivity.
  - apply releasableb_ok; vm_compute; reflexivity.
  - reflexivity.
  - exact H.
  - intros n r col d v P O T. exfalso. assert (A : all_cells stored_program (fun x => match c_data x with Some l => forallb (fun v => negb (reg_code (v_type v) =? 14)) l | None => true end) = true) by (vm_compute; reflexivity).
    destruct (all_cells_ok _ _ _ _ _ A P) as (x & X & K). destruct O as [O _]. simpl in O. rewrite X in O. simpl in O. destruct (c_data x) as [l|]; [|discriminate]. simpl in O.
    destruct (nth_error l d) as [w|] eqn:W; [|discriminate]. injection O as ->. apply nth_error_In in W. rewrite forallb_forall in K. specialize (K v W). rewrite T in K. discriminate.
Qed.
EX*)

(** What is loaded from a saved program was storable. *)
Lemma loaded_storable L al c j c0 c' : releasable c -> program_to_json L c = Ok j -> releasable c0 -> q_nets (x_q c0) = q_nets (x_q c) ->
  json_to_program L al (F_doc j) c0 = Ok (J_OK, c') -> storable L c.
Proof.
  intros R J R0 Q H. destruct (program_saved _ _ _ J) as (js & -> & LN & SN). destruct (C52_program_l _ _ _ _ _ R0 H) as (js' & ps & E & D & _). injection E as <-.
  apply releasable_nets in R. apply (storable_nets L c R). intros n nt NQ N. destruct (nth_error js n) as [jn|] eqn:JN; [|apply nth_error_None in JN; lia].
  destruct (forall2_nth _ _ _ _ _ D JN) as ([k nt'] & _ & _ & _ & T). simpl in T. apply (net_saved_back _ _ _ _ _ _ (SN n jn JN) N T).
Qed.
Lemma saved_tame L c js : releasable c -> moderate c -> program_to_json L c = Ok (JArr js) -> (exists q, beyond L = Ok q) \/ ~ has_occupied c -> Forall (tame_element L) js.
Proof.
  intros R [M1 M2] J O. destruct (program_saved _ _ _ J) as (js' & E & LN & SN). injection E as <-. apply releasable_nets in R. apply Forall_forall. intros j IJ. apply In_nth_error in IJ as (n & JN).
  assert (NQ : (n < q_nets (x_q c))%nat) by (rewrite <- LN; apply nth_error_Some; congruence). destruct (network_saved _ _ _ _ (SN n j JN)) as (nt & rs & N & LR & SR & K1 & K2 & K3 & K4).
  destruct (M2 n (n_en nt) (n_rows nt) (n_cols nt) NQ) as [RB CB]; [simpl; now rewrite N|].
  assert (TN : forall k z, member (txt k) j = Some (int_num z) -> 0 <= z < 2 ^ 32 -> tame_number j k).
  { intros k z M B d D. apply member_iff in D. rewrite M in D. injection D as <-. exists z. split; auto. exists 0. simpl. lia. }
  split; [apply (TN _ _ K1); lia|]. split; [apply (TN _ _ K2); lia|]. split; [apply (TN _ _ K3); lia|]. split.
  - intros r NR _. assert (r = n_rows nt) as -> by (apply (natural_int _ _ _ _ K2) in NR; lia). split; auto. exists (n_cols nt), rs. split; [apply int_natural; auto; lia|]. split; auto. now apply member_iff.
  - intros rs' D. apply member_iff in D. rewrite K4 in D. injection D as <-. destruct O as [O|O]; [left; auto|]. right. intros cs x I1 I2 OX. apply O.
    apply In_nth_error in I1 as (r & JR). apply In_nth_error in I2 as (col & JC). destruct (row_saved _ _ _ _ (SR r _ JR)) as (cs' & E & LC & SC). injection E as <-. destruct (SC col x JC) as (y & Y & SY).
    assert (RR : (r < n_rows nt)%nat) by (rewrite <- LR; apply nth_error_Some; congruence). assert (C : (col < n_cols nt)%nat) by (rewrite <- LC; apply nth_error_Some; congruence).
    exists n, r, col, (c_bar y), (c_dq y). split; [apply (program_cell_net _ _ _ _ _ N); auto|]. simpl. rewrite (cell_of_net _ _ _ r col N), Y. simpl.
    unfold save_cell in SY. apply rbind_inv in SY as (ds & _ & SY). apply ok_inj in SY. subst x. apply member_iff in OX. destruct (cell3 (JStr (symbol_text (c_code y))) (JBool (c_bar y)) (JArr ds)) as (M & _).
    rewrite M in OX. injection OX as OX. assert (SY := symbol_named (c_code y)). rewrite OX in SY. change (get_instruction_code (txt "occupied")) with I_MULTI in SY. destruct (c_code y); try discriminate SY. reflexivity.
Qed.

(** C54: any other program is lost: what was saved is never accepted, and without occupied cells it is refused and leaves an
    empty program. *)
Lemma C54_lost_actual_l : forall L al c j c0, releasable c -> moderate c -> program_to_json L c = Ok j ->
  releasable c0 -> q_nets (x_q c0) = q_nets (x_q c) -> ~ storable L c ->
  (forall c', json_to_program L al (F_doc j) c0 <> Ok (J_OK, c'))
  /\ (~ has_occupied c -> (forall i, al (A_cells i) = true) -> exists c', json_to_program L al (F_doc j) c0 = Ok (J_FAIL, c') /\ emptied c').
Proof.
  intros L al c j c0 R M J R0 Q NS. assert (NV : forall c', json_to_program L al (F_doc j) c0 <> Ok (J_OK, c')) by (intros c' H; apply NS; eapply loaded_storable; eauto).
  split; auto. intros NO AL. destruct (program_saved _ _ _ J) as (js & -> & _). destruct (C53_safe_l L al js c0 R0 (saved_tame L c js R M J (or_intror NO)) AL) as (e & c' & H & E & _).
  destruct E as [->| ->]; [exfalso; eapply NV; eauto|]. exists c'. split; auto. destruct (C53_refused_l L al _ c0 _ c' H) as (_ & K & _); [discriminate|exact K].
Qed.

(** C54: programs with constants, with times in milliseconds or, where reading past the table of instructions is an error, with
    instructions of more than one row are never read back. *)
Lemma C54_not_storable_actual_l : forall L c, has_constant c \/ has_occupied c /\ (forall q, beyond L <> Ok q) -> ~ storable L c.
Proof.
  intros L c [(n & r & col & bar & i & dq & d & v & P & E & O & T & NP)|((n & r & col & bar & dq & P & E) & B)] ST.
  - destruct (ST _ _ _ _ _ _ P E) as [_ H]. specialize (H d v O). rewrite T in H. destruct H as [[_ H]|[_ [H|(_ & H)]]]; [| |contradiction]; simpl in H; repeat destruct H as [H|H]; try discriminate; contradiction.
  - destruct (ST _ _ _ _ _ _ P E) as [H _]. simpl in H. eapply B; eauto.
Qed.
(*EX
(** A constant moved into a register, and a timer of milliseconds. *)
Example C54_example_lost : let c := demo_nets [net_on true [[cellv I_MOVE [V R_NONE 5; V R_D 1]]]; net_on true [[cellv I_TON [V R_T 1; V R_NONE 100]]]] in
  has_constant c /\ releasable c /\ moderate c /\ verdict strict plenty (F_doc (saved strict c)) old_program = Some J_FAIL /\ verdict strict plenty (F_doc (saved strict c)) c = Some J_FAIL.
Proof.
  split.
  - exists 1%nat, 0%nat, 0%nat, false, I_TON, 2%nat, 1%nat, (V R_NONE 100). split; [split; [vm_compute; auto|]; do 3 eexists; split; [vm_compute; reflexivity|]; split; auto|]. split; [vm_compute; reflexivity|].
    split; [split; [vm_compute; reflexivity|]; do 3 eexists; split; [vm_compute; reflexivity|]; auto|]. split; auto. intros [[?|?] _]; discriminate.
  - split; [apply releasableb_ok; vm_compute; reflexivity|]. split; [apply moderateb_ok; vm_compute; reflexivity|]. split; vm_compute; reflexivity.
Qed.
(** A counter of two rows, as the library builds it, saved and then loaded. *)
Example C54_example_occupied : let c := demo_nets [net_on true [[cellv I_CTU [V R_C 1; V R_NONE 10]]; [mk_cell false false I_MULTI 0 None]]; net_on true [[cellv I_NOP []]]] in
  has_occupied c /\ json_to_program strict plenty (F_doc (saved strict c)) old_program = Bad UB_oob
  /\ verdict (mk_outside (fun _ => []) (fun _ => 0) (Ok 0%nat)) plenty (F_doc (saved strict c)) old_program = Some J_OK.
Proof.
  split; [|split; vm_compute; reflexivity]. exists 0%nat, 1%nat, 0%nat, false, 0%nat. split; [split; [vm_compute; auto|]; do 3 eexists; split; [vm_compute; reflexivity|]; split; auto with arith|]. vm_compute. reflexivity.
Qed.
EX*)
