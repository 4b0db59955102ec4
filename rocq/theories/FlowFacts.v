(** Facts about loaded programs used for the statements on loading, checking and running. *)
From Coq Require Import String.
From Verif Require Export SpecFlow P_Load P_Check.
Open Scope list_scope.
Open Scope Z_scope.

Lemma i32_fits z : fits (i32 z).
Proof. unfold fits, i32. assert (B := Z.mod_pos_bound (z + 2 ^ 31) (2 ^ 32) ltac:(lia)). lia. Qed.

(** Cells written by the loader. *)
Lemma cell_text_facts L j x : cell_text L j x ->
  (known (c_code x) \/ c_code x = I_MULTI)
  /\ (forall h k, documented (c_code x) = Some (h, k) -> c_dq x = k)
  /\ (c_dq x = 0%nat \/ exists vs, c_data x = Some vs /\ length vs = c_dq x)
  /\ (forall d v, elem (c_data x) d = Some v -> v_type v = R_NONE -> fits (v_raw v)).
Proof.
  intros (s & i & b & ds & vs & _ & IN & _ & _ & OP & LV & OT & ->). cbn [c_code c_dq c_data]. split; [|split; [|split]].
  - unfold symbols in IN. simpl in IN. repeat (destruct IN as [IN|IN]; [injection IN as <- <-; simpl; auto|]). contradiction.
  - intros h k D. destruct i; simpl in OP, D; try discriminate; injection D as <- <-; auto; contradiction.
  - destruct ds; [auto|right; eauto].
  - intros d v E T. assert (E' : nth_error vs d = Some v) by (destruct ds; [destruct vs; [destruct d; discriminate|discriminate]|exact E]).
    destruct (nth_error ds d) as [o|] eqn:O1; [|apply nth_error_None in O1; assert (d < length vs)%nat by (apply nth_error_Some; congruence); lia].
    destruct (OT d o v O1 E') as (nm & ty & t & s0 & _ & _ & _ & [(_ & _ & z & _ & ->)|(_ & _ & SF)]); [apply i32_fits|].
    inversion SF; subst; cbn [v_type v_raw] in *; try apply i32_fits; try discriminate. destruct H; subst; discriminate.
Qed.
Lemma network_cell L j nt r col : network_text L j nt -> (r < n_rows nt)%nat -> (col < n_cols nt)%nat -> exists jc x, ncell nt r col = Some x /\ cell_text L jc x.
Proof.
  intros (rows & cols & rs & cells & _ & _ & _ & LR & _ & F & ->). cbn [n_rows n_cols]. intros R C. assert (LC := forall2_len _ _ _ F).
  destruct (nth_error cells r) as [row|] eqn:E; [|apply nth_error_None in E; lia].
  destruct (nth_error_forall2 _ _ _ _ _ F E) as (jr & _ & cs & _ & LCS & _ & G). assert (LX := forall2_len _ _ _ G).
  destruct (nth_error row col) as [x|] eqn:X; [|apply nth_error_None in X; lia].
  destruct (nth_error_forall2 _ _ _ _ _ G X) as (jc & _ & T). exists jc, x. unfold ncell. simpl. rewrite E. simpl. auto.
Qed.
Lemma final_described L nets js ps n nt : describes_networks L nets js ps -> final ps n = Some nt -> exists j, In j js /\ network_text L j nt.
Proof.
  intros D. induction D as [|j [k x] js ps (A & B & C) _ IH]; simpl; [discriminate|]. destruct (final ps n) as [y|].
  - intros H. destruct (IH H) as (j' & I & T). eauto.
  - destruct (k =? n)%nat; [|discriminate]. intros H. injection H as <-. eauto.
Qed.
(** Cleared cells. *)
Lemma clear_cell_dq x y : clear_cell x = Ok y -> c_dq x = 0%nat \/ c_data x <> None -> c_dq y = 0%nat /\ c_code y = I_NOP /\ c_data y = None.
Proof.
  intros H K. assert (B := clear_cell_ok _ _ H). destruct B as (B1 & B2 & B3 & B4 & _). unfold clear_cell in H.
  destruct (c_data x) as [l|] eqn:D.
  - destruct (_ <=? _)%nat in H; try discriminate; injection H as <-; auto.
  - injection H as <-. destruct K; [|congruence]. simpl. auto.
Qed.

(** A loaded program: every network is described by the document or is the old one without its instructions. *)
Lemma loaded_networks L al f c c' : releasable c -> json_to_program L al f c = Ok (J_OK, c') ->
  exists js, f = F_doc (JArr js) /\ set_x_net None c' = set_x_net None c /\ size (x_net c') = size (x_net c)
    /\ forall n, (n < q_nets (x_q c))%nat ->
         (exists j nt, In j js /\ network_text L j nt /\ net_of c' n = Some nt)
         \/ (exists nt0 nt, net_of c n = Some nt0 /\ map_cells clear_cell nt0 = Ok nt /\ net_of c' n = Some nt).
Proof.
  intros R H. unfold json_to_program in H. destruct f as [| |j]; try discriminate. destruct j as [| | | |js|]; try discriminate. apply releasable_nets in R.
  destruct (clearing_ok c R) as (c1 & C1 & R1). rewrite C1 in H. cbn [rbind] in H. destruct (clear_q _ _ C1) as (Q & F1 & S1).
  apply rbind_inv in H as ([c2 ok] & E & H). destruct ok; [|apply rbind_inv in H as (c3 & _ & H); discriminate]. injection H as <-.
  apply load_elements_sound in E as (ps & D & ->). exists js. split; auto. destruct (put_all_nets ps c1) as [F2 S2]. split; [congruence|]. split; [congruence|].
  intros n N. rewrite put_all_of. rewrite <- Q in N. destruct (R1 n N) as (x & X & _). rewrite X. destruct (final ps n) as [nt|] eqn:F.
  - left. destruct (final_described _ _ _ _ _ _ D F) as (j & I & T). eauto.
  - right. apply clear_program_nets in C1 as (_ & _ & NS). specialize (NS n). rewrite Q in N. destruct (R n N) as (nt0 & O1 & _). rewrite O1 in NS.
    rewrite (proj2 (Nat.ltb_lt _ _) N) in NS. destruct NS as (nt' & M & O2). exists nt0, nt'. rewrite <- X. auto.
Qed.

Lemma same_machine c c' : set_x_net None c' = set_x_net None c -> c' = set_x_net (x_net c') c.
Proof. destruct c, c'; simpl. intros H. injection H; intros; subst. reflexivity. Qed.
Lemma net_peek c n nt : net_of c n = Some nt -> peek c (LNet n) = Some (VNet (n_en nt) (n_rows nt) (n_cols nt)).
Proof. intros H. simpl. now rewrite H. Qed.
(** The cells of a loaded program. *)
Lemma loaded_cells L al f c c' : checkable c -> releasable c -> json_to_program L al f c = Ok (J_OK, c') ->
  forall n, (n < q_nets (x_q c'))%nat -> exists nt, net_of c' n = Some nt
    /\ forall r col, (r < n_rows nt)%nat -> (col < n_cols nt)%nat -> exists x, cell_of c' n r col = Some x
      /\ (known (c_code x) \/ c_code x = I_MULTI)
      /\ (forall h k, documented (c_code x) = Some (h, k) -> c_dq x = k)
      /\ (c_dq x = 0%nat \/ exists vs, c_data x = Some vs /\ length vs = c_dq x)
      /\ (forall d v, elem (c_data x) d = Some v -> v_type v = R_NONE -> fits (v_raw v)).
Proof.
  intros K R H n N. destruct (loaded_networks L al f c c' R H) as (js & _ & F & _ & NS).
  assert (Q : x_q c' = x_q c) by (apply same_machine in F; rewrite F; destruct c; reflexivity). rewrite Q in N.
  destruct (NS n N) as [(j & nt & _ & T & O1)|(nt0 & nt & O0 & M & O1)]; exists nt; (split; [exact O1|]); intros r col R1 C1.
  - destruct (network_cell L j nt r col T R1 C1) as (jc & x & X & CT). exists x. rewrite (cell_of_net _ _ _ _ _ O1). split; auto. eapply cell_text_facts; eauto.
  - assert (M' := M). apply map_cells_spec in M' as (_ & RR & CC & _ & _ & MS). rewrite RR in R1. rewrite CC in C1.
    assert (X := map_cells_exist _ _ _ r col M R1 C1). destruct (ncell nt0 r col) as [x|] eqn:X1; [|congruence]. specialize (MS r col x X1).
    rewrite (proj2 (in_rect_lt nt0 r col)) in MS by auto. destruct MS as (y & Y & Y2). exists y. rewrite (cell_of_net _ _ _ _ _ O1). split; auto.
    destruct (ck_cells c K n N) as (en & rows & cols & P & CK). rewrite (net_peek _ _ _ O0) in P. injection P as <- <- <-.
    destruct (CK r col R1 C1) as (bar & i & dq & P & D). cbn [peek] in P, D. rewrite (cell_of_net _ _ _ _ _ O0), X1 in P, D. cbn [option_map obind] in P, D. injection P as <- <- <-.
    destruct (clear_cell_dq x y Y) as (D1 & D2 & D3); [destruct D as [D|(k & D & _)]; [auto|right; destruct (c_data x); [discriminate|discriminate D]]|].
    rewrite D1, D2, D3. split; [simpl; auto|]. split; [intros h k E; now injection E as <- <-|]. split; [auto|]. intros d v E. destruct d; discriminate.
Qed.
Lemma typed_net p c : typed c -> typed (set_x_net p c).
Proof.
  intros K l z H. apply K. clear K. destruct c. destruct l; unfold holds in *; try exact H; exfalso; cbn [peek] in H;
    repeat match type of H with context [option_map _ ?o] => destruct o; cbn [option_map obind] in H | context [obind ?o _] => destruct o; cbn [option_map obind] in H end;
    try discriminate H; unfold size in H; repeat match type of H with context [option_map _ ?o] => destruct o; cbn [option_map obind] in H end; discriminate H.
Qed.
Lemma loaded_laid_out L al f c c' : laid_out c -> releasable c -> json_to_program L al f c = Ok (J_OK, c') ->
  (forall js, f = F_doc (JArr js) -> columns_given js) -> laid_out c'.
Proof.
  intros K R H CG. destruct (loaded_networks L al f c c' R H) as (js & FE & F & SZ & NS). assert (LC := loaded_cells L al f c c' (lo_checkable c K) R H).
  specialize (CG js FE). apply same_machine in F. remember (x_net c') as p eqn:P. clear P FE.
  assert (Q : x_q c' = x_q c) by (rewrite F; destruct c; reflexivity).
  destruct K as [K1 K2 K3 K4 [K5 K6] K7 [K8 K9 K10 K11]]. split.
  - rewrite F. destruct c; exact K1.
  - rewrite F. destruct c; exact K2.
  - rewrite F. destruct c; exact K3.
  - rewrite F. now apply typed_net.
  - assert (E : peek c' LNets = peek c LNets) by (simpl; rewrite F; destruct c; simpl in *; exact SZ). rewrite E. auto.
  - intros n rows cols (N & P). rewrite Q in N. destruct (NS n N) as [(j & nt & IN & T & O1)|(nt0 & nt & O0 & M & O1)].
    + rewrite (net_peek _ _ _ O1) in P. destruct T as (rows' & cols' & rs & cells & _ & T & _ & _ & _ & _ & ->). injection P as <- <-.
      destruct cols'; [|lia]. exfalso. exact (CG j IN T).
    + rewrite (net_peek _ _ _ O1) in P. apply map_cells_spec in M as (EE & RR & CC & _). injection P as E1 E2 E3. rewrite RR in E2. rewrite CC in E3. rewrite EE in E1.
      apply (K7 n rows cols). split; auto. rewrite (net_peek _ _ _ O0). congruence.
  - split.
    + rewrite F. destruct c; exact K8.
    + rewrite F. destruct c; exact K9.
    + intros n N. destruct (LC n N) as (nt & O1 & CS). rewrite (net_peek _ _ _ O1). exists (n_en nt), (n_rows nt), (n_cols nt). split; auto. intros r col R1 C1.
      destruct (CS r col R1 C1) as (x & X & _ & _ & D & _). cbn [peek]. rewrite X. cbn [option_map obind]. exists (c_bar x), (c_code x), (c_dq x). split; auto.
      destruct D as [D|(vs & D & E)]; [auto|]. right. exists (c_dq x). rewrite D. simpl. rewrite E. auto.
    + rewrite F. destruct c; exact K11.
Qed.
Lemma loaded_complete L al f c c' : checkable c -> releasable c -> json_to_program L al f c = Ok (J_OK, c') -> tables_known c' -> complete c'.
Proof.
  intros K R H T n rows cols r col SC R1 C1. destruct SC as [N P]. destruct (loaded_cells L al f c c' K R H n N) as (nt & O1 & CS). assert (P' := P).
  rewrite (net_peek _ _ _ O1) in P'. injection P' as E1 E2 E3. destruct (CS r col) as (x & X & A & B & D & G); [congruence|congruence|].
  assert (CO : code_at c' n r col = c_code x) by (unfold code_at; cbn [peek]; rewrite X; reflexivity). rewrite CO. split; auto. split; [|split].
  - intros h k E. exists (c_bar x), (c_code x). cbn [peek]. rewrite X. simpl. rewrite (B h k E). auto.
  - intros d v O2. unfold operand_at in O2. cbn [peek] in O2. destruct O2 as [O2 _]. rewrite X in O2. simpl in O2. destruct (elem (c_data x) d) as [v'|] eqn:E; [|discriminate]. injection O2 as ->. eauto.
  - intros E z. rewrite <- CO in E. apply (T n rows cols r col); auto. split; auto.
Qed.
