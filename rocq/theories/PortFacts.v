(** The example port: where its functions are defined and what they change. *)
From Verif Require Export SpecPort CallFacts SafeApi.

(** ** Places that depend on the shape only *)

Definition of_shape (l : loc) : Prop :=
  match l with LRegLen _ | LTmLen | LInLen _ _ | LInMeta _ | LOutLen _ _ | LOutMeta _ | LNet _ | LCell _ _ _ | LNets => True | _ => False end.
Lemma size_len {A} (p q : option (list A)) : len p = len q -> size p = size q.
Proof. unfold len, size. destruct p, q; simpl; congruence. Qed.
Lemma elem_map {A B} (g : A -> B) (p q : option (list A)) i : option_map (map g) p = option_map (map g) q -> option_map g (elem p i) = option_map g (elem q i).
Proof. destruct p as [l|], q as [m|]; try discriminate; auto. cbn [option_map elem obind]. intros K. injection K as K. rewrite <- !nth_error_map. now rewrite K. Qed.
Lemma shape_peek c c' l : shape c = shape c' -> of_shape l -> peek c l = peek c' l.
Proof.
  intros H L.
  assert (MM : mem_shape (x_mem c) = mem_shape (x_mem c')) by (unfold shape in H; congruence).
  assert (PP : prev_shape (x_prev c) = prev_shape (x_prev c')) by (unfold shape in H; congruence).
  assert (RR : regs_shape (x_regs c) = regs_shape (x_regs c')) by (unfold shape in H; congruence).
  assert (TT : len (x_tm c) = len (x_tm c')) by (unfold shape in H; congruence).
  assert (II : option_map (map in_shape) (x_in c) = option_map (map in_shape) (x_in c')) by (unfold shape in H; congruence).
  assert (OO : option_map (map out_shape) (x_out c) = option_map (map out_shape) (x_out c')) by (unfold shape in H; congruence).
  assert (NN : option_map (map net_shape) (x_net c) = option_map (map net_shape) (x_net c')) by (unfold shape in H; congruence).
  unfold mem_shape in MM. unfold prev_shape in PP. unfold regs_shape in RR.
  destruct l; try destruct L; cbn [peek].
  - apply size_len. destruct b; cbn [bank_arr]; congruence.
  - now apply size_len.
  - apply (elem_map in_shape _ _ m) in II. destruct (elem (x_in c) m) as [a|], (elem (x_in c') m) as [b|]; try discriminate; auto. cbn [option_map obind] in *.
    apply size_len. unfold in_shape in II. destruct k; cbn [in_arr]; congruence.
  - apply (elem_map in_shape _ _ m) in II. destruct (elem (x_in c) m) as [a|], (elem (x_in c') m) as [b|]; try discriminate; auto. cbn [option_map obind] in *.
    unfold in_shape in II. congruence.
  - apply (elem_map out_shape _ _ m) in OO. destruct (elem (x_out c) m) as [a|], (elem (x_out c') m) as [b|]; try discriminate; auto. cbn [option_map obind] in *.
    apply size_len. unfold out_shape in OO. destruct k; cbn [out_arr]; congruence.
  - apply (elem_map out_shape _ _ m) in OO. destruct (elem (x_out c) m) as [a|], (elem (x_out c') m) as [b|]; try discriminate; auto. cbn [option_map obind] in *.
    unfold out_shape in OO. congruence.
  - now apply shape_cell.
  - apply (elem_map net_shape _ _ n) in NN. unfold net_of. destruct (elem (x_net c) n) as [a|], (elem (x_net c') n) as [b|]; try discriminate; auto. cbn [option_map] in *.
    unfold net_shape in NN. congruence.
  - apply size_len. now apply option_map_len in NN.
Qed.

(** ** Reading for the display *)

Lemma touch_ok {A} (p : option (list A)) k : size p = Some (VN k) -> forall j n, (n + j <= k)%nat -> touch p n j = Ok tt.
Proof.
  intros L. destruct p as [l|]; [|discriminate]. assert (length l = k) by (unfold size in L; simpl in L; congruence). subst k. induction j as [|j IH]; intros n H; cbn [touch]; auto.
  destruct (nth_error l n) as [a|] eqn:N; [|apply nth_error_None in N; lia].
  rewrite (pget_elem (Some l) (Z.of_nat n) a); [cbn [rbind]; apply IH; lia|lia|]. unfold elem, ix. cbn [obind]. now rewrite Nat2Z.id.
Qed.
Lemma touch_cols_ok nt r : forall j col, (forall k, (col <= k < col + j)%nat -> ncell nt r k <> None) -> touch_cols nt r col j = Ok tt.
Proof.
  induction j as [|j IH]; intros col H; cbn [touch_cols]; auto. destruct (ncell nt r col) as [x|] eqn:X; [|exfalso; apply (H col); auto; lia].
  rewrite (cell_in_of _ _ _ _ X). cbn [rbind]. apply IH. intros k K. apply H. lia.
Qed.
Lemma touch_rows_ok nt : forall j r, (forall k col, (r <= k < r + j)%nat -> (col < n_cols nt)%nat -> ncell nt k col <> None) -> touch_rows nt r j = Ok tt.
Proof.
  induction j as [|j IH]; intros r H; cbn [touch_rows]; auto. rewrite touch_cols_ok by (intros k K; apply H; lia). cbn [rbind]. apply IH. intros k col K. apply H. lia.
Qed.
Lemma touch_nets_ok c : (forall n, (n < q_nets (x_q c))%nat -> exists en rows cols, peek c (LNet n) = Some (VNet en rows cols) /\ forall r col, (r < rows)%nat -> (col < cols)%nat -> peek c (LCell n r col) <> None) ->
  forall j n, (n + j <= q_nets (x_q c))%nat -> touch_nets c n j = Ok tt.
Proof.
  intros H. induction j as [|j IH]; intros n N; cbn [touch_nets]; auto. destruct (H n) as (en & rows & cols & P & Q); [lia|]. cbn [peek] in P. destruct (net_of c n) as [nt|] eqn:NO; [|discriminate].
  cbn [option_map] in P. rewrite (net_at_of _ _ _ NO). cbn [rbind]. rewrite touch_rows_ok; [cbn [rbind]; apply IH; lia|]. intros k col K C X.
  apply (Q k col); [assert (n_rows nt = rows) by congruence; lia|assert (n_cols nt = cols) by congruence; lia|]. cbn [peek]. now rewrite (cell_of_net _ _ _ _ _ NO), X.
Qed.

Section Fit.
Variables (cron : bool) (c0 c : ctx).
Hypothesis W0 : well_formed_ctx c0.
Hypothesis F0 : port_fits cron c0.
Hypothesis SH : shape c = shape c0.

Lemma touch_bank b n j : (n + j <= bank_qty b (x_q c0))%nat -> touch (bank_arr b c) n j = Ok tt.
Proof.
  intros H. destruct (wc_sized _ W0) as [A _]. destruct (A b) as (k & K & L). rewrite <- (shape_peek _ _ _ SH) in K by exact I. cbn [peek] in K.
  eapply touch_ok; eauto. lia.
Qed.
Lemma touch_tm j : (j <= q_t (x_q c0))%nat -> touch (x_tm c) 0 j = Ok tt.
Proof.
  intros H. destruct (wc_sized _ W0) as [_ (k & K & L)]. rewrite <- (shape_peek _ _ _ SH) in K by exact I. cbn [peek] in K. eapply touch_ok; eauto. lia.
Qed.
Lemma in_eight m : (m < io_rq (x_io c))%nat -> exists im l, elem (x_in c) m = Some im /\ i_I im = Some l /\ (8 <= length l)%nat.
Proof.
  intros M. rewrite (shape_io _ _ SH) in M. destruct (pf_in _ _ F0 m M) as (id & qd & qa & P & Q). destruct (wc_modules _ W0) as [A _]. destruct (A m M) as (id' & qd' & qa' & P' & R).
  rewrite P in P'. injection P' as <- <- <-. specialize (R K_I). cbn [iports] in R. destruct R as [R|(n & R & L)]; [lia|]. rewrite <- (shape_peek _ _ _ SH) in R by exact I. cbn [peek in_arr] in R.
  destruct (elem (x_in c) m) as [im|]; [|discriminate]. cbn [obind] in R. unfold size in R. destruct (i_I im) as [l|] eqn:LI; [|discriminate]. exists im, l. split; auto. split; auto. cbn [option_map] in R.
  assert (length l = n) by congruence. lia.
Qed.
Lemma out_eight m : (m < io_wq (x_io c))%nat -> exists om l, elem (x_out c) m = Some om /\ o_Q om = Some l /\ (8 <= length l)%nat.
Proof.
  intros M. rewrite (shape_io _ _ SH) in M. destruct (pf_out _ _ F0 m M) as (id & qd & qa & P & Q). destruct (wc_modules _ W0) as [_ A]. destruct (A m M) as (id' & qd' & qa' & P' & R).
  rewrite P in P'. injection P' as <- <- <-. specialize (R K_Q). cbn [ports] in R. destruct R as [R|(n & R & L)]; [lia|]. rewrite <- (shape_peek _ _ _ SH) in R by exact I. cbn [peek out_arr] in R.
  destruct (elem (x_out c) m) as [im|]; [|discriminate]. cbn [obind] in R. unfold size in R. destruct (o_Q im) as [l|] eqn:LI; [|discriminate]. exists im, l. split; auto. split; auto. cbn [option_map] in R.
  assert (length l = n) by congruence. lia.
Qed.
Lemma write_ok m : (m < io_wq (x_io c))%nat -> dummy_write cron m c = Ok c.
Proof.
  intros M. destruct (out_eight m M) as (om & l & OM & OL & LL). unfold dummy_write. pose proof (pf_bits _ _ F0) as PB. pose proof (pf_timers _ _ F0) as PT. pose proof (pf_counters _ _ F0) as PC.
  pose proof (touch_bank B_M 0 8) as T1. cbn [bank_arr bank_qty] in T1. rewrite T1 by (destruct cron; lia). cbn [rbind].
  assert (T2 : (if cron then touch (m_M (x_mem c)) 10 8 else Ok tt) = Ok tt) by (destruct cron; auto; apply (touch_bank B_M); cbn [bank_qty]; lia). rewrite T2. cbn [rbind].
  rewrite (pget_elem (x_out c) (Z.of_nat m) om) by (unfold ix; rewrite ?Nat2Z.id; auto; lia). cbn [rbind].
  assert (T3 : touch (o_Q om) 0 8 = Ok tt) by (rewrite OL; eapply touch_ok; [reflexivity|lia]). rewrite T3. cbn [rbind].
  pose proof (touch_bank B_Td 0 7 PT) as T4. pose proof (touch_bank B_Tr 0 7 PT) as T5. pose proof (touch_tm 7 PT) as T6. pose proof (touch_bank B_Cd 0 7 PC) as T7.
  pose proof (touch_bank B_Cr 0 7 PC) as T8. pose proof (touch_bank B_C 0 7 PC) as T9. cbn [bank_arr] in *. rewrite T4, T5, T6, T7, T8, T9. cbn [rbind].
  rewrite touch_nets_ok; [|rewrite (shape_q _ _ SH)|lia].
  - cbn [rbind]. rewrite (shape_h _ _ SH), (pf_delay _ _ F0). reflexivity.
  - intros n N. destruct (wc_cells _ W0 n N) as (en & rows & cols & P & _ & Q). exists en, rows, cols. rewrite (shape_peek _ _ _ SH) by exact I. split; auto. intros r col R C.
    rewrite (shape_peek _ _ _ SH) by exact I. destruct (Q r col R C) as (bar & i & dq & X & _). rewrite X. discriminate.
Qed.
End Fit.

(** ** Keys *)

Lemma key_pressed typed k : pressed typed k -> dummy_key typed = k.
Proof. intros (b & ->). apply last_last. Qed.
Lemma quit_key ch : (ch =? 81) || (ch =? 113) = true <-> quits ch.
Proof. unfold quits. rewrite orb_true_iff, !Z.eqb_eq. tauto. Qed.
Lemma digit_key ch : (47 <? ch) && (ch <? 56) = true -> toggles ch (Z.to_nat (ch - 48)).
Proof. unfold toggles. rewrite andb_true_iff, !Z.ltb_lt. intros H. split; lia. Qed.
Lemma toggles_fun ch i j : toggles ch i -> toggles ch j -> i = j.
Proof. unfold toggles. lia. Qed.
Definition key_places (ch : Z) (m : nat) (l : loc) : Prop := (l = LState /\ quits ch) \/ exists i, toggles ch i /\ l = LIn m K_I i.
Lemma read_inv typed m c c' : dummy_read typed m c = Ok c' -> let ch := dummy_key typed in
  changes_only c c' (key_places ch m) /\ (quits ch -> peek c' LState = Some (VState S_EXIT_TSK))
  /\ forall i, toggles ch i -> exists v, holds c (LIn m K_I i) v /\ holds c' (LIn m K_I i) (if 0 <? v then 0 else 1).
Proof.
  unfold dummy_read. set (ch := dummy_key typed). cbv zeta. set (c1 := if (ch =? 81) || (ch =? 113) then set_x_state S_EXIT_TSK c else c). intros K.
  assert (C1 : changes_only c c1 (fun l => l = LState /\ quits ch) /\ (quits ch -> peek c1 LState = Some (VState S_EXIT_TSK)) /\ x_in c1 = x_in c).
  { subst c1. destruct ((ch =? 81) || (ch =? 113)) eqn:Q.
    - apply quit_key in Q. split; [|split]; auto. intros l L. destruct l; try reflexivity. exfalso. apply L. auto.
    - split; [|split]; auto; [intros l L; reflexivity|]. intros H. apply quit_key in H. congruence. }
  clearbody c1. destruct C1 as (A1 & A2 & A3).
  assert (C2 : exists c2, (if (47 <? ch) && (ch <? 56) then let? im := pget (x_in c1) (Z.of_nat m) in let? v := pget (i_I im) (ch - 48) in in_put K_I (Z.of_nat m) (ch - 48) (if 0 <? v then 0 else 1) c1 else Ok c1) = Ok c2 /\ c2 = c').
  { destruct (if (47 <? ch) && (ch <? 56) then _ else _) as [c2| |]; cbn [rbind] in K; try discriminate. exists c2. split; auto. bind1 K im P. bind1 K u U. congruence. }
  clear K. destruct C2 as (c2 & K & ->). destruct ((47 <? ch) && (ch <? 56)) eqn:D.
  - pose proof (digit_key _ D) as T. set (i := Z.to_nat (ch - 48)) in *. bind1 K im P. bind1 K v PV. apply pget_at in P. rewrite Nat2Z.id in P. apply pget_at in PV. fold i in PV.
    rewrite (in_put_ok K_I (Z.of_nat m) (ch - 48) _ c1 im v) in K; [|lia|unfold toggles in T; lia|unfold ix; now rewrite Nat2Z.id|exact PV].
    injection K as <-. unfold ix. rewrite Nat2Z.id. fold i. split; [|split].
    + intros l L. rewrite put_in_frame; [apply A1|]; intros X; apply L; [left; auto|right; eauto].
    + intros Q. rewrite put_in_frame by discriminate. auto.
    + intros j J. rewrite (toggles_fun _ _ _ J T). exists v. split; [|eapply put_in_here; eauto]. unfold holds. cbn [peek]. rewrite <- A3, P. cbn [obind in_arr]. now rewrite PV.
  - injection K as <-. split; [|split]; auto; [intros l L; apply A1; intros X; apply L; left; auto|].
    intros i [T1 T2]. exfalso. rewrite andb_false_iff, !Z.ltb_ge in D. lia.
Qed.
Lemma read_ok cron c0 c typed m : well_formed_ctx c0 -> port_fits cron c0 -> shape c = shape c0 -> (m < io_rq (x_io c))%nat -> exists c', dummy_read typed m c = Ok c' /\ shape c' = shape c0.
Proof.
  intros W0 F0 SH M. unfold dummy_read. set (ch := dummy_key typed). cbv zeta. set (c1 := if (ch =? 81) || (ch =? 113) then set_x_state S_EXIT_TSK c else c).
  assert (S1 : shape c1 = shape c0) by (subst c1; destruct ((ch =? 81) || (ch =? 113)); exact SH). assert (M1 : (m < io_rq (x_io c1))%nat) by (rewrite (shape_io _ _ S1), <- (shape_io _ _ SH); auto). clearbody c1.
  destruct (in_eight cron c0 c1 W0 F0 S1 m M1) as (im & l & IM & IL & LL).
  assert (C2 : exists c2, (if (47 <? ch) && (ch <? 56) then let? im := pget (x_in c1) (Z.of_nat m) in let? v := pget (i_I im) (ch - 48) in in_put K_I (Z.of_nat m) (ch - 48) (if 0 <? v then 0 else 1) c1 else Ok c1) = Ok c2 /\ shape c2 = shape c0).
  { destruct ((47 <? ch) && (ch <? 56)) eqn:D; [|eauto]. apply digit_key in D. destruct D as [D1 D2]. rewrite (pget_elem (x_in c1) (Z.of_nat m) im) by (unfold ix; rewrite ?Nat2Z.id; auto; lia). cbn [rbind].
    destruct (nth_error l (Z.to_nat (ch - 48))) as [v|] eqn:V; [|apply nth_error_None in V; lia].
    rewrite (pget_elem (i_I im) (ch - 48) v); [|lia|rewrite IL; exact V]. cbn [rbind].
    match goal with |- context [in_put K_I ?a ?b ?z c1] => destruct (in_put K_I a b z c1) as [c2| |] eqn:P; [exists c2; split; auto; rewrite <- S1; eapply k_in; eauto|exfalso|exfalso];
      rewrite (in_put_ok K_I a b z c1 im v) in P; try discriminate; [lia|lia|unfold ix; now rewrite Nat2Z.id|cbn [in_arr]; rewrite IL; exact V|lia|lia|unfold ix; now rewrite Nat2Z.id|cbn [in_arr]; rewrite IL; exact V] end. }
  destruct C2 as (c2 & -> & S2). cbn [rbind]. assert (M2 : (m < io_rq (x_io c2))%nat) by (rewrite (shape_io _ _ S2), <- (shape_io _ _ SH); auto).
  destruct (in_eight cron c0 c2 W0 F0 S2 m M2) as (im2 & l2 & IM2 & IL2 & LL2). rewrite (pget_elem (x_in c2) (Z.of_nat m) im2) by (unfold ix; rewrite ?Nat2Z.id; auto; lia). cbn [rbind].
  rewrite IL2. rewrite (touch_ok (Some l2) (length l2)); [|reflexivity|lia]. cbn [rbind]. eauto.
Qed.

(** ** The foreign function *)

Lemma exec_ok n col row c : x_exec c = Some n -> peek c (LCell n row col) <> None ->
  exists b, left_powered c n row col b /\ dummy_exec col row c = Ok (E_OK, put_pow n row col b c).
Proof.
  intros X C.
  assert (L : forall p, col = S p -> peek c (LCell n row p) <> None).
  { intros p -> L. cbn [peek] in *. unfold cell_of in *. destruct (row_of c n row) as [rw|]; [|simpl in C; congruence]. cbn [obind] in *.
    destruct (nth_error rw p) eqn:NP; [discriminate|]. apply nth_error_None in NP. assert (nth_error rw (S p) = None) as NS by (apply nth_error_None; lia). rewrite NS in C. simpl in C. congruence. }
  cbn [peek] in C. destruct (cell_of c n row col) as [x|] eqn:CX; [|simpl in C; congruence]. clear C.
  assert (exists b, left_powered c n row col b /\ cleft col row c = Ok b) as (b & B1 & B2).
  { destruct col as [|p]; [exists true; split; reflexivity|]. specialize (L p eq_refl). cbn [peek] in L. destruct (cell_of c n row p) as [y|] eqn:Y; [|simpl in L; congruence].
    exists (c_state y). split; [unfold left_powered, powered; cbn [peek]; now rewrite Y|]. unfold cleft, cstate, ex_cell. rewrite X. destruct (cell_of_inv _ _ _ _ _ Y) as (nt & N & YN).
    rewrite (net_at_of _ _ _ N). cbn [rbind]. now rewrite (cell_in_of _ _ _ _ YN). }
  exists b. split; auto. unfold dummy_exec. rewrite B2. cbn [rbind]. unfold put_state. rewrite X, (upd_cell_ok _ _ _ _ _ _ CX). cbn [rbind]. unfold put_pow. now rewrite CX.
Qed.
Lemma exec_inv col row c r : dummy_exec col row c = Ok r -> fst r = E_OK /\ changes_only c (snd r) (fun l => exists n, l = LPow n row col) /\ shape (snd r) = shape c.
Proof.
  unfold dummy_exec. intros K. bind1 K b P. bind1 K c1 P1. injection K as <-. cbn [fst snd]. split; auto. split; [|eapply k_put; eauto].
  unfold put_state in P1. destruct (x_exec c) as [n|]; [|discriminate]. destruct (cell_of c n row col) as [x|] eqn:X.
  - rewrite (upd_cell_ok _ _ _ _ _ _ X) in P1. injection P1 as <-. intros l L. pose proof (put_pow_frame n row col b c l) as F. unfold put_pow in F. rewrite X in F. apply F. intros ->. apply L. eauto.
  - exfalso. unfold upd_cell in P1. bind1 P1 nt PN. bind1 P1 y PY. rewrite (cell_of_net _ _ _ _ _ (net_at_inv _ _ _ PN)), (cell_in_inv _ _ _ _ PY) in X. discriminate.
Qed.

(** ** Initialisation *)

Lemma init_read_inv al m b c r : dummy_init_read al m b c = Ok r -> exists im,
  elem (x_in c) m = Some im /\ fst r = (if b then al 0%nat && al 1%nat && al 2%nat else true)
  /\ snd r = set_x_in (option_map (fun l => lset l m (if b && (al 0%nat && al 1%nat && al 2%nat) then mk_inmod (i_id im) 8 8 zeros8 zeros8 zeros8 (i_IWh im) else mk_inmod (i_id im) 0 0 None None None (i_IWh im))) (x_in c)) c.
Proof.
  unfold dummy_init_read. intros K. bind1 K im P. bind1 K l P1. injection K as <-. apply pget_at in P. rewrite Nat2Z.id in P. exists im. split; auto. split; auto. cbn [snd].
  erewrite pset_elem in P1; [|lia|unfold ix; rewrite Nat2Z.id; eauto]. unfold ix in P1. rewrite Nat2Z.id in P1. injection P1 as <-. reflexivity.
Qed.
Lemma init_write_inv al m b c r : dummy_init_write al m b c = Ok r -> exists om,
  elem (x_out c) m = Some om /\ fst r = (if b then al 0%nat && al 1%nat && al 2%nat else true)
  /\ snd r = set_x_out (option_map (fun l => lset l m (if b && (al 0%nat && al 1%nat && al 2%nat) then mk_outmod (o_id om) 8 8 zeros8 zeros8 zeros8 (o_QWh om) else mk_outmod (o_id om) 0 0 None None None (o_QWh om))) (x_out c)) c.
Proof.
  unfold dummy_init_write. intros K. bind1 K im P. bind1 K l P1. injection K as <-. apply pget_at in P. rewrite Nat2Z.id in P. exists im. split; auto. split; auto. cbn [snd].
  erewrite pset_elem in P1; [|lia|unfold ix; rewrite Nat2Z.id; eauto]. unfold ix in P1. rewrite Nat2Z.id in P1. injection P1 as <-. reflexivity.
Qed.
Lemma init_read_ok al m b c im : elem (x_in c) m = Some im -> exists r, dummy_init_read al m b c = Ok r.
Proof. intros H. unfold dummy_init_read. rewrite (pget_elem (x_in c) (Z.of_nat m) im) by (unfold ix; rewrite ?Nat2Z.id; auto; lia). cbn [rbind]. erewrite pset_elem; [|lia|unfold ix; rewrite Nat2Z.id; eauto]. cbn [rbind]. eauto. Qed.
Lemma init_write_ok al m b c im : elem (x_out c) m = Some im -> exists r, dummy_init_write al m b c = Ok r.
Proof. intros H. unfold dummy_init_write. rewrite (pget_elem (x_out c) (Z.of_nat m) im) by (unfold ix; rewrite ?Nat2Z.id; auto; lia). cbn [rbind]. erewrite pset_elem; [|lia|unfold ix; rewrite Nat2Z.id; eauto]. cbn [rbind]. eauto. Qed.
Lemma elem_put {A} (p : option (list A)) m x k : elem (option_map (fun l => lset l m x) p) k = if Nat.eq_dec k m then option_map (fun _ => x) (elem p m) else elem p k.
Proof.
  destruct p as [l|]; simpl; [|now destruct (Nat.eq_dec k m)]. destruct (Nat.eq_dec k m) as [->|D]; [|apply nth_lset_other; auto].
  destruct (nth_error l m) as [y|] eqn:Y; simpl; [apply nth_lset_same; apply nth_error_Some; congruence|]. apply nth_error_None in Y. apply nth_error_None. rewrite lset_length. auto.
Qed.
Lemma put_in_changes m x c : changes_only c (set_x_in (option_map (fun l => lset l m x) (x_in c)) c) (in_place m).
Proof.
  intros l L. destruct l; try reflexivity; cbn [peek]; change (x_in (set_x_in ?p c)) with p; rewrite ?elem_put, ?size_lset; auto; destruct (Nat.eq_dec _ m) as [->|]; auto; exfalso; apply L; unfold in_place; eauto.
Qed.
Lemma put_out_changes m x c : changes_only c (set_x_out (option_map (fun l => lset l m x) (x_out c)) c) (out_place m).
Proof.
  intros l L. destruct l; try reflexivity; cbn [peek]; change (x_out (set_x_out ?p c)) with p; rewrite ?elem_put, ?size_lset; auto; destruct (Nat.eq_dec _ m) as [->|]; auto; exfalso; apply L; unfold out_place; eauto.
Qed.
Lemma zero_elem i v : elem zeros8 i = Some v -> v = 0.
Proof. unfold zeros8, elem. cbn [obind]. intros H. apply nth_error_In in H. now apply repeat_spec in H. Qed.
Lemma put_in_typed m im c b : typed c -> elem (x_in c) m = Some im ->
  typed (set_x_in (option_map (fun l => lset l m (if b : bool then mk_inmod (i_id im) 8 8 zeros8 zeros8 zeros8 (i_IWh im) else mk_inmod (i_id im) 0 0 None None None (i_IWh im))) (x_in c)) c).
Proof.
  intros T IM l z H. destruct l; try (apply T; exact H); try exact I. unfold holds in H. cbn [peek] in H. change (x_in (set_x_in ?p c)) with p in H. rewrite elem_put in H.
  destruct (Nat.eq_dec m0 m) as [->|]; [|apply T; exact H]. rewrite IM in H. cbn [option_map obind] in H.
  destruct k; [| | |apply (T (LIn m K_IWh i)); unfold holds; cbn [peek]; rewrite IM; destruct b; exact H];
    (destruct b; cbn [in_arr i_I i_IW i_Ih] in H; [|discriminate]); (destruct (elem zeros8 i) as [v|] eqn:V1; [|discriminate]); apply zero_elem in V1; subst v; cbn [option_map] in H; injection H as <-; unfold typed_at, fits; lia.
Qed.
Lemma put_out_typed m im c b : typed c -> elem (x_out c) m = Some im ->
  typed (set_x_out (option_map (fun l => lset l m (if b : bool then mk_outmod (o_id im) 8 8 zeros8 zeros8 zeros8 (o_QWh im) else mk_outmod (o_id im) 0 0 None None None (o_QWh im))) (x_out c)) c).
Proof.
  intros T IM l z H. destruct l; try (apply T; exact H); try exact I. unfold holds in H. cbn [peek] in H. change (x_out (set_x_out ?p c)) with p in H. rewrite elem_put in H.
  destruct (Nat.eq_dec m0 m) as [->|]; [|apply T; exact H]. rewrite IM in H. cbn [option_map obind] in H.
  destruct k; [| | |apply (T (LOut m K_QWh i)); unfold holds; cbn [peek]; rewrite IM; destruct b; exact H];
    (destruct b; cbn [out_arr o_Q o_QW o_Qh] in H; [|discriminate]); (destruct (elem zeros8 i) as [v|] eqn:V1; [|discriminate]); apply zero_elem in V1; subst v; cbn [option_map] in H; injection H as <-; unfold typed_at, fits; lia.
Qed.

(** ** The port as an environment *)

Section Env.
Variables (cron : bool) (keys : nat -> list Z) (al : nat -> nat -> bool) (tv : nat -> Z * Z) (now : nat -> tm).
Let P := port_env cron keys al tv now.

Lemma port_sound : sound_init P.
Proof.
  constructor.
  - split; intros k m b c; cbn [act P port_env port_call].
    + destruct (dummy_init_read (al k) m b c) as [r| |] eqn:R; cbn [rbind]; [|apply changes_refl|apply changes_refl]. destruct (init_read_inv _ _ _ _ _ R) as (im & _ & _ & ->). apply put_in_changes.
    + destruct (dummy_init_write (al k) m b c) as [r| |] eqn:R; cbn [rbind]; [|apply changes_refl|apply changes_refl]. destruct (init_write_inv _ _ _ _ _ R) as (im & _ & _ & ->). apply put_out_changes.
  - intros k m b c T. split; cbn [act P port_env port_call].
    + destruct (dummy_init_read (al k) m b c) as [r| |] eqn:R; cbn [rbind]; auto. destruct (init_read_inv _ _ _ _ _ R) as (im & IM & _ & ->). now apply put_in_typed.
    + destruct (dummy_init_write (al k) m b c) as [r| |] eqn:R; cbn [rbind]; auto. destruct (init_write_inv _ _ _ _ _ R) as (im & IM & _ & ->). now apply put_out_typed.
  - intros k m c OK [B1 B2] c'. cbn [ext_ok P port_env] in OK. subst c'. cbn [act P port_env port_call]. cbn [peek] in B1. destruct (elem (x_in c) m) as [im|] eqn:IM; [|discriminate].
    destruct (init_read_ok (al k) m true c im IM) as (r & R). rewrite R. cbn [rbind]. destruct (init_read_inv _ _ _ _ _ R) as (im' & IM' & _ & ->). assert (im' = im) by congruence. subst im'. rewrite OK. cbn [andb].
    assert (EL : elem (option_map (fun l => lset l m (mk_inmod (i_id im) 8 8 zeros8 zeros8 zeros8 (i_IWh im))) (x_in c)) m = Some (mk_inmod (i_id im) 8 8 zeros8 zeros8 zeros8 (i_IWh im)))
      by (rewrite elem_put; destruct (Nat.eq_dec m m); [now rewrite IM|congruence]).
    exists (i_id im), 8%nat, 8%nat. split; [cbn [peek]; change (x_in (set_x_in ?p c)) with p; now rewrite EL|].
    intros q. cbn [peek]. change (x_in (set_x_in ?p c)) with p. rewrite EL. cbn [obind]. destruct q; try (right; exists 8%nat; split; [reflexivity|cbn; lia]).
    left. cbn [in_arr i_IWh]. specialize (B2 K_IWh). cbn [peek] in B2. rewrite IM in B2. exact B2.
  - intros k m c OK [B1 B2] c'. cbn [ext_ok P port_env] in OK. subst c'. cbn [act P port_env port_call]. cbn [peek] in B1. destruct (elem (x_out c) m) as [im|] eqn:IM; [|discriminate].
    destruct (init_write_ok (al k) m true c im IM) as (r & R). rewrite R. cbn [rbind]. destruct (init_write_inv _ _ _ _ _ R) as (im' & IM' & _ & ->). assert (im' = im) by congruence. subst im'. rewrite OK. cbn [andb].
    assert (EL : elem (option_map (fun l => lset l m (mk_outmod (o_id im) 8 8 zeros8 zeros8 zeros8 (o_QWh im))) (x_out c)) m = Some (mk_outmod (o_id im) 8 8 zeros8 zeros8 zeros8 (o_QWh im)))
      by (rewrite elem_put; destruct (Nat.eq_dec m m); [now rewrite IM|congruence]).
    exists (o_id im), 8%nat, 8%nat. split; [cbn [peek]; change (x_out (set_x_out ?p c)) with p; now rewrite EL|].
    intros q. cbn [peek]. change (x_out (set_x_out ?p c)) with p. rewrite EL. cbn [obind]. destruct q; try (right; exists 8%nat; split; [reflexivity|cbn; lia]).
    left. cbn [out_arr o_QWh]. specialize (B2 K_QWh). cbn [peek] in B2. rewrite IM in B2. exact B2.
Qed.
Lemma port_foreign : polite_foreign P.
Proof. intros k ev c H. destruct ev; try contradiction; reflexivity. Qed.
(** The port without its initialisation functions. *)
Definition running : env :=
  mk_env (clk P) (fun k ev c => match ev with EvInitRead _ _ | EvInitWrite _ _ => c | _ => act P k ev c end) (fexec P) (wall P) (ext_ok P) (finit P).
Definition port_places (ev : event) (l : loc) : Prop :=
  match ev with
  | EvRead m => exists ch, key_places ch m l
  | EvForeign _ col row => exists n, l = LPow n row col
  | _ => False
  end.
Lemma key_typed m c c' typ : dummy_read typ m c = Ok c' -> typed c -> typed c'.
Proof.
  intros R T. destruct (read_inv _ _ _ _ R) as (CH & _ & TG). eapply typed_change; [exact T|exact CH|]. intros l z [[-> _]|(i & TI & ->)] H; [exact I|].
  destruct (TG i TI) as (v & _ & H'). unfold holds in *. rewrite H in H'. injection H' as ->. cbn [typed_at]. destruct (0 <? v); lia.
Qed.
Lemma running_act k ev c : changes_only c (act running k ev c) (port_places ev) /\ (typed c -> typed (act running k ev c)).
Proof.
  cbn [act running P port_env]. destruct ev; try (split; [apply changes_refl|auto]); cbn [port_call].
  - destruct (dummy_on_panic c); cbn [rbind]; (split; [apply changes_refl|auto]).
  - destruct (dummy_read (keys k) n c) as [c'| |] eqn:R; [|split; [apply changes_refl|auto]|split; [apply changes_refl|auto]]. split; [|exact (key_typed _ _ _ _ R)].
    destruct (read_inv _ _ _ _ R) as (CH & _). intros l L. apply CH. intros X. apply L. exists (dummy_key (keys k)). exact X.
  - assert (X : forall c', dummy_write cron n c = Ok c' -> c' = c).
    { unfold dummy_write. intros c' K. repeat match type of K with rbind ?m _ = Ok _ => destruct m; cbn [rbind] in K; try discriminate K end. destruct (h_delay (x_h c)); congruence. }
    destruct (dummy_write cron n c) as [c'| |]; [rewrite (X c' eq_refl)| |]; (split; [apply changes_refl|auto]).
Qed.
Lemma running_exec k id col row c : changes_only c (snd (fexec running k id col row c)) (port_places (EvForeign id col row)) /\ (typed c -> typed (snd (fexec running k id col row c))).
Proof.
  cbn [fexec running P port_env]. destruct (dummy_exec col row c) as [r| |] eqn:R; cbn [snd]; [|split; [apply changes_refl|auto]|split; [apply changes_refl|auto]].
  destruct (exec_inv _ _ _ _ R) as (_ & CH & _). split; [exact CH|]. intros T. eapply typed_change; [exact T|exact CH|]. intros l z (n & ->) _. exact I.
Qed.
Lemma running_behaved : (forall k, calendar (now k)) -> behaved running port_places.
Proof.
  intros C. constructor.
  - constructor; [intros; apply running_act|intros; apply running_exec|]. intros ev l H. destruct ev; try contradiction.
    + destruct H as (ch & [[-> _]|(i & _ & ->)]); exact (fun x => x).
    + destruct H as (n & ->). exact (fun x => x).
  - intros. now apply running_act.
  - intros. now apply running_exec.
  - exact C.
Qed.

Variables (c0 : ctx).
Hypothesis W0 : well_formed_ctx c0.
Hypothesis F0 : port_fits cron c0.
Hypothesis PN : h_panic (x_h c0) = false.
(** Every call that belongs to the machine is defined. *)
Lemma due_defined k ev c : shape c = shape c0 -> due c ev -> exists c', port_call cron keys al k ev c = Ok c' /\ shape c' = shape c0 /\ peek c' LExec = peek c LExec.
Proof.
  intros SH D. destruct ev; cbn [port_call]; try (exists c; repeat (split; [auto; fail|]); auto; fail); try contradiction.
  - cbn [due] in D. rewrite (shape_h _ _ SH) in D. congruence.
  - destruct D as [D _]. destruct (read_ok cron c0 c (keys k) n W0 F0 SH D) as (c' & R & S'). exists c'. split; auto. split; auto. destruct (read_inv _ _ _ _ R) as (CH & _). apply CH.
    intros [[X _]|(i & _ & X)]; discriminate.
  - destruct D as [D _]. exists c. split; [exact (write_ok cron c0 c W0 F0 SH n D)|auto].
Qed.
Lemma due_exec id col row c : shape c = shape c0 -> due c (EvForeign id col row) -> exists r, dummy_exec col row c = Ok r /\ shape (snd r) = shape c0.
Proof.
  intros SH (_ & n & X & C). cbn [peek] in X. assert (XE : x_exec c = Some n) by congruence. destruct (exec_ok n col row c XE C) as (b & _ & R). exists (E_OK, put_pow n row col b c).
  split; auto. destruct (exec_inv _ _ _ _ R) as (_ & _ & S'). congruence.
Qed.
Lemma running_keeps : keeps_shape c0 running.
Proof.
  constructor.
  - intros k ev c SH D. destruct (due_defined k ev c SH D) as (c' & R & S' & _). cbn [act running P port_env]. destruct ev; try contradiction; rewrite R; auto.
  - intros k ev c SH D. destruct (due_defined k ev c SH D) as (c' & R & _ & S'). cbn [act running P port_env]. destruct ev; try contradiction; rewrite R; auto.
  - intros k id col row c SH D. destruct (due_exec id col row c SH D) as (r & R & S'). cbn [fexec running P port_env]. now rewrite R.
Qed.
Lemma running_alike E : follows cron keys al tv now E -> (forall k, real_time (tv k)) -> alike c0 running E.
Proof.
  intros F RT. constructor.
  - intros k. cbn [clk running P port_env]. unfold port_clock. destruct (dummy_millis (fst (tv k)) (snd (tv k))) as [t| |] eqn:M.
    + symmetry. eapply fo_clock; eauto.
    + exfalso. unfold dummy_millis in M. destruct (RT k) as [R1 R2]. destruct (Z.leb_spec (- 2 ^ 63) (fst (tv k) * 1000000 + snd (tv k))); [|lia]. destruct (Z.ltb_spec (fst (tv k) * 1000000 + snd (tv k)) (2 ^ 63)); [discriminate|lia].
    + exfalso. unfold dummy_millis in M. destruct (_ && _); discriminate.
  - intros k. cbn [wall running P port_env]. symmetry. eapply fo_now; eauto.
  - intros k ev c SH D. destruct (due_defined k ev c SH D) as (c' & R & _). cbn [act running P port_env]. rewrite (fo_act _ _ _ _ _ _ F _ _ _ _ R). destruct ev; try contradiction; now rewrite R.
  - intros k id col row c SH D. destruct (due_exec id col row c SH D) as (r & R & S'). cbn [fexec running P port_env]. rewrite R. symmetry. eapply fo_exec; eauto.
Qed.
End Env.
