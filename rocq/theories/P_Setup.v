(** fault recovery, registration of modules and foreign functions (C37, C38, C47). *)
From Verif Require Export P_Init.

(** ** C37 *)

(** C37: in any state other than ERROR the request is refused and nothing at all changes. *)
Lemma C37_only_in_error_l : forall E s, peek (s_ctx s) LState <> Some (VState S_ERROR) -> fault_clear E s = Ok (false, s).
Proof.
  intros E [c tr] H. unfold fault_clear, getc, bind. simpl in *. destruct (x_state c); simpl; try reflexivity. congruence.
Qed.

Lemma sized_keep c c' : sized c -> (forall l, is_layout l -> peek c' l = peek c l) -> sized c'.
Proof.
  intros [H1 H2] L. assert (Q : x_q c' = x_q c) by (pose proof (L LQty I) as K; simpl in K; congruence). split.
  - intros b. destruct (H1 b) as (k & A & B). exists k. rewrite (L (LRegLen b) I), Q. auto.
  - destruct H2 as (k & A & B). exists k. rewrite (L LTmLen I), Q. auto.
Qed.
Lemma outs_keep c c' : outs_sized c -> (forall l, is_layout l -> peek c' l = peek c l) -> outs_sized c'.
Proof.
  intros H L. assert (Q : x_io c' = x_io c) by (pose proof (L LIo I) as K; simpl in K; congruence). destruct H as [H|H].
  - left. rewrite (L LOutCount I). auto.
  - right. intros m M. rewrite Q in M. destruct (H m M) as (id & qd & qa & H1 & H2). exists id, qd, qa. rewrite (L (LOutMeta m) I). split; auto.
    intros k. rewrite (L (LOutLen m k) I). auto.
Qed.
Definition zeroed (b : bank) (c c' : ctx) : Prop :=
  (forall i, (i < bank_qty b (x_q c))%nat -> peek c' (LReg b i) = Some (VZ 0))
  /\ changes_only c c' (fun l => exists i, (i < bank_qty b (x_q c))%nat /\ l = LReg b i).
Lemma zeroed_layout b c c' : zeroed b c c' -> forall l, is_layout l -> peek c' l = peek c l.
Proof. intros [_ H] l L. apply H. intros (i & _ & ->). auto. Qed.
Lemma set_arr_peek b a c l : (forall i, l <> LReg b i) -> l <> LRegLen b -> peek (set_arr b a c) l = peek c l.
Proof.
  intros H1 H2. destruct l; try (destruct b; reflexivity).
  - simpl. rewrite bank_set_arr. destruct (bank_eq_dec b b0); auto. subst b0. now contradiction (H1 i).
  - simpl. rewrite bank_set_arr. destruct (bank_eq_dec b b0); auto. subst b0. congruence.
Qed.
Lemma sized_arr c b : sized c -> arr_ok (bank_arr b c) (bank_qty b (x_q c)).
Proof. intros [H _]. destruct (H b) as (k & A & B). simpl in A. destruct (bank_arr b c) as [l|]; [|discriminate]. exists l. split; auto. injection A as <-. auto. Qed.
Lemma set_zeroed b c p' : size p' = size (bank_arr b c) ->
  (forall i, elem p' i = if (i <? bank_qty b (x_q c))%nat then Some 0 else elem (bank_arr b c) i) -> zeroed b c (set_arr b p' c).
Proof.
  intros SZ EL. split.
  - intros i L. simpl. rewrite bank_set_arr. destruct (bank_eq_dec b b); [|congruence]. rewrite EL. apply Nat.ltb_lt in L. now rewrite L.
  - intros l HL. destruct l; try (destruct b; reflexivity).
    + simpl. rewrite bank_set_arr. destruct (bank_eq_dec b b0); auto. subst b0. rewrite EL. destruct (i <? _)%nat eqn:L; auto.
      exfalso. apply HL. exists i. split; auto. now apply Nat.ltb_lt.
    + simpl. rewrite bank_set_arr. destruct (bank_eq_dec b b0); auto. subst b0. auto.
Qed.
Lemma zero_bank_ok E b n c tr : sized c -> n c = bank_qty b (x_q c) ->
  exists c', zero_bank E b n (mk_st c tr) = Ok (true, mk_st c' tr) /\ zeroed b c c'.
Proof.
  intros SZ NB. pose proof (sized_arr c b SZ) as AO. unfold zero_bank, bind, getc, ret, updc. simpl.
  destruct (n c =? 0)%nat eqn:Z0.
  - exists c. split; auto. apply Nat.eqb_eq in Z0. split; [intros i; lia|intros l _; auto].
  - rewrite arr_of_bank. assert (NN : is_null (bank_arr b c) = false) by (destruct AO as (l & -> & _); auto). rewrite NN.
    simpl. rewrite arr_of_bank, NB. destruct (memset_ok _ _ AO) as (p' & -> & P1 & P2). simpl. exists (set_arr b p' c). split; auto. now apply set_zeroed.
Qed.
Definition timers_off (c c' : ctx) : Prop :=
  (forall i, (i < q_t (x_q c))%nat -> peek c' (LAcc i) = Some (VZ 0) /\ peek c' (LReg B_Td i) = Some (VZ 0) /\ peek c' (LReg B_Tr i) = Some (VZ 0))
  /\ changes_only c c' (fun l => exists i, (i < q_t (x_q c))%nat /\ (l = LAcc i \/ l = LReg B_Td i \/ l = LReg B_Tr i)).
Lemma timers_ok c : sized c -> exists tm td tr,
  pmap_first (q_t (x_q c)) (fun t => Ok (set_t_acc 0 t)) (x_tm c) = Ok tm /\ zero_flags (m_Td (x_mem c)) (q_t (x_q c)) = Ok td
  /\ zero_flags (m_Tr (x_mem c)) (q_t (x_q c)) = Ok tr /\ timers_off c (set_x_tm tm (set_x_mem (set_m_Td td (set_m_Tr tr (x_mem c))) c)).
Proof.
  intros SZ. destruct (memset_ok _ _ (sized_arr c B_Td SZ)) as (td & D1 & D2 & D3). destruct (memset_ok _ _ (sized_arr c B_Tr SZ)) as (tr & R1 & R2 & R3).
  simpl in *. destruct SZ as [_ (k & TK & QK)]. simpl in TK. destruct (x_tm c) as [l|] eqn:TM; [|discriminate]. injection TK as <-.
  destruct (pmap_first_ok (q_t (x_q c)) (fun t => Ok (set_t_acc 0 t)) (Some l)) as [tm T1].
  { intros i L. destruct (nth_error l i) as [t|] eqn:N; [exists t; eauto|]. apply nth_error_None in N. lia. }
  exists tm, td, tr. rewrite TM || idtac. split; [exact T1|]. split; [exact D1|]. split; [exact R1|].
  apply pmap_first_spec in T1 as (T1 & T2).
  assert (TT : forall i, (i < q_t (x_q c))%nat -> exists t, elem (Some l) i = Some t /\ elem tm i = Some (set_t_acc 0 t)).
  { intros i L. specialize (T2 i). destruct (elem (Some l) i) as [t|] eqn:N.
    - rewrite (proj2 (Nat.ltb_lt _ _) L) in T2. destruct T2 as (y & Y & T2). injection Y as <-. eauto.
    - simpl in N. apply nth_error_None in N. lia. }
  assert (TO : forall i, (q_t (x_q c) <= i)%nat -> elem tm i = elem (Some l) i).
  { intros i L. specialize (T2 i). rewrite (proj2 (Nat.ltb_ge _ _) L) in T2. destruct (elem (Some l) i); auto. }
  split.
  - intros i L. simpl. destruct (TT i L) as (t & _ & ->). rewrite D3, R3. apply Nat.ltb_lt in L. rewrite L. auto.
  - intros x HX. destruct x; try reflexivity.
    + destruct b; try reflexivity; simpl; [rewrite R3|rewrite D3]; (destruct (i <? _)%nat eqn:L; auto); exfalso; apply HX; exists i; apply Nat.ltb_lt in L; auto.
    + destruct b; try reflexivity; simpl; auto.
    + simpl. rewrite TM. destruct (Nat.lt_ge_cases i (q_t (x_q c))) as [L|L].
      * destruct (TT i L) as (t & -> & ->). auto.
      * rewrite (TO i L). auto.
    + simpl. rewrite TM. destruct (Nat.lt_ge_cases i (q_t (x_q c))) as [L|L]; [exfalso; apply HX; eauto|]. rewrite (TO i L). auto.
    + simpl. rewrite TM. auto.
Qed.

Lemma copy_if_ok dst src n : (is_null src = true \/ arr_ok src n) -> (is_null dst = true \/ arr_ok dst n) ->
  exists p', copy_if dst src n = Ok p' /\ size p' = size dst
    /\ forall i, elem p' i = if (i <? n)%nat && negb (is_null src) && negb (is_null dst) then elem src i else elem dst i.
Proof.
  intros A B. unfold copy_if. destruct src as [s|]; simpl; [|exists dst; split; auto; split; auto; intros i; now rewrite andb_false_r].
  destruct dst as [d|]; simpl; [|exists None; split; auto; split; auto; intros i; now rewrite andb_false_r].
  destruct A as [A|(s' & [= <-] & A)]; [discriminate|]. destruct B as [B|(d' & [= <-] & B)]; [discriminate|].
  unfold pmemcpy. destruct n as [|n].
  - eexists. split; [reflexivity|]. split; auto.
  - rewrite (proj2 (Nat.leb_le _ _) A), (proj2 (Nat.leb_le _ _) B). simpl andb. eexists. split; [reflexivity|]. split.
    + unfold size. cbn [option_map]. rewrite app_length, firstn_length, skipn_length. do 2 f_equal. lia.
    + intros i. rewrite !andb_true_r. unfold elem, obind. destruct (i <? S n)%nat eqn:I0.
      * apply Nat.ltb_lt in I0. rewrite nth_error_app1 by (rewrite firstn_length; lia). rewrite <- (firstn_skipn (S n) s) at 2.
        rewrite nth_error_app1; auto. rewrite firstn_length; lia.
      * apply Nat.ltb_ge in I0. rewrite nth_error_app2 by (rewrite firstn_length; lia). rewrite firstn_length.
        rewrite <- (firstn_skipn (S n) d) at 2. rewrite nth_error_app2; rewrite firstn_length; [|lia]. f_equal. lia.
Qed.
Lemma zero_if_ok p n : is_null p = true \/ arr_ok p n -> exists p', zero_if p n = Ok p' /\ size p' = size p /\ is_null p' = is_null p
    /\ forall i, elem p' i = if (i <? n)%nat && negb (is_null p) then Some 0 else elem p i.
Proof.
  intros A. unfold zero_if. destruct (is_null p) eqn:N.
  - exists p. split; auto. split; auto. split; auto. intros i. now rewrite andb_false_r.
  - destruct A as [A|A]; [discriminate|]. destruct (memset_ok _ _ A) as (p' & P1 & P2 & P3). exists p'. split; auto. split; auto. split.
    + destruct p, p'; simpl in *; try discriminate; auto.
    + intros i. rewrite P3, andb_true_r. auto.
Qed.
Lemma size_arr p n : size p = None \/ (exists k, size p = Some (VN k) /\ (n <= k)%nat) -> is_null p = true \/ arr_ok p n.
Proof. intros [H|(k & H & K)]; destruct p as [l|]; simpl in *; try discriminate; auto. right. exists l. injection H as <-. auto. Qed.
Lemma out_reset_ok om : (forall k, is_null (out_arr k om) = true \/ arr_ok (out_arr k om) (ports (o_qq om) (o_qwq om) k)) ->
  exists om', out_fault_reset om = Ok om' /\ o_id om' = o_id om /\ o_qq om' = o_qq om /\ o_qwq om' = o_qwq om
    /\ (forall k, size (out_arr k om') = size (out_arr k om))
    /\ forall k i, if (i <? ports (o_qq om) (o_qwq om) k)%nat && negb (is_null (out_arr (current k) om)) && negb (is_null (out_arr k om))
                   then elem (out_arr k om') i = Some 0 else elem (out_arr k om') i = elem (out_arr k om) i.
Proof.
  intros A. unfold out_fault_reset.
  destruct (zero_if_ok _ _ (A K_Q)) as (q & Q1 & Q2 & Q3 & Q4). destruct (zero_if_ok _ _ (A K_QW)) as (w & W1 & W2 & W3 & W4). simpl in *.
  rewrite Q1, W1. simpl.
  assert (AQ : is_null q = true \/ arr_ok q (o_qq om)).
  { destruct (A K_Q) as [K|(l & K1 & K2)]; [left; simpl in K; congruence|right]. simpl in *. rewrite K1 in Q2. destruct q as [l'|]; [|discriminate]. exists l'. simpl in Q2. split; auto. injection Q2 as Q2. lia. }
  assert (AW : is_null w = true \/ arr_ok w (o_qwq om)).
  { destruct (A K_QW) as [K|(l & K1 & K2)]; [left; simpl in K; congruence|right]. simpl in *. rewrite K1 in W2. destruct w as [l'|]; [|discriminate]. exists l'. simpl in W2. split; auto. injection W2 as W2. lia. }
  destruct (copy_if_ok (o_Qh om) q (o_qq om) AQ (A K_Qh)) as (qh & H1 & H2 & H3). destruct (copy_if_ok (o_QWh om) w (o_qwq om) AW (A K_QWh)) as (wh & V1 & V2 & V3).
  rewrite H1, V1. simpl. eexists. split; [reflexivity|]. simpl. do 3 (split; [auto|]). split; [intros []; auto|].
  rewrite Q3 in H3. rewrite W3 in V3.
  intros k i. destruct k; simpl.
  - rewrite Q4. destruct (i <? o_qq om)%nat, (is_null (o_Q om)); simpl; auto.
  - rewrite W4. destruct (i <? o_qwq om)%nat, (is_null (o_QW om)); simpl; auto.
  - rewrite H3, Q4. destruct (i <? o_qq om)%nat, (is_null (o_Q om)), (is_null (o_Qh om)); simpl; auto.
  - rewrite V3, W4. destruct (i <? o_qwq om)%nat, (is_null (o_QW om)), (is_null (o_QWh om)); simpl; auto.
Qed.
Definition outs_off (c c' : ctx) : Prop :=
  (forall m k i id qd qa, peek c LOutCount <> None -> (m < io_wq (x_io c))%nat -> peek c (LOutMeta m) = Some (VMeta id qd qa) -> (i < ports qd qa k)%nat ->
     peek c (LOutLen m k) <> None -> peek c (LOutLen m (current k)) <> None -> peek c' (LOut m k i) = Some (VZ 0))
  /\ changes_only c c' (fun l => exists m k i, (m < io_wq (x_io c))%nat /\ l = LOut m k i).
Lemma outs_ok c : outs_sized c -> exists c',
  (if is_null (x_out c) then Ok c else let? o := pmap_first (io_wq (x_io c)) out_fault_reset (x_out c) in Ok (set_x_out o c)) = Ok c'
  /\ outs_off c c'.
Proof.
  intros OS. destruct (is_null (x_out c)) eqn:NU.
  - exists c. split; auto. split; [|intros l _; auto]. intros m k i id qd qa H. simpl in H. destruct (x_out c); [discriminate|]. now contradiction H.
  - destruct OS as [OS|OS]; [simpl in OS; destruct (x_out c); discriminate|].
    assert (MM : forall m, (m < io_wq (x_io c))%nat -> exists om om', elem (x_out c) m = Some om /\ out_fault_reset om = Ok om'
      /\ o_id om' = o_id om /\ o_qq om' = o_qq om /\ o_qwq om' = o_qwq om
    /\ (forall k, size (out_arr k om') = size (out_arr k om))
    /\ forall k i, if (i <? ports (o_qq om) (o_qwq om) k)%nat && negb (is_null (out_arr (current k) om)) && negb (is_null (out_arr k om))
                   then elem (out_arr k om') i = Some 0 else elem (out_arr k om') i = elem (out_arr k om) i).
    { intros m M. destruct (OS m M) as (id & qd & qa & ME & LE). simpl in ME, LE. destruct (elem (x_out c) m) as [om|]; [|discriminate]. simpl in *.
      injection ME as <- <- <-. destruct (out_reset_ok om) as (om' & K); [intros k; apply size_arr, LE|]. exists om, om'. auto. }
    destruct (pmap_first_ok (io_wq (x_io c)) out_fault_reset (x_out c)) as [o HO].
    { intros m M. destruct (MM m M) as (om & om' & A & B & _). eauto. }
    rewrite HO. simpl. eexists. split; [reflexivity|]. apply pmap_first_spec in HO as (O1 & O2).
    assert (OE : forall m, (m < io_wq (x_io c))%nat -> exists om om', elem (x_out c) m = Some om /\ elem o m = Some om'
      /\ o_id om' = o_id om /\ o_qq om' = o_qq om /\ o_qwq om' = o_qwq om
    /\ (forall k, size (out_arr k om') = size (out_arr k om))
    /\ forall k i, if (i <? ports (o_qq om) (o_qwq om) k)%nat && negb (is_null (out_arr (current k) om)) && negb (is_null (out_arr k om))
                   then elem (out_arr k om') i = Some 0 else elem (out_arr k om') i = elem (out_arr k om) i).
    { intros m M. destruct (MM m M) as (om & om' & A & B & D). exists om, om'. split; auto. split; auto. specialize (O2 m). rewrite A in O2.
      rewrite (proj2 (Nat.ltb_lt _ _) M) in O2. destruct O2 as (y & Y & O2). congruence. }
    assert (OO : forall m, (io_wq (x_io c) <= m)%nat -> elem o m = elem (x_out c) m).
    { intros m M. specialize (O2 m). rewrite (proj2 (Nat.ltb_ge _ _) M) in O2. destruct (elem (x_out c) m); auto. }
    split.
    + intros m k i id qd qa _ M ME L LK LC. destruct (OE m M) as (om & om' & A & B & _ & _ & _ & _ & D). simpl in *. rewrite A in *. rewrite B. simpl in *.
      injection ME as <- <- <-. specialize (D k i). apply Nat.ltb_lt in L. rewrite L in D.
      destruct (out_arr (current k) om); [|now contradiction LC]. destruct (out_arr k om); [|now contradiction LK]. simpl in D. now rewrite D.
    + intros l HL. destruct l; try reflexivity.
      * destruct (Nat.lt_ge_cases m (io_wq (x_io c))) as [M|M]; [exfalso; apply HL; eauto|]. simpl. now rewrite (OO m M).
      * simpl. destruct (Nat.lt_ge_cases m (io_wq (x_io c))) as [M|M]; [|now rewrite (OO m M)]. destruct (OE m M) as (om & om' & -> & -> & _ & _ & _ & K & _). simpl. auto.
      * simpl. destruct (Nat.lt_ge_cases m (io_wq (x_io c))) as [M|M]; [|now rewrite (OO m M)]. destruct (OE m M) as (om & om' & -> & -> & K1 & K2 & K3 & _). simpl. congruence.
      * simpl. auto.
Qed.
Lemma changes_keep c c' (P : loc -> Prop) : changes_only c c' P -> (forall l, P l -> ~ is_layout l) -> forall l, is_layout l -> peek c' l = peek c l.
Proof. intros H N l L. apply H. intros K. now apply N in K. Qed.
Lemma clear_start E W c tr : env_writes E W -> (forall l, W l -> ~ is_layout l) -> ~ W LState -> exists c1 tr1,
  (set_state S_RUNNING ;;;
  modc (fun c => set_x_si (set_si_actual 0 (x_si c)) c) ;;;
  c1 <- getc ;;
  (if h_millis (x_h c1) then t <- millis E ;; modc (fun c => set_x_si (set_si_start t (x_si c)) c)
   else modc (fun c => set_x_si (set_si_start 0 (x_si c)) c) ;;; panic E))%m (mk_st c tr) = Ok (tt, mk_st c1 tr1)
  /\ changes_only c c1 (fun l => l = LState \/ l = LStats \/ W l) /\ x_state c1 = S_RUNNING.
Proof.
  intros (EW & _) LW WS. unfold bind, set_state, modc, getc, ret. simpl.
  set (c0 := set_x_si (set_si_actual 0 (x_si c)) (set_x_state S_RUNNING c)).
  assert (C0 : changes_only c c0 (fun l => l = LState \/ l = LStats \/ W l)) by (intros l L; destruct l; try reflexivity; tauto).
  destruct (h_millis (x_h c)).
  - unfold millis, emit, bind, ret. simpl. set (t := u64 (clk E (length tr))). set (c2 := act E (length tr) (EvMillis t) c0).
    assert (C2 : changes_only c0 c2 W) by (apply EW; simpl; auto). do 2 eexists. split; [reflexivity|]. split.
    + intros l L. transitivity (peek c2 l); [destruct l; try reflexivity; tauto|]. rewrite C2 by tauto. apply C0. auto.
    + pose proof (C2 LState WS) as K. simpl in K. simpl. congruence.
  - unfold panic, bind, getc, emit, ret. simpl. destruct (h_panic (x_h c)).
    + simpl. set (c2 := set_x_si _ c0). assert (C2 : changes_only c2 (act E (length tr) EvPanic c2) W) by (apply EW; simpl; auto).
      do 2 eexists. split; [reflexivity|]. split.
      * intros l L. rewrite C2 by tauto. rewrite <- C0 by auto. unfold c2. destruct l; try reflexivity; tauto.
      * pose proof (C2 LState WS) as K. simpl in K. congruence.
    + do 2 eexists. split; [reflexivity|]. split; [|reflexivity]. intros l L. rewrite <- C0 by auto. destruct l; try reflexivity; tauto.
Qed.
Lemma bind_assoc {A B C} (m : M A) (k : A -> M B) (h : B -> M C) s : bind (bind m k) h s = bind m (fun a => bind (k a) h) s.
Proof. unfold bind. destruct (m s) as [[a s']| |]; auto. Qed.
Definition clear_stop (E : env) : M bool :=
 (c2 <- getc ;;
  go <- (if (q_t (x_q c2) =? 0)%nat then ret true
         else if is_null (x_tm c2) then clear_fail E
         else updc (fun c =>
                let? tm := pmap_first (q_t (x_q c)) (fun t => Ok (set_t_acc 0 t)) (x_tm c) in
                let? td := zero_flags (m_Td (x_mem c)) (q_t (x_q c)) in
                let? tr := zero_flags (m_Tr (x_mem c)) (q_t (x_q c)) in
                Ok (set_x_tm tm (set_x_mem (set_m_Td td (set_m_Tr tr (x_mem c))) c))) ;;; ret true) ;;
  if negb go then ret false else
  go <- zero_bank E B_C (fun c => q_c (x_q c)) ;; if negb go then ret false else
  go <- zero_bank E B_Cd (fun c => q_c (x_q c)) ;; if negb go then ret false else
  go <- zero_bank E B_Cr (fun c => q_c (x_q c)) ;; if negb go then ret false else
  go <- zero_bank E B_D (fun c => q_d (x_q c)) ;; if negb go then ret false else
  go <- zero_bank E B_R (fun c => q_r (x_q c)) ;; if negb go then ret false else
  updc (fun c => if is_null (x_out c) then Ok c else
                 let? o := pmap_first (io_wq (x_io c)) out_fault_reset (x_out c) in Ok (set_x_out o c)) ;;;
  ret true)%m.
Lemma fault_clear_split E c tr c1 tr1 : x_state c = S_ERROR ->
  (set_state S_RUNNING ;;;
  modc (fun c => set_x_si (set_si_actual 0 (x_si c)) c) ;;;
  c1 <- getc ;;
  (if h_millis (x_h c1) then t <- millis E ;; modc (fun c => set_x_si (set_si_start t (x_si c)) c)
   else modc (fun c => set_x_si (set_si_start 0 (x_si c)) c) ;;; panic E))%m (mk_st c tr) = Ok (tt, mk_st c1 tr1) ->
  fault_clear E (mk_st c tr) = clear_stop E (mk_st c1 tr1).
Proof.
  intros ST H. unfold fault_clear. unfold bind at 1. unfold getc at 1. cbv beta iota. cbn [s_ctx]. rewrite ST. cbn [lstate_eqb negb].
  unfold bind in H at 1 2. unfold set_state, modc in H. unfold bind at 1 2. unfold set_state, modc.
  unfold bind in H at 1. unfold bind at 1. unfold getc in H at 1. unfold getc at 1. cbv beta iota in H |- *.
  unfold bind at 1. unfold modc in H. rewrite H. reflexivity.
Qed.
Lemma keep_q c c' : (forall l, is_layout l -> peek c' l = peek c l) -> x_q c' = x_q c /\ x_io c' = x_io c.
Proof. intros H. pose proof (H LQty I) as A. pose proof (H LIo I) as B. simpl in A, B. split; congruence. Qed.
Lemma bind_ok {A B} (m : M A) (k : A -> M B) s a s1 : m s = Ok (a, s1) -> bind m k s = k a s1.
Proof. unfold bind. now intros ->. Qed.
Lemma clear_stop_ok E c tr : sized c -> outs_sized c -> exists c', clear_stop E (mk_st c tr) = Ok (true, mk_st c' tr)
  /\ (forall b i, In b recovered -> (i < bank_qty b (x_q c))%nat -> peek c' (LReg b i) = Some (VZ 0))
  /\ (forall i, (i < q_t (x_q c))%nat -> peek c' (LAcc i) = Some (VZ 0))
  /\ (forall m k i id qd qa, peek c LOutCount <> None -> (m < io_wq (x_io c))%nat -> peek c (LOutMeta m) = Some (VMeta id qd qa) -> (i < ports qd qa k)%nat ->
     peek c (LOutLen m k) <> None -> peek c (LOutLen m (current k)) <> None -> peek c' (LOut m k i) = Some (VZ 0))
  /\ changes_only c c' (fun l => (exists b i, In b recovered /\ (i < bank_qty b (x_q c))%nat /\ l = LReg b i)
       \/ (exists i, (i < q_t (x_q c))%nat /\ l = LAcc i) \/ (exists m k i, (m < io_wq (x_io c))%nat /\ l = LOut m k i)).
Proof.
  intros SZ OS.
  assert (T : exists ct, (if (q_t (x_q c) =? 0)%nat then ret true
         else if is_null (x_tm c) then clear_fail E
         else updc (fun c =>
                let? tm := pmap_first (q_t (x_q c)) (fun t => Ok (set_t_acc 0 t)) (x_tm c) in
                let? td := zero_flags (m_Td (x_mem c)) (q_t (x_q c)) in
                let? tr := zero_flags (m_Tr (x_mem c)) (q_t (x_q c)) in
                Ok (set_x_tm tm (set_x_mem (set_m_Td td (set_m_Tr tr (x_mem c))) c))) ;;; ret true)%m (mk_st c tr) = Ok (true, mk_st ct tr) /\ timers_off c ct).
  { destruct (q_t (x_q c) =? 0)%nat eqn:Z0.
    - exists c. split; auto. apply Nat.eqb_eq in Z0. split; [intros i; lia|apply changes_refl].
    - destruct (timers_ok c SZ) as (tm & td & tr0 & A & B & D & F). destruct SZ as [_ (k & K & _)]. simpl in K.
      destruct (x_tm c) eqn:TM; [|discriminate]. cbn [is_null]. unfold updc, bind, ret. simpl s_ctx. rewrite TM, A. simpl. rewrite B. simpl. rewrite D. simpl. eexists. split; [reflexivity|]. exact F. }
  destruct T as (c1 & T1 & T2 & T3).
  assert (L1 : forall l, is_layout l -> peek c1 l = peek c l) by (apply (changes_keep _ _ _ T3); intros l (i & _ & [->|[->| ->]]); auto).
  destruct (keep_q _ _ L1) as [Q1 I1].
  destruct (zero_bank_ok E B_C (fun c => q_c (x_q c)) c1 tr (sized_keep _ _ SZ L1) eq_refl) as (c2 & A2 & Z2).
  assert (L2 : forall l, is_layout l -> peek c2 l = peek c l) by (intros l L; rewrite (zeroed_layout _ _ _ Z2 l L); auto).
  destruct (keep_q _ _ L2) as [Q2 I2].
  destruct (zero_bank_ok E B_Cd (fun c => q_c (x_q c)) c2 tr (sized_keep _ _ SZ L2) eq_refl) as (c3 & A3 & Z3).
  assert (L3 : forall l, is_layout l -> peek c3 l = peek c l) by (intros l L; rewrite (zeroed_layout _ _ _ Z3 l L); auto).
  destruct (keep_q _ _ L3) as [Q3 I3].
  destruct (zero_bank_ok E B_Cr (fun c => q_c (x_q c)) c3 tr (sized_keep _ _ SZ L3) eq_refl) as (c4 & A4 & Z4).
  assert (L4 : forall l, is_layout l -> peek c4 l = peek c l) by (intros l L; rewrite (zeroed_layout _ _ _ Z4 l L); auto).
  destruct (keep_q _ _ L4) as [Q4 I4].
  destruct (zero_bank_ok E B_D (fun c => q_d (x_q c)) c4 tr (sized_keep _ _ SZ L4) eq_refl) as (c5 & A5 & Z5).
  assert (L5 : forall l, is_layout l -> peek c5 l = peek c l) by (intros l L; rewrite (zeroed_layout _ _ _ Z5 l L); auto).
  destruct (keep_q _ _ L5) as [Q5 I5].
  destruct (zero_bank_ok E B_R (fun c => q_r (x_q c)) c5 tr (sized_keep _ _ SZ L5) eq_refl) as (c6 & A6 & Z6).
  assert (L6 : forall l, is_layout l -> peek c6 l = peek c l) by (intros l L; rewrite (zeroed_layout _ _ _ Z6 l L); auto).
  destruct (keep_q _ _ L6) as [Q6 I6].
  destruct (outs_ok c6 (outs_keep _ _ OS L6)) as (c7 & A7 & Z7 & Y7).
  destruct Z2 as [Z2 Y2], Z3 as [Z3 Y3], Z4 as [Z4 Y4], Z5 as [Z5 Y5], Z6 as [Z6 Y6]. rewrite Q1 in *. rewrite Q2 in *. rewrite Q3 in *. rewrite Q4 in *. rewrite Q5 in *. rewrite I6 in *.
  exists c7. split.
  { unfold clear_stop. unfold bind at 1. unfold getc at 1. cbv beta iota. cbn [s_ctx]. erewrite bind_ok by exact T1. cbn [negb].
    erewrite bind_ok by exact A2. cbn [negb]. erewrite bind_ok by exact A3. cbn [negb]. erewrite bind_ok by exact A4. cbn [negb].
    erewrite bind_ok by exact A5. cbn [negb]. erewrite bind_ok by exact A6. cbn [negb]. unfold bind, updc, ret. cbn [s_ctx]. rewrite I6. rewrite A7. reflexivity. }
  assert (N7 : forall b i, peek c7 (LReg b i) = peek c6 (LReg b i)) by (intros; apply Y7; intros (m & k & j & _ & K); discriminate).
  assert (N6 : forall b i, b <> B_R -> peek c6 (LReg b i) = peek c5 (LReg b i)) by (intros b i NB; apply Y6; intros (j & _ & K); congruence).
  assert (N5 : forall b i, b <> B_D -> peek c5 (LReg b i) = peek c4 (LReg b i)) by (intros b i NB; apply Y5; intros (j & _ & K); congruence).
  assert (N4 : forall b i, b <> B_Cr -> peek c4 (LReg b i) = peek c3 (LReg b i)) by (intros b i NB; apply Y4; intros (j & _ & K); congruence).
  assert (N3 : forall b i, b <> B_Cd -> peek c3 (LReg b i) = peek c2 (LReg b i)) by (intros b i NB; apply Y3; intros (j & _ & K); congruence).
  assert (N2 : forall b i, b <> B_C -> peek c2 (LReg b i) = peek c1 (LReg b i)) by (intros b i NB; apply Y2; intros (j & _ & K); congruence).
  split; [|split; [|split]].
  - intros b i HB L. unfold recovered in HB. simpl in HB.
    destruct HB as [<-|[<-|[<-|[<-|[<-|[<-|[<-|[]]]]]]]]; rewrite N7.
    + rewrite N6, N5, N4, N3, N2 by discriminate. apply T2. auto.
    + rewrite N6, N5, N4, N3, N2 by discriminate. apply T2. auto.
    + rewrite N6, N5, N4, N3 by discriminate. apply Z2. auto.
    + rewrite N6, N5, N4 by discriminate. apply Z3. auto.
    + rewrite N6, N5 by discriminate. apply Z4. auto.
    + rewrite N6 by discriminate. apply Z5. auto.
    + apply Z6. auto.
  - intros i L. rewrite Y7, Y6, Y5, Y4, Y3, Y2; [apply T2; auto|..]; intros K; decompose [ex and or] K; discriminate.
  - intros m k i id qd qa HC M ME L LK LC. apply (Z7 m k i id qd qa); auto; rewrite ?L6 by exact I; auto.
  - intros l HL. rewrite Y7, Y6, Y5, Y4, Y3, Y2, T3; auto; intros K; apply HL.
    1: destruct K as (i & K1 & [->|[->| ->]]); [right; left; eauto|left; exists B_Td, i; simpl; auto|left; exists B_Tr, i; simpl; auto].
    all: try (right; right; exact K; fail).
    all: destruct K as (i & K1 & ->); left; match goal with |- context[LReg ?b ?i] => exists b, i end; (split; [simpl; auto 10|auto]).
Qed.

(** C37: in state ERROR recovery succeeds when the banks and output modules are there: the state is RUNNING, accumulators of
    timers, counters, timer and counter flags, D, R, and all outputs with their histories are zero; nothing else changes (in
    particular M, inputs and their histories and the program), apart from what the clock and panic callbacks may do. *)
Lemma C37_recovers_l : forall E W s q io, env_writes E W -> (forall l, W l -> ~ is_layout l) -> ~ W LState ->
  peek (s_ctx s) LState = Some (VState S_ERROR) -> sized (s_ctx s) -> outs_sized (s_ctx s) ->
  peek (s_ctx s) LQty = Some (VQty q) -> peek (s_ctx s) LIo = Some (VIo io) ->
  exists s', fault_clear E s = Ok (true, s') /\ peek (s_ctx s') LState = Some (VState S_RUNNING)
  /\ (forall b i, In b [B_Td; B_Tr; B_C; B_Cd; B_Cr; B_D; B_R] -> (i < bank_qty b q)%nat -> peek (s_ctx s') (LReg b i) = Some (VZ 0))
  /\ (forall i, (i < q_t q)%nat -> peek (s_ctx s') (LAcc i) = Some (VZ 0))
  /\ (forall m k i id qd qa, peek (s_ctx s) LOutCount <> None -> (m < io_wq io)%nat -> peek (s_ctx s) (LOutMeta m) = Some (VMeta id qd qa) ->
       (i < ports qd qa k)%nat -> peek (s_ctx s) (LOutLen m k) <> None -> peek (s_ctx s) (LOutLen m (current k)) <> None ->
       peek (s_ctx s') (LOut m k i) = Some (VZ 0))
  /\ changes_only (s_ctx s) (s_ctx s') (fun l => l = LState \/ l = LStats
       \/ (exists b i, In b recovered /\ (i < bank_qty b q)%nat /\ l = LReg b i)
       \/ (exists i, (i < q_t q)%nat /\ l = LAcc i) \/ (exists m k i, (m < io_wq io)%nat /\ l = LOut m k i) \/ W l).
Proof.
  intros E W [c tr] q io EW LW WS ST SZ OS HQ HI. cbn [s_ctx] in *. simpl in ST, HQ, HI. injection ST as ST. injection HQ as <-. injection HI as <-.
  destruct (clear_start E W c tr EW LW WS) as (c1 & tr1 & A & B & D). rewrite (fault_clear_split _ _ _ _ _ ST A).
  assert (L1 : forall l, is_layout l -> peek c1 l = peek c l) by (apply (changes_keep _ _ _ B); intros l [->|[->|K]]; auto).
  destruct (keep_q _ _ L1) as [Q1 I1].
  destruct (clear_stop_ok E c1 tr1 (sized_keep _ _ SZ L1) (outs_keep _ _ OS L1)) as (c2 & A2 & R1 & R2 & R3 & R4).
  exists (mk_st c2 tr1). cbn [s_ctx]. rewrite Q1, I1 in *. split; [exact A2|]. split; [|split; [|split; [|split]]].
  - rewrite R4; [simpl; congruence|]. intros K. destruct K as [K|[K|K]]; decompose [ex and or] K; discriminate.
  - exact R1.
  - exact R2.
  - intros m k i id qd qa H1 H2 H3 H4 H5 H6. apply (R3 m k i id qd qa); auto; rewrite ?L1 by exact I; auto.
  - intros l HL. rewrite R4, B; auto; intros K; apply HL; tauto.
Qed.
(*EX
(* A faulted context with timer 0 at 7, C0 at 0 and C1 at 7, D0 at 10 and output Q0.1 on; M0 stays on. *)
Example C37_case :
  let c := set_x_state S_ERROR (set_x_tm (Some [mk_timer 5 7; mk_timer 0 0; mk_timer 0 0; mk_timer 0 0]) (demo [])) in
  sized c /\ outs_sized c /\ peek c LState = Some (VState S_ERROR)
  /\ exists s', fault_clear quiet_env (start c) = Ok (true, s') /\ peek (s_ctx s') LState = Some (VState S_RUNNING)
     /\ peek c (LAcc 0) = Some (VZ 7) /\ peek (s_ctx s') (LAcc 0) = Some (VZ 0)
     /\ peek c (LReg B_D 0) = Some (VZ 10) /\ peek (s_ctx s') (LReg B_D 0) = Some (VZ 0)
     /\ peek c (LOut 0 K_Q 1) = Some (VZ 1) /\ peek (s_ctx s') (LOut 0 K_Q 1) = Some (VZ 0) /\ peek (s_ctx s') (LOut 0 K_Qh 1) = Some (VZ 0)
     /\ peek (s_ctx s') (LReg B_M 0) = Some (VZ 1).
Proof.
  cbv zeta. split; [split; [intros []; eexists; (split; [reflexivity|]); simpl; lia|eexists; split; [reflexivity|simpl; lia]]|].
  split; [right; intros m M; simpl in M; assert (m = 0)%nat as -> by lia; exists 1, 2%nat, 2%nat; split; [reflexivity|];
    intros []; right; eexists; (split; [reflexivity|]); simpl; lia|].
  split; [reflexivity|]. eexists. split; [vm_compute; reflexivity|]. repeat split; reflexivity.
Qed.
EX*)

(** ** C38 *)

Lemma exactly_grow {A} n (p : option (list A)) x : exactly n p -> grow n p x = Some (items p ++ [x]) /\ exactly (S n) (grow n p x).
Proof.
  intros [L N]. unfold grow. change (match p with None => [] | Some l => l end) with (items p) in L.
  rewrite firstn_all2 by lia. split; auto. split; [rewrite app_length; simpl; lia|]. split; [discriminate|lia].
Qed.
Lemma exactly_shrink {A} n (p : option (list A)) : exactly n p -> shrink n p = p.
Proof.
  intros [L N]. change (match p with None => [] | Some l => l end) with (items p) in L. unfold shrink. destruct n.
  - symmetry. now apply N.
  - destruct p as [l|]; [|simpl in L; discriminate]. simpl in L. simpl items. now rewrite firstn_all2 by lia.
Qed.
Lemma shrink_grow {A} n (p : option (list A)) x : exactly n p -> shrink n (grow n p x) = p.
Proof.
  intros H. destruct (exactly_grow n p x H) as [-> _]. destruct H as [L N]. change (match p with None => [] | Some l => l end) with (items p) in L.
  unfold shrink. destruct n; [symmetry; now apply N|]. cbn [items]. rewrite firstn_app, L, Nat.sub_diag, firstn_O, app_nil_r, firstn_all2 by lia.
  destruct p; [auto|discriminate].
Qed.
Lemma elem_grow {A} n (p : option (list A)) x i : exactly n p -> elem (grow n p x) i = if (i =? n)%nat then Some x else elem p i.
Proof.
  intros H. destruct (exactly_grow n p x H) as [-> _]. destruct H as [L N]. change (match p with None => [] | Some l => l end) with (items p) in L.
  unfold elem at 1, obind at 1. assert (P : forall j, elem p j = nth_error (items p) j) by (intros; destruct p; simpl; auto; now destruct j).
  rewrite P. destruct (i =? n)%nat eqn:Q; [apply Nat.eqb_eq in Q; subst i; rewrite nth_error_app2 by lia; now rewrite L, Nat.sub_diag|].
  apply Nat.eqb_neq in Q. destruct (Nat.lt_ge_cases i n) as [K|K]; [now rewrite nth_error_app1 by lia|].
  rewrite nth_error_app2 by lia. rewrite (proj2 (nth_error_None (items p) i)) by lia. apply nth_error_None. simpl. lia.
Qed.
Lemma set_same_io c : set_x_io (x_io c) c = c. Proof. now destruct c. Qed.
(** Agreement outside the places of module [n] and of the module list. *)
Definition near (n : nat) (c c' : ctx) : Prop := changes_only c c' (fun l => in_place n l \/ l = LInCount \/ l = LIo).
Definition near_out (n : nat) (c c' : ctx) : Prop := changes_only c c' (fun l => out_place n l \/ l = LOutCount \/ l = LIo).
Local Arguments grow : simpl never.
Local Arguments shrink : simpl never.
Local Arguments elem : simpl never.
Lemma grow_in c n ini x : exactly n (x_in c) ->
  near n c (set_x_in (grow n (x_in c) x) (set_x_io (set_io_rd (grow n (io_rd (x_io c)) true) (set_io_ird (grow n (io_ird (x_io c)) ini) (x_io c))) c)).
Proof.
  intros XI l HL. destruct l; try reflexivity; try (exfalso; apply HL; auto; fail); simpl; rewrite elem_grow by auto;
    (destruct (m =? n)%nat eqn:Q; [|reflexivity]); apply Nat.eqb_eq in Q; subst m; exfalso; apply HL; left; unfold in_place; eauto.
Qed.
Lemma grow_out c n ini x : exactly n (x_out c) ->
  near_out n c (set_x_out (grow n (x_out c) x) (set_x_io (set_io_wr (grow n (io_wr (x_io c)) true) (set_io_iwr (grow n (io_iwr (x_io c)) ini) (x_io c))) c)).
Proof.
  intros XI l HL. destruct l; try reflexivity; try (exfalso; apply HL; auto; fail); simpl; rewrite elem_grow by auto;
    (destruct (m =? n)%nat eqn:Q; [|reflexivity]); apply Nat.eqb_eq in Q; subst m; exfalso; apply HL; left; unfold out_place; eauto.
Qed.
Lemma exactly_size {A} n (p p' : option (list A)) : exactly n p -> size p' = size p -> exactly n p'.
Proof.
  intros [L N] H. destruct p as [l|], p' as [l'|]; simpl in H; try discriminate; [|split; auto]. injection H as H. split; [simpl in *; lia|].
  split; [discriminate|]. intros Z0. apply N in Z0. discriminate.
Qed.
Lemma elem_shrink {A} n (p : option (list A)) i : exactly (S n) p -> elem (shrink n p) i = if (i <? n)%nat then elem p i else None.
Proof.
  intros [L N]. destruct p as [l|]; [|simpl in L; discriminate]. simpl in L. unfold shrink. destruct n as [|n]; [now destruct i|].
  unfold elem, obind. cbn [items]. destruct (i <? S n)%nat eqn:Q.
  - apply Nat.ltb_lt in Q. rewrite <- (firstn_skipn (S n) l) at 2. rewrite nth_error_app1; auto. rewrite firstn_length. lia.
  - apply Nat.ltb_ge in Q. apply nth_error_None. rewrite firstn_length. lia.
Qed.
Lemma exactly_beyond {A} n (p : option (list A)) i : exactly n p -> (n <= i)%nat -> elem p i = None.
Proof. intros [L N] H. destruct p; [|reflexivity]. simpl in *. apply nth_error_None. lia. Qed.
Lemma size_shrink {A} n (p q : option (list A)) : exactly (S n) p -> exactly n q -> size (shrink n p) = size q.
Proof.
  intros [L N] [L2 N2]. destruct p as [l|]; [|simpl in L; discriminate]. simpl in L. unfold shrink. destruct n as [|n].
  - assert (q = None) as -> by now apply N2. auto.
  - destruct q as [l2|]; [|simpl in L2; discriminate]. unfold size. cbn [option_map items]. rewrite firstn_length. simpl in L2. do 2 f_equal. lia.
Qed.
Lemma near_modules n c c2 P : changes_only c c2 P -> (forall l, P l -> in_place n l) -> size (x_in c2) = size (x_in c) /\ x_io c2 = x_io c.
Proof.
  intros H K. split.
  - apply (H LInCount). intros Q. apply K in Q. unfold in_place in Q. decompose [ex or] Q; discriminate.
  - assert (Q : peek c2 LIo = peek c LIo) by (apply H; intros Q; apply K in Q; unfold in_place in Q; decompose [ex or] Q; discriminate). simpl in Q. congruence.
Qed.
Lemma near_modules_out n c c2 P : changes_only c c2 P -> (forall l, P l -> out_place n l) -> size (x_out c2) = size (x_out c) /\ x_io c2 = x_io c.
Proof.
  intros H K. split.
  - apply (H LOutCount). intros Q. apply K in Q. unfold out_place in Q. decompose [ex or] Q; discriminate.
  - assert (Q : peek c2 LIo = peek c LIo) by (apply H; intros Q; apply K in Q; unfold out_place in Q; decompose [ex or] Q; discriminate). simpl in Q. congruence.
Qed.
Lemma undo_in n c c3 : reads_wf c -> io_rq (x_io c) = n -> near n c c3 -> exactly (S n) (x_in c3) ->
  (exists ini, x_io c3 = set_io_rd (grow n (io_rd (x_io c)) true) (set_io_ird (grow n (io_ird (x_io c)) ini) (x_io c))) ->
  unchanged c (set_x_in (shrink n (x_in c3)) (set_x_io (set_io_rd (shrink n (io_rd (x_io c3))) (set_io_ird (shrink n (io_ird (x_io c3))) (x_io c3))) c3)).
Proof.
  intros (W1 & W2 & W3) N NR X3 (ini & IO). rewrite N in *.
  intros l. destruct l; try (match goal with |- _ = peek _ ?l => change (peek c3 l = peek c l) end; apply NR; intros K; unfold in_place in K; decompose [ex or] K; discriminate).
  - simpl. rewrite elem_shrink by auto. destruct (m <? n)%nat eqn:Q.
    + apply Nat.ltb_lt in Q. refine (NR (LIn m k i) _). intros K. unfold in_place in K. decompose [ex or] K; try discriminate. assert (m = n) by congruence. lia.
    + apply Nat.ltb_ge in Q. now rewrite (exactly_beyond n (x_in c)).
  - simpl. rewrite elem_shrink by auto. destruct (m <? n)%nat eqn:Q.
    + apply Nat.ltb_lt in Q. refine (NR (LInLen m k) _). intros K. unfold in_place in K. decompose [ex or] K; try discriminate. assert (m = n) by congruence. lia.
    + apply Nat.ltb_ge in Q. now rewrite (exactly_beyond n (x_in c)).
  - simpl. rewrite elem_shrink by auto. destruct (m <? n)%nat eqn:Q.
    + apply Nat.ltb_lt in Q. refine (NR (LInMeta m) _). intros K. unfold in_place in K. decompose [ex or] K; try discriminate. assert (m = n) by congruence. lia.
    + apply Nat.ltb_ge in Q. now rewrite (exactly_beyond n (x_in c)).
  - simpl. now apply size_shrink.
  - simpl. rewrite IO. simpl. rewrite !shrink_grow by auto. now destruct (x_io c).
Qed.
Lemma undo_out n c c3 : writes_wf c -> io_wq (x_io c) = n -> near_out n c c3 -> exactly (S n) (x_out c3) ->
  (exists ini, x_io c3 = set_io_wr (grow n (io_wr (x_io c)) true) (set_io_iwr (grow n (io_iwr (x_io c)) ini) (x_io c))) ->
  unchanged c (set_x_out (shrink n (x_out c3)) (set_x_io (set_io_wr (shrink n (io_wr (x_io c3))) (set_io_iwr (shrink n (io_iwr (x_io c3))) (x_io c3))) c3)).
Proof.
  intros (W1 & W2 & W3) N NR X3 (ini & IO). rewrite N in *.
  intros l. destruct l; try (match goal with |- _ = peek _ ?l => change (peek c3 l = peek c l) end; apply NR; intros K; unfold out_place in K; decompose [ex or] K; discriminate).
  - simpl. rewrite elem_shrink by auto. destruct (m <? n)%nat eqn:Q.
    + apply Nat.ltb_lt in Q. refine (NR (LOut m k i) _). intros K. unfold out_place in K. decompose [ex or] K; try discriminate. assert (m = n) by congruence. lia.
    + apply Nat.ltb_ge in Q. now rewrite (exactly_beyond n (x_out c)).
  - simpl. rewrite elem_shrink by auto. destruct (m <? n)%nat eqn:Q.
    + apply Nat.ltb_lt in Q. refine (NR (LOutLen m k) _). intros K. unfold out_place in K. decompose [ex or] K; try discriminate. assert (m = n) by congruence. lia.
    + apply Nat.ltb_ge in Q. now rewrite (exactly_beyond n (x_out c)).
  - simpl. rewrite elem_shrink by auto. destruct (m <? n)%nat eqn:Q.
    + apply Nat.ltb_lt in Q. refine (NR (LOutMeta m) _). intros K. unfold out_place in K. decompose [ex or] K; try discriminate. assert (m = n) by congruence. lia.
    + apply Nat.ltb_ge in Q. now rewrite (exactly_beyond n (x_out c)).
  - simpl. now apply size_shrink.
  - simpl. rewrite IO. simpl. rewrite !shrink_grow by auto. now destruct (x_io c).
Qed.
Lemma err_only c e : changes_only c (set_last_err e c) (fun l => l = LErr).
Proof. intros l L. destruct l; try reflexivity. tauto. Qed.
Lemma err_only' c c' e : unchanged c c' -> changes_only c (set_last_err e c') (fun l => l = LErr).
Proof. intros H l L. rewrite err_only by auto. apply H. Qed.
Lemma reads_wf_keep c c' : reads_wf c -> changes_only c c' (fun l => l = LErr) -> reads_wf c'.
Proof.
  intros (W1 & W2 & W3) H. assert (Q : x_io c' = x_io c) by (pose proof (H LIo ltac:(discriminate)) as K; simpl in K; congruence).
  unfold reads_wf. rewrite Q. split; auto. eapply exactly_size; [apply W1|]. apply (H LInCount). discriminate.
Qed.
Lemma writes_wf_keep c c' : writes_wf c -> changes_only c c' (fun l => l = LErr) -> writes_wf c'.
Proof.
  intros (W1 & W2 & W3) H. assert (Q : x_io c' = x_io c) by (pose proof (H LIo ltac:(discriminate)) as K; simpl in K; congruence).
  unfold writes_wf. rewrite Q. split; auto. eapply exactly_size; [apply W1|]. apply (H LOutCount). discriminate.
Qed.

(** C38: adding a read module always returns; it succeeds exactly if a function is given, fewer than 255 modules exist, the
    memory is available and the initialisation function, if any, agrees. Success appends one module and keeps all others;
    failure changes nothing but the last error. *)
Lemma C38_read_l : forall E alloc fn ini s io, polite_init E -> reads_wf (s_ctx s) -> peek (s_ctx s) LIo = Some (VIo io) ->
  let n := io_rq io in
  exists b s', add_read_fn E alloc fn ini s = Ok (b, s') /\ reads_wf (s_ctx s')
  /\ (b = true <-> fn = true /\ (n < 255)%nat /\ (forall k, (k < 3)%nat -> alloc k = true) /\ (ini = true -> ext_ok E (length (s_tr s)) = true))
  /\ (b = true -> peek (s_ctx s') LInCount = Some (VN (S n))
       /\ changes_only (s_ctx s) (s_ctx s') (fun l => in_place n l \/ l = LInCount \/ l = LIo)
       /\ exists io', peek (s_ctx s') LIo = Some (VIo io') /\ io_rq io' = S n /\ extended (io_rd io) (io_rd io') true
            /\ extended (io_ird io) (io_ird io') ini /\ io_wq io' = io_wq io /\ io_wr io' = io_wr io /\ io_iwr io' = io_iwr io)
  /\ (b = false -> changes_only (s_ctx s) (s_ctx s') (fun l => l = LErr)).
Proof.
  intros E alloc fn ini [c tr] io (PI & _) W HI. cbn [s_ctx s_tr] in *. simpl in HI. injection HI as <-. set (n := io_rq (x_io c)) in *.
  assert (FAIL : forall e c0, unchanged c c0 -> reads_wf (set_last_err e c0) /\ changes_only c (set_last_err e c0) (fun l => l = LErr)).
  { intros e c0 U. pose proof (err_only' c c0 e U) as K. split; auto. eapply reads_wf_keep; eauto. }
  assert (U0 : unchanged c c) by (intros l; auto).
  pose proof W as (W1 & W2 & W3). fold n in W1, W2, W3.
  unfold add_read_fn. destruct fn; cbn [negb].
  2:{ exists false, (mk_st c tr). split; [reflexivity|]. split; [auto|]. split; [intuition discriminate|]. split; [discriminate|]. intros _ l _. auto. }
  unfold bind at 1. unfold getc at 1. cbv beta iota. cbn [s_ctx]. fold n.
  destruct (255 <=? n)%nat eqn:Q.
  { destruct (FAIL E_OUTOFRANGE c U0). apply Nat.leb_le in Q. eexists false, _. split; [reflexivity|]. split; [auto|]. split; [|split; [discriminate|auto]].
    split; [discriminate|]. intros (_ & K & _). lia. }
  destruct (alloc 0%nat) eqn:A0; cbn [negb].
  2:{ destruct (FAIL E_FAIL c U0). eexists false, _. split; [reflexivity|]. split; [auto|]. split; [|split; [discriminate|auto]].
      split; [discriminate|]. intros (_ & _ & K & _). rewrite K in A0 by lia. discriminate. }
  destruct (alloc 1%nat) eqn:A1; cbn [negb].
  2:{ destruct (FAIL E_FAIL (set_x_io (set_io_rd (shrink n (io_rd (x_io c))) (x_io c)) c)) as [F1 F2].
      { rewrite exactly_shrink by auto. intros l. destruct l; try reflexivity. simpl. now destruct (x_io c). }
      eexists false, _. split; [reflexivity|]. split; [auto|]. split; [|split; [discriminate|auto]].
      split; [discriminate|]. intros (_ & _ & K & _). rewrite K in A1 by lia. discriminate. }
  destruct (alloc 2%nat) eqn:A2; cbn [negb].
  2:{ destruct (FAIL E_FAIL (set_x_io (set_io_rd (shrink n (io_rd (x_io c))) (set_io_ird (shrink n (io_ird (x_io c))) (x_io c))) c)) as [F1 F2].
      { rewrite !exactly_shrink by auto. intros l. destruct l; try reflexivity. simpl. now destruct (x_io c). }
      eexists false, _. split; [reflexivity|]. split; [auto|]. split; [|split; [discriminate|auto]].
      split; [discriminate|]. intros (_ & _ & K & _). rewrite K in A2 by lia. discriminate. }
  apply Nat.leb_gt in Q.
  assert (AL : forall k, (k < 3)%nat -> alloc k = true) by (intros [|[|[|k]]] K; auto; lia).
  set (c1 := set_x_in (grow n (x_in c) inmod0) (set_x_io (set_io_rd (grow n (io_rd (x_io c)) true) (set_io_ird (grow n (io_ird (x_io c)) ini) (x_io c))) c)).
  assert (N1 : near n c c1) by (apply grow_in; auto).
  assert (X1 : exactly (S n) (x_in c1)) by (apply exactly_grow; auto).
  assert (I1 : x_io c1 = set_io_rd (grow n (io_rd (x_io c)) true) (set_io_ird (grow n (io_ird (x_io c)) ini) (x_io c))) by reflexivity.
  assert (DONE : forall c2, near n c c2 -> exactly (S n) (x_in c2) -> x_io c2 = x_io c1 ->
    let c' := set_x_io (set_io_rq (S n) (x_io c2)) c2 in reads_wf c' /\
     (peek c' LInCount = Some (VN (S n)) /\ changes_only c c' (fun l => in_place n l \/ l = LInCount \/ l = LIo)
       /\ exists io', peek c' LIo = Some (VIo io') /\ io_rq io' = S n /\ extended (io_rd (x_io c)) (io_rd io') true
            /\ extended (io_ird (x_io c)) (io_ird io') ini /\ io_wq io' = io_wq (x_io c) /\ io_wr io' = io_wr (x_io c) /\ io_iwr io' = io_iwr (x_io c))).
  { intros c2 NR X2 I2 c'. split; [|split; [|split]].
    - unfold reads_wf, c'. simpl. rewrite I2, I1. simpl. split; [auto|]. split; apply exactly_grow; auto.
    - unfold c'. simpl. destruct X2 as [X2 X3]. destruct (x_in c2); [simpl in *; now rewrite X2|]. destruct X3 as [X3 _]. specialize (X3 eq_refl). discriminate.
    - intros l HL. rewrite <- NR by auto. unfold c'. destruct l; try reflexivity. tauto.
    - exists (set_io_rq (S n) (x_io c2)). split; [reflexivity|]. rewrite I2, I1. simpl. unfold extended.
      destruct (exactly_grow n _ true W2) as [-> _]. destruct (exactly_grow n _ ini W3) as [-> _]. auto 10. }
  unfold bind at 1. unfold modc at 1. cbv beta iota. cbn [s_ctx s_tr]. fold c1.
  destruct ini.
  - unfold call_init, emit, ret, bind at 1 2. cbn [s_ctx s_tr]. set (c2 := act E (length tr) (EvInitRead n true) c1).
    assert (C2 : changes_only c1 c2 (in_place n)) by apply PI. destruct (near_modules n _ _ _ C2 (fun l H => H)) as [M1 M2].
    assert (N2 : near n c c2). { intros l HL. rewrite C2 by tauto. apply N1. auto. }
    destruct (ext_ok E (length tr)) eqn:EO.
    + unfold bind, modc, ret. simpl. destruct (DONE c2 N2 (exactly_size _ _ _ X1 M1) M2) as [D1 D2].
      eexists true, _. split; [reflexivity|]. split; [exact D1|]. split; [tauto|]. split; [intros _; exact D2|discriminate].
    + unfold bind, modc, emit, set_err, ret. simpl. set (c3 := act E (S (length tr)) (EvInitRead n false) c2).
      assert (C3 : changes_only c2 c3 (in_place n)) by apply PI. destruct (near_modules n _ _ _ C3 (fun l H => H)) as [M3 M4].
      destruct (FAIL E_FAIL (set_x_in (shrink n (x_in c3)) (set_x_io (set_io_rd (shrink n (io_rd (x_io c3))) (set_io_ird (shrink n (io_ird (x_io c3))) (x_io c3))) c3))) as [F1 F2].
      { apply undo_in; auto.
        - intros l HL. rewrite C3 by tauto. apply N2. auto.
        - eapply exactly_size; [|exact M3]. eapply exactly_size; [exact X1|exact M1].
        - exists true. rewrite M4, M2. exact I1. }
      eexists false, _. split; [reflexivity|]. split; [exact F1|]. split; [|split; [discriminate|intros _; exact F2]].
      split; [discriminate|]. intros (_ & _ & _ & K). specialize (K eq_refl). congruence.
  - unfold ret at 1, bind at 1. unfold bind, modc, ret. simpl. destruct (DONE c1 N1 X1 eq_refl) as [D1 D2].
    eexists true, _. split; [reflexivity|]. split; [exact D1|]. split; [intuition discriminate|]. split; [intros _; exact D2|discriminate].
Qed.
(** C38: adding a write module always returns; it succeeds exactly if a function is given, fewer than 255 modules exist, the
    memory is available and the initialisation function, if any, agrees. Success appends one module and keeps all others;
    failure changes nothing but the last error. *)
Lemma C38_write_l : forall E alloc fn ini s io, polite_init E -> writes_wf (s_ctx s) -> peek (s_ctx s) LIo = Some (VIo io) ->
  let n := io_wq io in
  exists b s', add_write_fn E alloc fn ini s = Ok (b, s') /\ writes_wf (s_ctx s')
  /\ (b = true <-> fn = true /\ (n < 255)%nat /\ (forall k, (k < 3)%nat -> alloc k = true) /\ (ini = true -> ext_ok E (length (s_tr s)) = true))
  /\ (b = true -> peek (s_ctx s') LOutCount = Some (VN (S n))
       /\ changes_only (s_ctx s) (s_ctx s') (fun l => out_place n l \/ l = LOutCount \/ l = LIo)
       /\ exists io', peek (s_ctx s') LIo = Some (VIo io') /\ io_wq io' = S n /\ extended (io_wr io) (io_wr io') true
            /\ extended (io_iwr io) (io_iwr io') ini /\ io_rq io' = io_rq io /\ io_rd io' = io_rd io /\ io_ird io' = io_ird io)
  /\ (b = false -> changes_only (s_ctx s) (s_ctx s') (fun l => l = LErr)).
Proof.
  intros E alloc fn ini [c tr] io (_ & PI) W HI. cbn [s_ctx s_tr] in *. simpl in HI. injection HI as <-. set (n := io_wq (x_io c)) in *.
  assert (FAIL : forall e c0, unchanged c c0 -> writes_wf (set_last_err e c0) /\ changes_only c (set_last_err e c0) (fun l => l = LErr)).
  { intros e c0 U. pose proof (err_only' c c0 e U) as K. split; auto. eapply writes_wf_keep; eauto. }
  assert (U0 : unchanged c c) by (intros l; auto).
  pose proof W as (W1 & W2 & W3). fold n in W1, W2, W3.
  unfold add_write_fn. destruct fn; cbn [negb].
  2:{ exists false, (mk_st c tr). split; [reflexivity|]. split; [auto|]. split; [intuition discriminate|]. split; [discriminate|]. intros _ l _. auto. }
  unfold bind at 1. unfold getc at 1. cbv beta iota. cbn [s_ctx]. fold n.
  destruct (255 <=? n)%nat eqn:Q.
  { destruct (FAIL E_OUTOFRANGE c U0). apply Nat.leb_le in Q. eexists false, _. split; [reflexivity|]. split; [auto|]. split; [|split; [discriminate|auto]].
    split; [discriminate|]. intros (_ & K & _). lia. }
  destruct (alloc 0%nat) eqn:A0; cbn [negb].
  2:{ destruct (FAIL E_FAIL c U0). eexists false, _. split; [reflexivity|]. split; [auto|]. split; [|split; [discriminate|auto]].
      split; [discriminate|]. intros (_ & _ & K & _). rewrite K in A0 by lia. discriminate. }
  destruct (alloc 1%nat) eqn:A1; cbn [negb].
  2:{ destruct (FAIL E_FAIL (set_x_io (set_io_wr (shrink n (io_wr (x_io c))) (x_io c)) c)) as [F1 F2].
      { rewrite exactly_shrink by auto. intros l. destruct l; try reflexivity. simpl. now destruct (x_io c). }
      eexists false, _. split; [reflexivity|]. split; [auto|]. split; [|split; [discriminate|auto]].
      split; [discriminate|]. intros (_ & _ & K & _). rewrite K in A1 by lia. discriminate. }
  destruct (alloc 2%nat) eqn:A2; cbn [negb].
  2:{ destruct (FAIL E_FAIL (set_x_io (set_io_wr (shrink n (io_wr (x_io c))) (set_io_iwr (shrink n (io_iwr (x_io c))) (x_io c))) c)) as [F1 F2].
      { rewrite !exactly_shrink by auto. intros l. destruct l; try reflexivity. simpl. now destruct (x_io c). }
      eexists false, _. split; [reflexivity|]. split; [auto|]. split; [|split; [discriminate|auto]].
      split; [discriminate|]. intros (_ & _ & K & _). rewrite K in A2 by lia. discriminate. }
  apply Nat.leb_gt in Q.
  assert (AL : forall k, (k < 3)%nat -> alloc k = true) by (intros [|[|[|k]]] K; auto; lia).
  set (c1 := set_x_out (grow n (x_out c) outmod0) (set_x_io (set_io_wr (grow n (io_wr (x_io c)) true) (set_io_iwr (grow n (io_iwr (x_io c)) ini) (x_io c))) c)).
  assert (N1 : near_out n c c1) by (apply grow_out; auto).
  assert (X1 : exactly (S n) (x_out c1)) by (apply exactly_grow; auto).
  assert (I1 : x_io c1 = set_io_wr (grow n (io_wr (x_io c)) true) (set_io_iwr (grow n (io_iwr (x_io c)) ini) (x_io c))) by reflexivity.
  assert (DONE : forall c2, near_out n c c2 -> exactly (S n) (x_out c2) -> x_io c2 = x_io c1 ->
    let c' := set_x_io (set_io_wq (S n) (x_io c2)) c2 in writes_wf c' /\
     (peek c' LOutCount = Some (VN (S n)) /\ changes_only c c' (fun l => out_place n l \/ l = LOutCount \/ l = LIo)
       /\ exists io', peek c' LIo = Some (VIo io') /\ io_wq io' = S n /\ extended (io_wr (x_io c)) (io_wr io') true
            /\ extended (io_iwr (x_io c)) (io_iwr io') ini /\ io_rq io' = io_rq (x_io c) /\ io_rd io' = io_rd (x_io c) /\ io_ird io' = io_ird (x_io c))).
  { intros c2 NR X2 I2 c'. split; [|split; [|split]].
    - unfold writes_wf, c'. simpl. rewrite I2, I1. simpl. split; [auto|]. split; apply exactly_grow; auto.
    - unfold c'. simpl. destruct X2 as [X2 X3]. destruct (x_out c2); [simpl in *; now rewrite X2|]. destruct X3 as [X3 _]. specialize (X3 eq_refl). discriminate.
    - intros l HL. rewrite <- NR by auto. unfold c'. destruct l; try reflexivity. tauto.
    - exists (set_io_wq (S n) (x_io c2)). split; [reflexivity|]. rewrite I2, I1. simpl. unfold extended.
      destruct (exactly_grow n _ true W2) as [-> _]. destruct (exactly_grow n _ ini W3) as [-> _]. auto 10. }
  unfold bind at 1. unfold modc at 1. cbv beta iota. cbn [s_ctx s_tr]. fold c1.
  destruct ini.
  - unfold call_init, emit, ret, bind at 1 2. cbn [s_ctx s_tr]. set (c2 := act E (length tr) (EvInitWrite n true) c1).
    assert (C2 : changes_only c1 c2 (out_place n)) by apply PI. destruct (near_modules_out n _ _ _ C2 (fun l H => H)) as [M1 M2].
    assert (N2 : near_out n c c2). { intros l HL. rewrite C2 by tauto. apply N1. auto. }
    destruct (ext_ok E (length tr)) eqn:EO.
    + unfold bind, modc, ret. simpl. destruct (DONE c2 N2 (exactly_size _ _ _ X1 M1) M2) as [D1 D2].
      eexists true, _. split; [reflexivity|]. split; [exact D1|]. split; [tauto|]. split; [intros _; exact D2|discriminate].
    + unfold bind, modc, emit, set_err, ret. simpl. set (c3 := act E (S (length tr)) (EvInitWrite n false) c2).
      assert (C3 : changes_only c2 c3 (out_place n)) by apply PI. destruct (near_modules_out n _ _ _ C3 (fun l H => H)) as [M3 M4].
      destruct (FAIL E_FAIL (set_x_out (shrink n (x_out c3)) (set_x_io (set_io_wr (shrink n (io_wr (x_io c3))) (set_io_iwr (shrink n (io_iwr (x_io c3))) (x_io c3))) c3))) as [F1 F2].
      { apply undo_out; auto.
        - intros l HL. rewrite C3 by tauto. apply N2. auto.
        - eapply exactly_size; [|exact M3]. eapply exactly_size; [exact X1|exact M1].
        - exists true. rewrite M4, M2. exact I1. }
      eexists false, _. split; [reflexivity|]. split; [exact F1|]. split; [|split; [discriminate|intros _; exact F2]].
      split; [discriminate|]. intros (_ & _ & _ & K). specialize (K eq_refl). congruence.
  - unfold ret at 1, bind at 1. unfold bind, modc, ret. simpl. destruct (DONE c1 N1 X1 eq_refl) as [D1 D2].
    eexists true, _. split; [reflexivity|]. split; [exact D1|]. split; [intuition discriminate|]. split; [intros _; exact D2|discriminate].
Qed.

(** C38: a series of requests adds as many read modules as were reported successful, and never more than 255 exist. *)
Lemma C38_reads_l : forall E bs s s' io, polite_init E -> reads_wf (s_ctx s) -> peek (s_ctx s) LIo = Some (VIo io) -> (io_rq io <= 255)%nat ->
  adds_read E bs s s' -> reads_wf (s_ctx s') /\ exists io', peek (s_ctx s') LIo = Some (VIo io') /\ io_rq io' = (io_rq io + successes bs)%nat /\ (io_rq io' <= 255)%nat
    /\ forall m k i, (m < io_rq io)%nat -> peek (s_ctx s') (LInMeta m) = peek (s_ctx s) (LInMeta m) /\ peek (s_ctx s') (LIn m k i) = peek (s_ctx s) (LIn m k i).
Proof.
  intros E bs s s' io PI W HI LE H. revert io W HI LE. induction H as [s|alloc fn ini b s s1 s2 bs H1 H2 IH]; intros io W HI LE.
  - split; auto. exists io. unfold successes. simpl. rewrite Nat.add_0_r. auto.
  - destruct (C38_read_l E alloc fn ini s io PI W HI) as (b' & s1' & A & W1 & B & T & F). rewrite H1 in A. injection A as <- <-. destruct b.
    + destruct T as (_ & T2 & io1 & T3 & T4 & _); [auto|]. destruct B as [B _]. specialize (B eq_refl).
      destruct (IH io1 W1 T3) as (W2 & io2 & P1 & P2 & P3 & P4); [lia|]. split; auto. exists io2. unfold successes in *. cbn [filter length]. split; auto. split; [lia|]. split; auto.
      intros m k i M. destruct (P4 m k i) as [P5 P6]; [lia|]. rewrite P5, P6. split; apply T2; intros K; unfold in_place in K; decompose [ex or] K; try discriminate; assert (m = io_rq io) by congruence; lia.
    + specialize (F eq_refl). assert (HI1 : peek (s_ctx s1) LIo = Some (VIo io)) by (rewrite F by discriminate; auto).
      destruct (IH io W1 HI1 LE) as (W2 & io2 & P1 & P2 & P3 & P4). split; auto. exists io2. unfold successes in *. cbn [filter length]. split; auto. split; auto. split; auto.
      intros m k i M. destruct (P4 m k i M) as [P5 P6]. rewrite P5, P6. split; apply F; discriminate.
Qed.
(** C38: the same for write modules. *)
Lemma C38_writes_l : forall E bs s s' io, polite_init E -> writes_wf (s_ctx s) -> peek (s_ctx s) LIo = Some (VIo io) -> (io_wq io <= 255)%nat ->
  adds_write E bs s s' -> writes_wf (s_ctx s') /\ exists io', peek (s_ctx s') LIo = Some (VIo io') /\ io_wq io' = (io_wq io + successes bs)%nat /\ (io_wq io' <= 255)%nat
    /\ forall m k i, (m < io_wq io)%nat -> peek (s_ctx s') (LOutMeta m) = peek (s_ctx s) (LOutMeta m) /\ peek (s_ctx s') (LOut m k i) = peek (s_ctx s) (LOut m k i).
Proof.
  intros E bs s s' io PI W HI LE H. revert io W HI LE. induction H as [s|alloc fn ini b s s1 s2 bs H1 H2 IH]; intros io W HI LE.
  - split; auto. exists io. unfold successes. simpl. rewrite Nat.add_0_r. auto.
  - destruct (C38_write_l E alloc fn ini s io PI W HI) as (b' & s1' & A & W1 & B & T & F). rewrite H1 in A. injection A as <- <-. destruct b.
    + destruct T as (_ & T2 & io1 & T3 & T4 & _); [auto|]. destruct B as [B _]. specialize (B eq_refl).
      destruct (IH io1 W1 T3) as (W2 & io2 & P1 & P2 & P3 & P4); [lia|]. split; auto. exists io2. unfold successes in *. cbn [filter length]. split; auto. split; [lia|]. split; auto.
      intros m k i M. destruct (P4 m k i) as [P5 P6]; [lia|]. rewrite P5, P6. split; apply T2; intros K; unfold out_place in K; decompose [ex or] K; try discriminate; assert (m = io_wq io) by congruence; lia.
    + specialize (F eq_refl). assert (HI1 : peek (s_ctx s1) LIo = Some (VIo io)) by (rewrite F by discriminate; auto).
      destruct (IH io W1 HI1 LE) as (W2 & io2 & P1 & P2 & P3 & P4). split; auto. exists io2. unfold successes in *. cbn [filter length]. split; auto. split; auto. split; auto.
      intros m k i M. destruct (P4 m k i M) as [P5 P6]. rewrite P5, P6. split; apply F; discriminate.
Qed.
(*EX
(* A module with initialisation function is added to the freshly initialised context, then one whose memory is refused. *)
Example C38_case :
  polite_init quiet_env /\ reads_wf demo_init
  /\ exists s1 s2, add_read_fn quiet_env (fun _ => true) true true (start demo_init) = Ok (true, s1)
     /\ add_read_fn quiet_env (fun k => (k <? 2)%nat) true true s1 = Ok (false, s2)
     /\ adds_read quiet_env [true; false] (start demo_init) s2
     /\ peek (s_ctx s2) LInCount = Some (VN 1) /\ peek (s_ctx s2) LErr = Some (VErr E_FAIL).
Proof.
  split; [split; intros; intros l _; reflexivity|]. split; [unfold reads_wf, exactly; simpl; tauto|].
  eexists. eexists. split; [vm_compute; reflexivity|]. split; [vm_compute; reflexivity|]. split.
  - eapply ar_more with (alloc := fun _ => true) (fn := true) (ini := true); [vm_compute; reflexivity|].
    eapply ar_more with (alloc := fun k => (k <? 2)%nat) (fn := true) (ini := true); [vm_compute; reflexivity|]. constructor.
  - split; reflexivity.
Qed.
EX*)

(** ** C47 *)

(** C47: when the foreign functions counted are exactly those stored, a request that succeeds was within the limit of 100
    (in 32-bit arithmetic), appends one function, whose initialisation was told the previous count as its id, and keeps the
    others; a request that fails leaves all registered functions as they were. Nothing but the last error changes otherwise. *)
Lemma C47_adds_l : forall E alloc fn n s f, polite_foreign E -> peek (s_ctx s) LForeign = Some (VForeign f) -> exactly (fo_qty f) (fo_fn f) ->
  exists b s', add_foreign E alloc fn n s = Ok (b, s')
  /\ (b = true -> fn = true /\ n <> 0 /\ (Z.of_nat (fo_qty f) + n) mod 2 ^ 32 <= 100
       /\ exists d, finit E (length (s_tr s)) (mk_fdesc (Z.of_nat (fo_qty f)) (mk_iocd 0 0 0 0) false) = (true, d)
          /\ peek (s_ctx s') LForeign = Some (VForeign (mk_foreign (S (fo_qty f)) (Some (match fo_fn f with None => [] | Some l => l end ++ [d]))))
          /\ changes_only (s_ctx s) (s_ctx s') (fun l => l = LForeign))
  /\ (b = false -> changes_only (s_ctx s) (s_ctx s') (fun l => l = LErr)).
Proof.
  intros E alloc fn n [c tr] f PF HF EX. cbn [s_ctx s_tr] in *. simpl in HF. injection HF as <-. unfold add_foreign. destruct fn; cbn [negb].
  2:{ exists false. eexists. split; [reflexivity|]. split; [discriminate|]. intros _ l _. auto. }
  unfold bind at 1. unfold getc at 1. cbv beta iota. cbn [s_ctx].
  destruct ((n =? 0) || (100 <? u32 (Z.of_nat (fo_qty (x_for c)) + n))) eqn:G.
  - exists false. eexists. split; [reflexivity|]. split; [discriminate|]. intros _. apply (err_only c E_OUTOFRANGE).
  - apply orb_false_iff in G as [G1 G2]. apply Z.eqb_neq in G1. apply Z.ltb_ge in G2. unfold bind, emit, ret. cbn [s_ctx s_tr]. rewrite PF by exact I.
    destruct (finit E (length tr) (mk_fdesc (Z.of_nat (fo_qty (x_for c))) (mk_iocd 0 0 0 0) false)) as [good d] eqn:FI.
    destruct (good && alloc) eqn:GA.
    + apply andb_true_iff in GA as [-> _]. exists true. eexists. split; [reflexivity|]. split; [|discriminate]. intros _. split; auto. split; auto. split; auto.
      exists d. split; auto. split.
      * simpl. destruct (exactly_grow _ _ d EX) as [-> _]. reflexivity.
      * intros l HL. destruct l; try reflexivity. now contradiction HL.
    + exists false. destruct (f_deinit d).
      * cbn [s_ctx s_tr]. rewrite PF by exact I. eexists. split; [reflexivity|]. split; [discriminate|]. intros _ l _. reflexivity.
      * eexists. split; [reflexivity|]. split; [discriminate|]. intros _ l _. reflexivity.
Qed.
(** C47: hence the limit holds after any series of requests for at most 100 functions each. *)
Lemma C47_limit_l : forall E alloc fn n s s' f, polite_foreign E -> peek (s_ctx s) LForeign = Some (VForeign f) -> exactly (fo_qty f) (fo_fn f) ->
  (fo_qty f <= 100)%nat -> 0 <= n <= 2 ^ 32 - 101 -> add_foreign E alloc fn n s = Ok (true, s') ->
  exists f', peek (s_ctx s') LForeign = Some (VForeign f') /\ (fo_qty f' <= 100)%nat /\ exactly (fo_qty f') (fo_fn f').
Proof.
  intros E alloc fn n s s' f PF HF EX LE N H. destruct (C47_adds_l E alloc fn n s f PF HF EX) as (b & s1 & A & T & _). rewrite H in A. injection A as <- <-.
  destruct T as (_ & N0 & LT & d & _ & P & _); [auto|]. rewrite Z.mod_small in LT by lia. eexists. split; [exact P|]. cbn [fo_qty fo_fn]. split; [lia|].
  destruct EX as [EX _]. split; [rewrite app_length; simpl length at 2; lia|]. split; [discriminate|lia].
Qed.
(** C47, finding: the limit is computed modulo 2^32, so with 100 functions registered a request for 2^32 - 1 more is accepted
    and a 101st is stored. *)
Lemma C47_limit_refuted_l : exists E c s', polite_foreign E /\ (exists f, peek c LForeign = Some (VForeign f) /\ exactly (fo_qty f) (fo_fn f) /\ fo_qty f = 100%nat)
  /\ add_foreign E true true (2 ^ 32 - 1) (start c) = Ok (true, s')
  /\ exists f, peek (s_ctx s') LForeign = Some (VForeign f) /\ fo_qty f = 101%nat.
Proof.
  exists quiet_env, (set_x_for (mk_foreign 100 (Some (repeat (mk_fdesc 0 (mk_iocd 1 1 1 0) false) 100))) demo_init). eexists.
  split; [intros k ev c H; reflexivity|]. split; [eexists; split; [reflexivity|]; split; [split; [reflexivity|]; split; discriminate|reflexivity]|].
  split; [vm_compute; reflexivity|]. eexists. split; reflexivity.
Qed.
(*EX
Example C47_case : polite_foreign quiet_env /\ exists s', add_foreign quiet_env true true 1 (start demo_init) = Ok (true, s')
  /\ peek (s_ctx s') LForeign = Some (VForeign (mk_foreign 1 (Some [mk_fdesc 0 (mk_iocd 0 0 0 0) false])))
  /\ exists s2, add_foreign quiet_env true true 200 s' = Ok (false, s2) /\ peek (s_ctx s2) LForeign = peek (s_ctx s') LForeign.
Proof. split; [intros k ev c H; reflexivity|]. eexists. split; [vm_compute; reflexivity|]. split; [reflexivity|]. eexists. split; [vm_compute; reflexivity|reflexivity]. Qed.
EX*)
