(** What the copies between values and histories do. *)
From Verif Require Export Trace P_Setup.

Local Arguments Nat.ltb : simpl never.
Local Arguments Nat.leb : simpl never.

(** ** Output modules *)
Definition hist (k : ok) : ok := match k with K_Q | K_Qh => K_Qh | K_QW | K_QWh => K_QWh end.
Definition is_hist (k : ok) : bool := match k with K_Qh | K_QWh => true | _ => false end.
Definition out_same (a b : outmod) : Prop :=
  o_id b = o_id a /\ o_qq b = o_qq a /\ o_qwq b = o_qwq a /\ forall k, size (out_arr k b) = size (out_arr k a).
Definition out_sized (om : outmod) : Prop := forall k, is_null (out_arr k om) = true \/ arr_ok (out_arr k om) (ports (o_qq om) (o_qwq om) k).
Definition has (p : arr) : bool := negb (is_null p).

Lemma upd_out_ok f (G : outmod -> ok -> nat -> option Z) c : outs_sized c ->
  (forall om, out_sized om -> exists om', f om = Ok om' /\ out_same om om' /\ forall k i, elem (out_arr k om') i = G om k i) ->
  exists c', upd_out f c = Ok c'
    /\ (forall m om k i, (m < io_wq (x_io c))%nat -> elem (x_out c) m = Some om -> peek c' (LOut m k i) = option_map VZ (G om k i))
    /\ (forall l, (forall m k i, l <> LOut m k i) -> peek c' l = peek c l)
    /\ (forall m k i, (io_wq (x_io c) <= m)%nat -> peek c' (LOut m k i) = peek c (LOut m k i)).
Proof.
  intros OS HF. unfold upd_out. destruct (is_null (x_out c)) eqn:NU.
  - exists c. split; auto. split; [|auto]. intros m om k i M H. destruct (x_out c); [discriminate|]. discriminate.
  - destruct OS as [OS|OS]; [simpl in OS; destruct (x_out c); discriminate|].
    assert (MM : forall m, (m < io_wq (x_io c))%nat -> exists om om', elem (x_out c) m = Some om /\ f om = Ok om' /\ out_same om om'
      /\ forall k i, elem (out_arr k om') i = G om k i).
    { intros m M. destruct (OS m M) as (id & qd & qa & ME & LE). simpl in ME, LE. destruct (elem (x_out c) m) as [om|]; [|discriminate]. simpl in *.
      injection ME as <- <- <-. destruct (HF om) as (om' & K); [intros k; apply size_arr, LE|]. exists om, om'. auto. }
    destruct (pmap_first_ok (io_wq (x_io c)) f (x_out c)) as [o HO].
    { intros m M. destruct (MM m M) as (om & om' & A & B & _). eauto. }
    rewrite HO. simpl. eexists. split; [reflexivity|]. apply pmap_first_spec in HO as (O1 & O2).
    assert (OE : forall m, (m < io_wq (x_io c))%nat -> exists om om', elem (x_out c) m = Some om /\ elem o m = Some om' /\ out_same om om'
      /\ forall k i, elem (out_arr k om') i = G om k i).
    { intros m M. destruct (MM m M) as (om & om' & A & B & D). exists om, om'. split; auto. split; auto. specialize (O2 m). rewrite A in O2.
      rewrite (proj2 (Nat.ltb_lt _ _) M) in O2. destruct O2 as (y & Y & O2). congruence. }
    assert (OO : forall m, (io_wq (x_io c) <= m)%nat -> elem o m = elem (x_out c) m).
    { intros m M. specialize (O2 m). rewrite (proj2 (Nat.ltb_ge _ _) M) in O2. destruct (elem (x_out c) m); auto. }
    split; [|split].
    + intros m om k i M H. destruct (OE m M) as (om1 & om' & A & B & _ & D). rewrite A in H. injection H as ->. simpl. rewrite B. simpl. now rewrite D.
    + intros l HL. destruct l; try reflexivity.
      * now contradiction (HL m k i).
      * simpl. destruct (Nat.lt_ge_cases m (io_wq (x_io c))) as [M|M]; [|now rewrite (OO m M)]. destruct (OE m M) as (om & om' & -> & -> & (_ & _ & _ & K) & _). simpl. auto.
      * simpl. destruct (Nat.lt_ge_cases m (io_wq (x_io c))) as [M|M]; [|now rewrite (OO m M)]. destruct (OE m M) as (om & om' & -> & -> & (K1 & K2 & K3 & _) & _). simpl. congruence.
      * simpl. auto.
    + intros m k i M. simpl. now rewrite OO.
Qed.

Definition g_save (om : outmod) (k : ok) (i : nat) : option Z :=
  if is_hist k && ((i <? ports (o_qq om) (o_qwq om) k)%nat && has (out_arr (current k) om) && has (out_arr k om))
  then elem (out_arr (current k) om) i else elem (out_arr k om) i.
Lemma out_save_ok om : out_sized om -> exists om', out_save om = Ok om' /\ out_same om om' /\ forall k i, elem (out_arr k om') i = g_save om k i.
Proof.
  intros A. unfold out_save.
  destruct (copy_if_ok (o_Qh om) (o_Q om) (o_qq om) (A K_Q) (A K_Qh)) as (qh & H1 & H2 & H3).
  destruct (copy_if_ok (o_QWh om) (o_QW om) (o_qwq om) (A K_QW) (A K_QWh)) as (wh & V1 & V2 & V3).
  rewrite H1. simpl. rewrite V1. simpl. eexists. split; [reflexivity|]. split.
  - repeat split. intros []; simpl; auto.
  - intros [] i; unfold g_save, has; simpl; auto; rewrite ?H3, ?V3; reflexivity.
Qed.
(** Copies of the task loop: digital ports first, analog ones only if that was possible. *)
Lemma pmemcpy_copy_if dst src n : is_null src = false -> is_null dst = false -> pmemcpy dst src n = copy_if dst src n.
Proof. intros A B. unfold copy_if. now rewrite A, B. Qed.
Definition dig (om : outmod) : bool := (0 <? o_qq om)%nat && has (o_Q om) && has (o_Qh om).
Lemma dig_spec om : (o_qq om =? 0)%nat || is_null (o_Q om) || is_null (o_Qh om) = negb (dig om).
Proof. unfold dig, has. rewrite !negb_andb, !negb_involutive. f_equal. f_equal. destruct (o_qq om); reflexivity. Qed.
Lemma ana_spec n (a b : arr) : (n =? 0)%nat || is_null a || is_null b = negb ((0 <? n)%nat && has a && has b).
Proof. unfold has. rewrite !negb_andb, !negb_involutive. f_equal. f_equal. destruct n; reflexivity. Qed.
Definition g_hist (om : outmod) (k : ok) (i : nat) : option Z := if dig om then g_save om k i else elem (out_arr k om) i.
Lemma out_hist_ok om : out_sized om -> exists om', out_hist om = Ok om' /\ out_same om om' /\ forall k i, elem (out_arr k om') i = g_hist om k i.
Proof.
  intros A. unfold out_hist. rewrite dig_spec. unfold g_hist. destruct (dig om) eqn:D; cbn [negb].
  2:{ exists om. split; auto. split; [repeat split|]; auto. }
  destruct (copy_if_ok (o_Qh om) (o_Q om) (o_qq om) (A K_Q) (A K_Qh)) as (qh & H1 & H2 & H3).
  destruct (copy_if_ok (o_QWh om) (o_QW om) (o_qwq om) (A K_QW) (A K_QWh)) as (wh & V1 & V2 & V3).
  unfold dig, has in D. apply andb_prop in D as [D D3]. apply andb_prop in D as [D1 D2]. apply negb_true_iff in D2, D3.
  rewrite pmemcpy_copy_if, H1 by auto. cbn [rbind]. cbn [o_qwq o_QW o_QWh set_o_Qh].
  rewrite ana_spec. destruct ((0 <? o_qwq om)%nat && has (o_QW om) && has (o_QWh om)) eqn:N; cbn [negb].
  - pose proof N as N'. unfold has in N. apply andb_prop in N as [N N3]. apply andb_prop in N as [N1 N2]. apply negb_true_iff in N2, N3.
    rewrite pmemcpy_copy_if, V1 by auto. cbn [rbind]. eexists. split; [reflexivity|]. split.
    + repeat split. intros []; simpl; auto.
    + intros [] i; unfold g_save, has; simpl; auto; rewrite ?H3, ?V3; reflexivity.
  - eexists. split; [reflexivity|]. split.
    + repeat split. intros []; simpl; auto.
    + intros [] i; unfold g_save, has; simpl; auto; rewrite ?H3, ?V3; try reflexivity.
      unfold has in N. destruct (o_qwq om) as [|q]; [reflexivity|]. change (0 <? S q)%nat with true in N. cbn [andb] in N. rewrite <- andb_assoc, N, andb_false_r. reflexivity.
Qed.
Definition g_revert (om : outmod) (k : ok) (i : nat) : option Z :=
  if dig om && negb (is_hist k) && ((i <? ports (o_qq om) (o_qwq om) k)%nat && has (out_arr (hist k) om) && has (out_arr k om))
  then elem (out_arr (hist k) om) i else elem (out_arr k om) i.
Lemma out_revert_ok om : out_sized om -> exists om', out_revert om = Ok om' /\ out_same om om' /\ forall k i, elem (out_arr k om') i = g_revert om k i.
Proof.
  intros A. unfold out_revert. rewrite dig_spec. unfold g_revert. destruct (dig om) eqn:D; cbn [negb andb].
  2:{ exists om. split; auto. split; [repeat split|]; auto. }
  destruct (copy_if_ok (o_Q om) (o_Qh om) (o_qq om) (A K_Qh) (A K_Q)) as (qh & H1 & H2 & H3).
  destruct (copy_if_ok (o_QW om) (o_QWh om) (o_qwq om) (A K_QWh) (A K_QW)) as (wh & V1 & V2 & V3).
  unfold dig, has in D. apply andb_prop in D as [D D3]. apply andb_prop in D as [D1 D2]. apply negb_true_iff in D2, D3.
  rewrite pmemcpy_copy_if, H1 by auto. cbn [rbind]. cbn [o_qwq o_QW o_QWh set_o_Q].
  rewrite ana_spec. destruct ((0 <? o_qwq om)%nat && has (o_QW om) && has (o_QWh om)) eqn:N; cbn [negb].
  - pose proof N as N'. unfold has in N. apply andb_prop in N as [N N3]. apply andb_prop in N as [N1 N2]. apply negb_true_iff in N2, N3.
    rewrite pmemcpy_copy_if, V1 by auto. cbn [rbind]. eexists. split; [reflexivity|]. split.
    + repeat split. intros []; simpl; auto.
    + intros [] i; unfold has; simpl; auto; rewrite ?H3, ?V3; reflexivity.
  - eexists. split; [reflexivity|]. split.
    + repeat split. intros []; simpl; auto.
    + intros [] i; unfold has; simpl; auto; rewrite ?H3, ?V3; try reflexivity.
      unfold has in N. destruct (o_qwq om) as [|q]; [reflexivity|]. change (0 <? S q)%nat with true in N. cbn [andb] in N.
      rewrite <- andb_assoc, (andb_comm (negb (is_null (o_QWh om)))), N, andb_false_r. reflexivity.
Qed.
(** Zeroing of the outputs; histories only if there are analog outputs. *)
Definition dig0 (om : outmod) : bool := (0 <? o_qq om)%nat && has (o_Q om).
Definition ana0 (om : outmod) : bool := (0 <? o_qwq om)%nat && has (o_QW om).
Definition g_clear (om : outmod) (k : ok) (i : nat) : option Z :=
  if dig0 om && (i <? ports (o_qq om) (o_qwq om) k)%nat && has (out_arr k om) && match k with K_Q => true | K_QW | K_Qh | K_QWh => ana0 om end
  then Some 0 else elem (out_arr k om) i.
Lemma pmemset_ok p n : is_null p = true \/ arr_ok p n -> is_null p = false -> exists p', pmemset0 p n = Ok p' /\ size p' = size p /\ is_null p' = false
    /\ forall i, elem p' i = if (i <? n)%nat then Some 0 else elem p i.
Proof.
  intros [A|A] N; [congruence|]. destruct (memset_ok _ _ A) as (p' & P1 & P2 & P3). exists p'. split; auto. split; auto. split; auto.
  destruct p, p'; simpl in *; try discriminate; auto.
Qed.
Lemma sized_arr' (p p' : arr) n : size p' = size p -> is_null p = true \/ arr_ok p n -> is_null p' = true \/ arr_ok p' n.
Proof.
  intros S0 [A|(l & -> & A)]; destruct p' as [l'|]; auto; [destruct p; discriminate|]. right. exists l'. split; auto. simpl in S0. injection S0 as S0. lia.
Qed.
Lemma out_clear_ok om : out_sized om -> exists om', out_clear om = Ok om' /\ out_same om om' /\ forall k i, elem (out_arr k om') i = g_clear om k i.
Proof.
  intros A. unfold out_clear, g_clear.
  assert (D0 : (o_qq om =? 0)%nat || is_null (o_Q om) = negb (dig0 om)).
  { unfold dig0, has. rewrite negb_andb, negb_involutive. f_equal. destruct (o_qq om); reflexivity. }
  rewrite D0. destruct (dig0 om) eqn:D; cbn [negb andb].
  2:{ exists om. split; auto. split; [repeat split|]; auto. }
  unfold dig0, has in D. apply andb_prop in D as [D1 D2]. apply negb_true_iff in D2.
  destruct (pmemset_ok _ _ (A K_Q) D2) as (q & Q1 & Q2 & Q3 & Q4). cbn [out_arr ports] in Q1, Q2, Q4. rewrite Q1. cbn [rbind]. cbn [o_qwq o_QW set_o_Q].
  assert (A0 : (o_qwq om =? 0)%nat || is_null (o_QW om) = negb (ana0 om)).
  { unfold ana0, has. rewrite negb_andb, negb_involutive. f_equal. destruct (o_qwq om); reflexivity. }
  rewrite A0. destruct (ana0 om) eqn:N; cbn [negb].
  2:{ eexists. split; [reflexivity|]. split; [repeat split; intros []; simpl; auto|].
      intros [] i; unfold has; simpl; rewrite ?andb_false_r; auto. rewrite Q4, D2. cbn [negb]. now rewrite !andb_true_r. }
  unfold ana0, has in N. apply andb_prop in N as [N1 N2]. apply negb_true_iff in N2.
  destruct (pmemset_ok _ _ (A K_QW) N2) as (w & W1 & W2 & W3 & W4). cbn [out_arr ports] in W1, W2, W4. rewrite W1. cbn [rbind o_qwq o_qq o_Q o_QW o_Qh o_QWh set_o_Q set_o_QW].
  destruct (copy_if_ok (o_Qh om) q (o_qq om) (sized_arr' _ _ _ Q2 (A K_Q)) (A K_Qh)) as (qh & H1 & H2 & H3).
  destruct (copy_if_ok (o_QWh om) w (o_qwq om) (sized_arr' _ _ _ W2 (A K_QW)) (A K_QWh)) as (wh & V1 & V2 & V3).
  rewrite H1. cbn [rbind]. rewrite V1. cbn [rbind]. eexists. split; [reflexivity|]. split; [repeat split; intros []; simpl; auto|].
  rewrite Q3 in H3. rewrite W3 in V3.
  intros [] i; unfold has; simpl; rewrite ?andb_true_r; auto.
  - now rewrite Q4, D2, andb_true_r.
  - now rewrite W4, N2, andb_true_r.
  - rewrite H3, Q4. cbn [negb]. rewrite andb_true_r. destruct (i <? o_qq om)%nat, (is_null (o_Qh om)); reflexivity.
  - rewrite V3, W4. cbn [negb]. rewrite andb_true_r. destruct (i <? o_qwq om)%nat, (is_null (o_QWh om)); reflexivity.
Qed.

(** ** Ports of output modules *)
Lemma has_len p : has p = true <-> size p <> None.
Proof. destruct p; unfold has; simpl; split; intros H; try discriminate; auto. Qed.
Lemma out_sized_of c m : outs_sized c -> (m < io_wq (x_io c))%nat -> forall om, elem (x_out c) m = Some om -> out_sized om.
Proof.
  intros [H|H] M om HM.
  - simpl in H. destruct (x_out c); discriminate.
  - destruct (H m M) as (id & qd & qa & ME & LE). simpl in ME, LE. rewrite HM in *. simpl in *. injection ME as <- <- <-. intros k. apply size_arr, LE.
Qed.
Lemma out_place_iff c m om k i : (m < io_wq (x_io c))%nat -> elem (x_out c) m = Some om ->
  (output_place c (LOut m k i) <-> is_hist k = false /\ (i < ports (o_qq om) (o_qwq om) k)%nat /\ has (out_arr k om) = true /\ has (out_arr (hist k) om) = true).
Proof.
  intros M HM. rewrite !has_len. split.
  - intros (m' & id & qd & qa & i' & _ & ME & [(Q & L & A & B)|(Q & L & A & B)]); injection Q as <- -> <-; simpl in ME, A, B; rewrite HM in *; simpl in *;
      injection ME as <- <- <-; auto.
  - intros (K & L & A & B). exists m, (o_id om), (o_qq om), (o_qwq om), i. split; auto. simpl. rewrite HM. simpl. split; auto.
    destruct k; try discriminate; simpl in *; auto 10.
Qed.
Lemma with_digital_iff c m om k i : elem (x_out c) m = Some om -> (with_digital c (LOut m k i) <-> dig om = true).
Proof.
  intros HM. unfold dig. simpl. rewrite HM. simpl. rewrite !andb_true_iff, !has_len, Nat.ltb_lt. split.
  - intros (id & qd & qa & ME & A & B & D). injection ME as <- <- <-. auto.
  - intros [[A B] D]. exists (o_id om), (o_qq om), (o_qwq om). auto.
Qed.
Lemma out_cases c l : (exists m k i om, l = LOut m k i /\ (m < io_wq (x_io c))%nat /\ elem (x_out c) m = Some om)
  \/ (forall m k i, l <> LOut m k i) \/ (exists m k i, l = LOut m k i /\ (io_wq (x_io c) <= m)%nat) \/ (exists m k i, l = LOut m k i /\ elem (x_out c) m = None).
Proof.
  destruct l; try (right; left; discriminate). destruct (Nat.lt_ge_cases m (io_wq (x_io c))) as [M|M]; [|right; right; left; eauto].
  destruct (elem (x_out c) m) eqn:HM; [left; eauto 10|right; right; right; eauto].
Qed.
Lemma missing_out c c' m k i : peek c' (LOutMeta m) = peek c (LOutMeta m) -> elem (x_out c) m = None -> peek c' (LOut m k i) = peek c (LOut m k i).
Proof. intros H N. simpl in *. rewrite N in *. destruct (elem (x_out c') m); [discriminate|auto]. Qed.

Lemma save_out_ok c : outs_sized c -> exists c', upd_out out_save c = Ok c' /\ remembered (output_place c) c c'.
Proof.
  intros OS. destruct (upd_out_ok out_save g_save c OS out_save_ok) as (c' & H1 & H2 & H3 & H4). exists c'. split; auto. split.
  - intros l h HL P. pose proof HL as HL0. destruct HL as (m & id & qd & qa & i & M & ME & K). simpl in ME. destruct (elem (x_out c) m) as [om|] eqn:HM; [|discriminate].
    assert (LL : exists k, l = LOut m k i) by (destruct K as [[-> _]|[-> _]]; eauto). destruct LL as [k ->]. apply (out_place_iff c m om k i M HM) in HL0 as (A & B & D & F).
    destruct k; try discriminate; injection P as <-; rewrite (H2 m om _ i M HM); unfold g_save; simpl in *; apply Nat.ltb_lt in B; rewrite B, D, F, HM; simpl; reflexivity.
  - intros l HL. destruct (out_cases c l) as [(m & k & i & om & -> & M & HM)|[N|[(m & k & i & -> & M)|(m & k & i & -> & M)]]]; auto.
    + rewrite (H2 m om k i M HM). unfold g_save. destruct (is_hist k && _) eqn:G; [exfalso|simpl; rewrite HM; reflexivity].
      apply HL. apply andb_prop in G as [G G1]. apply andb_prop in G1 as [G1 G2]. apply andb_prop in G1 as [G0 G1]. apply Nat.ltb_lt in G0.
      exists (LOut m (current k) i). split; [apply (out_place_iff c m om _ i M HM)|]; destruct k; try discriminate; simpl in *; auto.
    + apply (missing_out c c'); auto. apply H3. discriminate.
Qed.
Lemma hist_out_ok c : outs_sized c -> exists c', upd_out out_hist c = Ok c' /\ remembered (fun l => output_place c l /\ with_digital c l) c c'.
Proof.
  intros OS. destruct (upd_out_ok out_hist g_hist c OS out_hist_ok) as (c' & H1 & H2 & H3 & H4). exists c'. split; auto. split.
  - intros l h [HL WD] P. pose proof HL as HL0. destruct HL as (m & id & qd & qa & i & M & ME & K). simpl in ME. destruct (elem (x_out c) m) as [om|] eqn:HM; [|discriminate].
    assert (LL : exists k, l = LOut m k i) by (destruct K as [[-> _]|[-> _]]; eauto). destruct LL as [k ->]. apply (out_place_iff c m om k i M HM) in HL0 as (A & B & D & F).
    apply (with_digital_iff c m om k i HM) in WD.
    destruct k; try discriminate; injection P as <-; rewrite (H2 m om _ i M HM); unfold g_hist, g_save; rewrite WD; simpl in *; apply Nat.ltb_lt in B; rewrite B, D, F, HM; simpl; reflexivity.
  - intros l HL. destruct (out_cases c l) as [(m & k & i & om & -> & M & HM)|[N|[(m & k & i & -> & M)|(m & k & i & -> & M)]]]; auto.
    + rewrite (H2 m om k i M HM). unfold g_hist, g_save. destruct (dig om) eqn:DG; [|simpl; rewrite HM; reflexivity].
      destruct (is_hist k && _) eqn:G; [exfalso|simpl; rewrite HM; reflexivity].
      apply HL. apply andb_prop in G as [G G1]. apply andb_prop in G1 as [G1 G2]. apply andb_prop in G1 as [G0 G1]. apply Nat.ltb_lt in G0.
      exists (LOut m (current k) i). split; [split; [apply (out_place_iff c m om _ i M HM)|apply (with_digital_iff c m om _ i HM); auto]|]; destruct k; try discriminate; simpl in *; auto.
    + apply (missing_out c c'); auto. apply H3. discriminate.
Qed.
Lemma revert_out_ok c : outs_sized c -> exists c', upd_out out_revert c = Ok c' /\ restored (fun l => output_place c l /\ with_digital c l) c c'.
Proof.
  intros OS. destruct (upd_out_ok out_revert g_revert c OS out_revert_ok) as (c' & H1 & H2 & H3 & H4). exists c'. split; auto. split.
  - intros l h [HL WD] P. pose proof HL as HL0. destruct HL as (m & id & qd & qa & i & M & ME & K). simpl in ME. destruct (elem (x_out c) m) as [om|] eqn:HM; [|discriminate].
    assert (LL : exists k, l = LOut m k i) by (destruct K as [[-> _]|[-> _]]; eauto). destruct LL as [k ->]. apply (out_place_iff c m om k i M HM) in HL0 as (A & B & D & F).
    apply (with_digital_iff c m om k i HM) in WD.
    destruct k; try discriminate; injection P as <-; rewrite (H2 m om _ i M HM); unfold g_revert; rewrite WD; simpl in *; apply Nat.ltb_lt in B; rewrite B, D, F, HM; simpl; reflexivity.
  - intros l HL. destruct (out_cases c l) as [(m & k & i & om & -> & M & HM)|[N|[(m & k & i & -> & M)|(m & k & i & -> & M)]]]; auto.
    + rewrite (H2 m om k i M HM). unfold g_revert. destruct (dig om && _ && _) eqn:G; [exfalso|simpl; rewrite HM; reflexivity].
      apply HL. apply andb_prop in G as [G G1]. apply andb_prop in G as [G G0]. apply andb_prop in G1 as [G1 G2]. apply andb_prop in G1 as [G3 G1]. apply Nat.ltb_lt in G3.
      split; [apply (out_place_iff c m om _ i M HM)|apply (with_digital_iff c m om _ i HM); auto]; destruct k; try discriminate; simpl in *; auto.
    + apply (missing_out c c'); auto. apply H3. discriminate.
Qed.
Lemma clear_out_ok c : outs_sized c -> exists c', upd_out out_clear c = Ok c'
  /\ (forall m k i id qd qa, (m < io_wq (x_io c))%nat -> peek c (LOutMeta m) = Some (VMeta id qd qa) -> k = K_Q \/ k = K_QW -> (i < ports qd qa k)%nat ->
        peek c (LOutLen m k) <> None -> (0 < qd)%nat -> peek c (LOutLen m K_Q) <> None -> peek c' (LOut m k i) = Some (VZ 0))
  /\ changes_only c c' (fun l => exists m k i, (m < io_wq (x_io c))%nat /\ l = LOut m k i /\ peek c l <> None /\
        exists id qd qa, peek c (LOutMeta m) = Some (VMeta id qd qa) /\ (i < ports qd qa k)%nat /\ (0 < qd)%nat).
Proof.
  intros OS. destruct (upd_out_ok out_clear g_clear c OS out_clear_ok) as (c' & H1 & H2 & H3 & H4). exists c'. split; auto. split.
  - intros m k i id qd qa M ME K L LK Q0 LQ. simpl in ME, LK, LQ. destruct (elem (x_out c) m) as [om|] eqn:HM; [|discriminate]. simpl in *. injection ME as <- <- <-.
    apply has_len in LK, LQ. rewrite (H2 m om k i M HM). unfold g_clear, dig0. apply Nat.ltb_lt in Q0. rewrite Q0, LQ. pose proof L as L'. apply Nat.ltb_lt in L'. rewrite L', LK. simpl.
    destruct K as [->| ->]; auto. unfold ana0. cbn [out_arr] in LK. rewrite LK, andb_true_r. assert (X : (0 <? o_qwq om)%nat = true) by (apply Nat.ltb_lt; simpl in L; lia). now rewrite X.
  - intros l HL. destruct (out_cases c l) as [(m & k & i & om & -> & M & HM)|[N|[(m & k & i & -> & M)|(m & k & i & -> & M)]]]; auto.
    + rewrite (H2 m om k i M HM). unfold g_clear. destruct (dig0 om && _ && _ && _) eqn:G; [exfalso|simpl; rewrite HM; reflexivity].
      apply HL. exists m, k, i. split; auto. split; auto. apply andb_prop in G as [G _]. apply andb_prop in G as [G G1]. apply andb_prop in G as [G G2]. apply Nat.ltb_lt in G2.
      unfold dig0 in G. apply andb_prop in G as [G _]. apply Nat.ltb_lt in G. simpl. rewrite HM. simpl. split; [|exists (o_id om), (o_qq om), (o_qwq om); auto].
      destruct (out_sized_of c m OS M om HM k) as [A|(a & A & B)]; [unfold has in G1; rewrite A in G1; discriminate|]. rewrite A. simpl.
      destruct (nth_error a i) eqn:NE; [discriminate|]. apply nth_error_None in NE. lia.
    + apply (missing_out c c'); auto. apply H3. discriminate.
Qed.

(** ** Input modules *)
Definition in_same (a b : inmod) : Prop :=
  i_id b = i_id a /\ i_iq b = i_iq a /\ i_iwq b = i_iwq a /\ forall k, size (in_arr k b) = size (in_arr k a).
Definition in_sized (im : inmod) : Prop := forall k, is_null (in_arr k im) = true \/ arr_ok (in_arr k im) (iports (i_iq im) (i_iwq im) k).
Definition ihist (k : ik) : ik := match k with K_I | K_Ih => K_Ih | K_IW | K_IWh => K_IWh end.
Definition icur (k : ik) : ik := match k with K_I | K_Ih => K_I | K_IW | K_IWh => K_IW end.
Definition is_ihist (k : ik) : bool := match k with K_Ih | K_IWh => true | _ => false end.
Definition idig (im : inmod) : bool := (0 <? i_iq im)%nat && has (i_I im) && has (i_Ih im).
Definition g_ihist (im : inmod) (k : ik) (i : nat) : option Z :=
  if idig im && is_ihist k && ((i <? iports (i_iq im) (i_iwq im) k)%nat && has (in_arr (icur k) im) && has (in_arr k im))
  then elem (in_arr (icur k) im) i else elem (in_arr k im) i.
Lemma in_hist_ok im : in_sized im -> exists im', in_hist im = Ok im' /\ in_same im im' /\ forall k i, elem (in_arr k im') i = g_ihist im k i.
Proof.
  intros A. unfold in_hist. rewrite ana_spec. unfold g_ihist. fold (idig im). destruct (idig im) eqn:D; cbn [negb andb].
  2:{ exists im. split; auto. split; [repeat split|]; auto. }
  destruct (copy_if_ok (i_Ih im) (i_I im) (i_iq im) (A K_I) (A K_Ih)) as (qh & H1 & H2 & H3).
  destruct (copy_if_ok (i_IWh im) (i_IW im) (i_iwq im) (A K_IW) (A K_IWh)) as (wh & V1 & V2 & V3).
  unfold idig, has in D. apply andb_prop in D as [D D3]. apply andb_prop in D as [D1 D2]. apply negb_true_iff in D2, D3.
  rewrite pmemcpy_copy_if, H1 by auto. cbn [rbind]. cbn [i_iwq i_IW i_IWh set_i_Ih].
  rewrite ana_spec. destruct ((0 <? i_iwq im)%nat && has (i_IW im) && has (i_IWh im)) eqn:N; cbn [negb].
  - pose proof N as N'. unfold has in N. apply andb_prop in N as [N N3]. apply andb_prop in N as [N1 N2]. apply negb_true_iff in N2, N3.
    rewrite pmemcpy_copy_if, V1 by auto. cbn [rbind]. eexists. split; [reflexivity|]. split.
    + repeat split. intros []; simpl; auto.
    + intros [] i; unfold has; simpl; auto; rewrite ?H3, ?V3; reflexivity.
  - eexists. split; [reflexivity|]. split.
    + repeat split. intros []; simpl; auto.
    + intros [] i; unfold has; simpl; auto; rewrite ?H3, ?V3; try reflexivity.
      unfold has in N. destruct (i_iwq im) as [|q]; [reflexivity|]. change (0 <? S q)%nat with true in N. cbn [andb] in N. rewrite <- andb_assoc, N, andb_false_r. reflexivity.
Qed.
Lemma upd_in_ok f (G : inmod -> ik -> nat -> option Z) c : ins_sized c ->
  (forall im, in_sized im -> exists im', f im = Ok im' /\ in_same im im' /\ forall k i, elem (in_arr k im') i = G im k i) ->
  exists c', upd_in f c = Ok c'
    /\ (forall m im k i, (m < io_rq (x_io c))%nat -> elem (x_in c) m = Some im -> peek c' (LIn m k i) = option_map VZ (G im k i))
    /\ (forall l, (forall m k i, l <> LIn m k i) -> peek c' l = peek c l)
    /\ (forall m k i, (io_rq (x_io c) <= m)%nat -> peek c' (LIn m k i) = peek c (LIn m k i)).
Proof.
  intros OS HF. unfold upd_in. destruct (is_null (x_in c)) eqn:NU.
  - exists c. split; auto. split; [|auto]. intros m im k i M H. destruct (x_in c); [discriminate|]. discriminate.
  - destruct OS as [OS|OS]; [simpl in OS; destruct (x_in c); discriminate|].
    assert (MM : forall m, (m < io_rq (x_io c))%nat -> exists im im', elem (x_in c) m = Some im /\ f im = Ok im' /\ in_same im im'
      /\ forall k i, elem (in_arr k im') i = G im k i).
    { intros m M. destruct (OS m M) as (id & qd & qa & ME & LE). simpl in ME, LE. destruct (elem (x_in c) m) as [im|]; [|discriminate]. simpl in *.
      injection ME as <- <- <-. destruct (HF im) as (im' & K); [intros k; apply size_arr, LE|]. exists im, im'. auto. }
    destruct (pmap_first_ok (io_rq (x_io c)) f (x_in c)) as [o HO].
    { intros m M. destruct (MM m M) as (im & im' & A & B & _). eauto. }
    rewrite HO. simpl. eexists. split; [reflexivity|]. apply pmap_first_spec in HO as (O1 & O2).
    assert (OE : forall m, (m < io_rq (x_io c))%nat -> exists im im', elem (x_in c) m = Some im /\ elem o m = Some im' /\ in_same im im'
      /\ forall k i, elem (in_arr k im') i = G im k i).
    { intros m M. destruct (MM m M) as (im & im' & A & B & D). exists im, im'. split; auto. split; auto. specialize (O2 m). rewrite A in O2.
      rewrite (proj2 (Nat.ltb_lt _ _) M) in O2. destruct O2 as (y & Y & O2). congruence. }
    assert (OO : forall m, (io_rq (x_io c) <= m)%nat -> elem o m = elem (x_in c) m).
    { intros m M. specialize (O2 m). rewrite (proj2 (Nat.ltb_ge _ _) M) in O2. destruct (elem (x_in c) m); auto. }
    split; [|split].
    + intros m im k i M H. destruct (OE m M) as (im1 & im' & A & B & _ & D). rewrite A in H. injection H as ->. simpl. rewrite B. simpl. now rewrite D.
    + intros l HL. destruct l; try reflexivity.
      * now contradiction (HL m k i).
      * simpl. destruct (Nat.lt_ge_cases m (io_rq (x_io c))) as [M|M]; [|now rewrite (OO m M)]. destruct (OE m M) as (im & im' & -> & -> & (_ & _ & _ & K) & _). simpl. auto.
      * simpl. destruct (Nat.lt_ge_cases m (io_rq (x_io c))) as [M|M]; [|now rewrite (OO m M)]. destruct (OE m M) as (im & im' & -> & -> & (K1 & K2 & K3 & _) & _). simpl. congruence.
      * simpl. auto.
    + intros m k i M. simpl. now rewrite OO.
Qed.
Lemma in_place_iff c m im k i : (m < io_rq (x_io c))%nat -> elem (x_in c) m = Some im ->
  (input_place c (LIn m k i) <-> is_ihist k = false /\ (i < iports (i_iq im) (i_iwq im) k)%nat /\ has (in_arr k im) = true /\ has (in_arr (ihist k) im) = true).
Proof.
  intros M HM. rewrite !has_len. split.
  - intros (m' & id & qd & qa & i' & _ & ME & [(Q & L & A & B)|(Q & L & A & B)]); injection Q as <- -> <-; simpl in ME, A, B; rewrite HM in *; simpl in *;
      injection ME as <- <- <-; auto.
  - intros (K & L & A & B). exists m, (i_id im), (i_iq im), (i_iwq im), i. split; auto. simpl. rewrite HM. simpl. split; auto.
    destruct k; try discriminate; simpl in *; auto 10.
Qed.
Lemma with_idigital_iff c m im k i : elem (x_in c) m = Some im -> (with_digital c (LIn m k i) <-> idig im = true).
Proof.
  intros HM. unfold idig. simpl. rewrite HM. simpl. rewrite !andb_true_iff, !has_len, Nat.ltb_lt. split.
  - intros (id & qd & qa & ME & A & B & D). injection ME as <- <- <-. auto.
  - intros [[A B] D]. exists (i_id im), (i_iq im), (i_iwq im). auto.
Qed.
Lemma in_cases c l : (exists m k i im, l = LIn m k i /\ (m < io_rq (x_io c))%nat /\ elem (x_in c) m = Some im)
  \/ (forall m k i, l <> LIn m k i) \/ (exists m k i, l = LIn m k i /\ (io_rq (x_io c) <= m)%nat) \/ (exists m k i, l = LIn m k i /\ elem (x_in c) m = None).
Proof.
  destruct l; try (right; left; discriminate). destruct (Nat.lt_ge_cases m (io_rq (x_io c))) as [M|M]; [|right; right; left; eauto].
  destruct (elem (x_in c) m) eqn:HM; [left; eauto 10|right; right; right; eauto].
Qed.
Lemma missing_in c c' m k i : peek c' (LInMeta m) = peek c (LInMeta m) -> elem (x_in c) m = None -> peek c' (LIn m k i) = peek c (LIn m k i).
Proof. intros H N. simpl in *. rewrite N in *. destruct (elem (x_in c') m); [discriminate|auto]. Qed.
Lemma hist_in_ok c : ins_sized c -> exists c', upd_in in_hist c = Ok c' /\ remembered (fun l => input_place c l /\ with_digital c l) c c'.
Proof.
  intros OS. destruct (upd_in_ok in_hist g_ihist c OS in_hist_ok) as (c' & H1 & H2 & H3 & H4). exists c'. split; auto. split.
  - intros l h [HL WD] P. pose proof HL as HL0. destruct HL as (m & id & qd & qa & i & M & ME & K). simpl in ME. destruct (elem (x_in c) m) as [im|] eqn:HM; [|discriminate].
    assert (LL : exists k, l = LIn m k i) by (destruct K as [[-> _]|[-> _]]; eauto). destruct LL as [k ->]. apply (in_place_iff c m im k i M HM) in HL0 as (A & B & D & F).
    apply (with_idigital_iff c m im k i HM) in WD.
    destruct k; try discriminate; injection P as <-; rewrite (H2 m im _ i M HM); unfold g_ihist; rewrite WD; simpl in *; apply Nat.ltb_lt in B; rewrite B, D, F, HM; simpl; reflexivity.
  - intros l HL. destruct (in_cases c l) as [(m & k & i & im & -> & M & HM)|[N|[(m & k & i & -> & M)|(m & k & i & -> & M)]]]; auto.
    + rewrite (H2 m im k i M HM). unfold g_ihist.
      destruct (idig im && _ && _) eqn:G; [exfalso|simpl; rewrite HM; reflexivity].
      apply HL. apply andb_prop in G as [DG G]. apply andb_prop in DG as [DG DK]. apply andb_prop in G as [G1 G2]. apply andb_prop in G1 as [G0 G1]. apply Nat.ltb_lt in G0.
      exists (LIn m (icur k) i). split; [split; [apply (in_place_iff c m im _ i M HM)|apply (with_idigital_iff c m im _ i HM); auto]|]; destruct k; try discriminate; simpl in *; auto.
    + apply (missing_in c c'); auto. apply H3. discriminate.
Qed.

(** ** Memory *)
Definition bhist (b : bank) : bank := match b with B_M => B_Mh | B_Cd => B_Cdh | B_Cr => B_Crh | B_Td => B_Tdh | B_Tr => B_Trh | _ => b end.
Definition bcur (b : bank) : bank := match b with B_Mh => B_M | B_Cdh => B_Cd | B_Crh => B_Cr | B_Tdh => B_Td | B_Trh => B_Tr | _ => b end.
Definition is_bhist (b : bank) : bool := match b with B_Mh | B_Cdh | B_Crh | B_Tdh | B_Trh => true | _ => false end.
Definition is_flagb (b : bank) : bool := match b with B_M | B_Cd | B_Cr | B_Td | B_Tr => true | _ => false end.
Lemma copy_bank c b b' : sized c -> bank_qty b (x_q c) = bank_qty b' (x_q c) -> exists a, copy_if (bank_arr b' c) (bank_arr b c) (bank_qty b (x_q c)) = Ok a
  /\ size a = size (bank_arr b' c) /\ forall i, elem a i = if (i <? bank_qty b (x_q c))%nat then elem (bank_arr b c) i else elem (bank_arr b' c) i.
Proof.
  intros SZ Q. pose proof (sized_arr c b SZ) as A. pose proof (sized_arr c b' SZ) as B. rewrite <- Q in B.
  destruct (copy_if_ok (bank_arr b' c) (bank_arr b c) _ (or_intror A) (or_intror B)) as (a & H1 & H2 & H3). exists a. split; auto. split; auto.
  intros i. rewrite H3. destruct A as (x & -> & _), B as (y & -> & _). simpl. now rewrite !andb_true_r.
Qed.
Lemma flag_iff c b i : flag_place c (LReg b i) <-> is_flagb b = true /\ (i < bank_qty b (x_q c))%nat.
Proof.
  split.
  - intros (b' & i' & H & L & Q). injection Q as -> ->. split; auto. simpl in H. destruct H as [<-|[<-|[<-|[<-|[<-|[]]]]]]; reflexivity.
  - intros [H L]. exists b, i. split; auto. destruct b; try discriminate; simpl; auto 10.
Qed.
Lemma past_bank b i h : past (LReg b i) = Some h <-> is_flagb b = true /\ h = LReg (bhist b) i.
Proof. destruct b; simpl; split; try discriminate; try (intros [= <-]; auto; fail); intros [A B]; try discriminate; now subst. Qed.

Lemma save_previous_ok c : sized c -> outs_sized c -> exists c', save_previous c = Ok c' /\ remembered (fun l => flag_place c l \/ output_place c l) c c'.
Proof.
  intros SZ OS. destruct (save_out_ok c OS) as (co & H1 & H2 & H3).
  destruct (copy_bank c B_M B_Mh SZ eq_refl) as (a1 & A1 & A2 & A3). destruct (copy_bank c B_Cd B_Cdh SZ eq_refl) as (b1 & B1 & B2 & B3).
  destruct (copy_bank c B_Cr B_Crh SZ eq_refl) as (d1 & D1 & D2 & D3). destruct (copy_bank c B_Td B_Tdh SZ eq_refl) as (e1 & E1 & E2 & E3).
  destruct (copy_bank c B_Tr B_Trh SZ eq_refl) as (f1 & F1 & F2 & F3). cbn [bank_arr bank_qty] in *.
  exists (set_x_prev (mk_prev a1 d1 b1 f1 e1) co). split.
  { unfold save_previous. rewrite A1. cbn [rbind]. rewrite B1. cbn [rbind]. rewrite D1. cbn [rbind]. rewrite E1. cbn [rbind]. rewrite F1. cbn [rbind].
    unfold upd_out in H1. destruct (is_null (x_out c)); [injection H1 as <-; cbn [rbind]; now destruct c|].
    destruct (pmap_first _ _ _); try discriminate. injection H1 as <-. cbn [rbind]. now destruct c. }
  assert (X : forall l, (forall m k i, l <> LOut m k i) -> peek co l = peek c l).
  { intros l N. apply H3. intros (l0 & (m & id & qd & qa & i & _ & _ & [(-> & _)|(-> & _)]) & P); injection P as <-; eapply N; reflexivity. }
  assert (Y : forall l, (forall b i, l <> LReg b i) -> (forall b, l <> LRegLen b) -> peek (set_x_prev (mk_prev a1 d1 b1 f1 e1) co) l = peek co l).
  { intros l N1 N2. destruct l; try reflexivity; [now contradiction (N1 b i)|now contradiction (N2 b)]. }
  assert (Z : forall b i, peek (set_x_prev (mk_prev a1 d1 b1 f1 e1) co) (LReg b i)
    = if is_bhist b && (i <? bank_qty b (x_q c))%nat then peek c (LReg (bcur b) i) else peek c (LReg b i)).
  { intros b i. destruct b; cbn [is_bhist andb bcur bank_qty]; try (rewrite <- X by discriminate; reflexivity); simpl; rewrite ?A3, ?B3, ?D3, ?E3, ?F3; destruct (i <? _)%nat; auto. }
  assert (Z2 : forall b, peek (set_x_prev (mk_prev a1 d1 b1 f1 e1) co) (LRegLen b) = peek c (LRegLen b)).
  { intros b. destruct b; try (rewrite <- X by discriminate; reflexivity); simpl; auto. }
  split.
  - intros l h [K|K] P.
    + destruct K as (b & i & IB & L & ->). apply past_bank in P as [FB ->]. rewrite Z. apply Nat.ltb_lt in L. destruct b; try discriminate; cbn [is_bhist bhist andb bcur bank_qty] in *; now rewrite L.
    + pose proof (H2 l h K P) as R. destruct K as (m & id & qd & qa & i & _ & _ & [(-> & _)|(-> & _)]); injection P as <-; rewrite Y by discriminate; auto.
  - intros l HL. destruct l.
    1:{ rewrite Z. destruct (is_bhist b && _) eqn:G; auto. apply andb_prop in G as [G1 G2]. apply Nat.ltb_lt in G2. exfalso. apply HL. exists (LReg (bcur b) i). split.
        - left. apply flag_iff. destruct b; try discriminate; auto.
        - destruct b; try discriminate; auto. }
    1: apply Z2.
    all: rewrite Y by discriminate; try (apply X; discriminate).
    apply H3. intros (l0 & K1 & K2). apply HL. eauto.
Qed.
Lemma revert_memory_ok c : sized c -> exists c', revert_memory c = Ok c' /\ restored (flag_place c) c c'.
Proof.
  intros SZ.
  destruct (copy_bank c B_Mh B_M SZ eq_refl) as (a1 & A1 & A2 & A3). destruct (copy_bank c B_Cdh B_Cd SZ eq_refl) as (b1 & B1 & B2 & B3).
  destruct (copy_bank c B_Crh B_Cr SZ eq_refl) as (d1 & D1 & D2 & D3). destruct (copy_bank c B_Tdh B_Td SZ eq_refl) as (e1 & E1 & E2 & E3).
  destruct (copy_bank c B_Trh B_Tr SZ eq_refl) as (f1 & F1 & F2 & F3).
  assert (NN : forall b, is_null (bank_arr b c) = false) by (intros b; destruct (sized_arr c b SZ) as (l & -> & _); auto).
  pose proof (NN B_M) as N1. pose proof (NN B_Cd) as N2. pose proof (NN B_Cr) as N3. pose proof (NN B_Td) as N4. pose proof (NN B_Tr) as N5.
  pose proof (NN B_Mh) as M1. pose proof (NN B_Cdh) as M2. pose proof (NN B_Crh) as M3. pose proof (NN B_Tdh) as M4. pose proof (NN B_Trh) as M5. cbn [bank_arr bank_qty] in *.
  exists (set_x_mem (mk_mem a1 d1 b1 f1 e1) c). split.
  { unfold revert_memory. rewrite !pmemcpy_copy_if by auto. rewrite A1. cbn [rbind]. rewrite B1. cbn [rbind]. rewrite D1. cbn [rbind]. rewrite E1. cbn [rbind]. now rewrite F1. }
  assert (Z : forall b i, peek (set_x_mem (mk_mem a1 d1 b1 f1 e1) c) (LReg b i)
    = if is_flagb b && (i <? bank_qty b (x_q c))%nat then peek c (LReg (bhist b) i) else peek c (LReg b i)).
  { intros b i. destruct b; cbn [is_flagb andb bhist bank_qty]; try reflexivity; simpl; rewrite ?A3, ?B3, ?D3, ?E3, ?F3; destruct (i <? _)%nat; auto. }
  split.
  - intros l h (b & i & IB & L & ->) P. apply past_bank in P as [FB ->]. rewrite Z, FB. apply Nat.ltb_lt in L. now rewrite L.
  - intros l HL. destruct l; try reflexivity.
    + rewrite Z. destruct (is_flagb b && _) eqn:G; auto. apply andb_prop in G as [G1 G2]. apply Nat.ltb_lt in G2. exfalso. apply HL. apply flag_iff. auto.
    + destruct b; try reflexivity; simpl; auto.
Qed.
(** Registers and accumulators to zero. *)
Lemma zero_bank_if c b : sized c -> exists a, zero_if (bank_arr b c) (bank_qty b (x_q c)) = Ok a
  /\ size a = size (bank_arr b c) /\ forall i, elem a i = if (i <? bank_qty b (x_q c))%nat then Some 0 else elem (bank_arr b c) i.
Proof.
  intros SZ. pose proof (sized_arr c b SZ) as A. destruct (zero_if_ok (bank_arr b c) _ (or_intror A)) as (a & H1 & H2 & H3 & H4). exists a. split; auto. split; auto.
  intros i. rewrite H4. destruct A as (x & -> & _). simpl. now rewrite !andb_true_r.
Qed.
Lemma reset_registers_ok c : sized c -> exists c', reset_registers c = Ok c' /\ (forall l, reg_place c l -> peek c' l = Some (VZ 0)) /\ changes_only c c' (reg_place c).
Proof.
  intros SZ. destruct (zero_bank_if c B_C SZ) as (a1 & A1 & A2 & A3). destruct (zero_bank_if c B_D SZ) as (b1 & B1 & B2 & B3).
  destruct (zero_bank_if c B_R SZ) as (d1 & D1 & D2 & D3). cbn [bank_arr bank_qty] in *.
  destruct (timers_ok c SZ) as (tm & td & tr & T1 & _ & _ & T2 & T3).
  assert (NT : is_null (x_tm c) = false) by (destruct SZ as [_ (k & K & _)]; simpl in K; destruct (x_tm c); [auto|discriminate]).
  exists (set_x_regs (mk_regs a1 b1 d1) (set_x_tm tm c)). split.
  { unfold reset_registers. rewrite A1. cbn [rbind]. rewrite NT, T1. cbn [rbind]. rewrite B1. cbn [rbind]. now rewrite D1. }
  split.
  - intros l [(b & i & IB & L & ->)|(i & L & ->)].
    + apply Nat.ltb_lt in L. destruct IB as [<-|[<-|[<-|[]]]]; simpl in *; rewrite ?A3, ?B3, ?D3, L; reflexivity.
    + apply (T2 i L).
  - intros l HL. destruct l; try reflexivity.
    + destruct b; try reflexivity; simpl; rewrite ?A3, ?B3, ?D3; (destruct (i <? _)%nat eqn:G; [|reflexivity]); apply Nat.ltb_lt in G; exfalso; apply HL; left; eexists _, i; (split; [|split; [|reflexivity]]); simpl; auto.
    + destruct b; try reflexivity; simpl; auto.
    + apply (T3 (LTs i)). intros (j & _ & [K|[K|K]]); discriminate.
    + apply (T3 (LAcc i)). intros (j & L & [K|[K|K]]); try discriminate. injection K as <-. apply HL. right. eauto.
    + apply (T3 LTmLen). intros (j & L & [K|[K|K]]); discriminate.
Qed.
