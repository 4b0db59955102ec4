(** memory is released once (C66). *)
From Coq Require Import Permutation.
From Verif Require Export HeapFull.
From Coq Require Import Lia List.
Import ListNotations.
Open Scope nat_scope.
(*IMPORT HeapFull *)

Lemma started G a s s1 : sane s -> j_init a = true -> h_init G a s = HOk (true, s1) ->
  exists p l m, full p l m (s_heap s) s1 /\ ~ Exists hollow_t l /\ exists c, v_cr m = Some (c, None).
Proof.
  intros SN JI E. apply sane_good in SN. destruct (hargs_ok a) eqn:OK.
  - pose proof (init_ok G a (s_heap s) s (fun _ => False) OK JI SN) as W. unfold wp in W. rewrite E in W. exact W.
  - unfold h_init in E. rewrite OK in E. discriminate.
Qed.
Lemma worked G a ks s s1 s2 : sane s -> j_init a = true -> h_init G a s = HOk (true, s1) -> Forall spanned ks -> h_calls G ks s1 = HOk (tt, s2) ->
  exists p l m, full p l m (s_heap s) s2.
Proof.
  intros SN JI E SP C. destruct (started G a s s1) as (p & l & m & F & _); auto.
  pose proof (calls_ok G p (s_heap s) ks l m s1 F SP) as W. unfold wp in W. rewrite C in W. destruct W as (l' & m' & F' & _). eauto.
Qed.
Lemma full_sane p l m R s : full p l m R s -> sane s.
Proof. intros (_ & _ & _ & _ & _ & _ & _ & [K P]). apply sane_good. split; auto. Qed.

(** ** C66 *)

(** Between ladder_ctx_init and ladder_ctx_deinit, after any calls and whatever requests for memory are refused, the machine reaches
    exactly the blocks that were allocated since and are not released: nothing is lost, no pointer is left over to released memory,
    and the memory of the rest of the program is untouched and out of reach. *)
Lemma C66_owned_l : forall G a ks s s1 s2, sane s -> j_init a = true -> h_init G a s = HOk (true, s1) -> Forall spanned ks ->
  h_calls G ks s1 = HOk (tt, s2) -> sane s2 /\ owned (s_heap s) (s_heap s2) (s_g s2).
Proof.
  intros G a ks s s1 s2 SN JI E SP C. destruct (worked G a ks s s1 s2) as (p & l & m & F); auto. split; [eapply full_sane; eauto|eapply full_owned; eauto].
Qed.

(** ladder_ctx_deinit then gives back everything, each block once, if no network has rows and no cells. *)
Lemma C66_released_l : forall G a ks s s1 s2, sane s -> j_init a = true -> h_init G a s = HOk (true, s1) -> Forall spanned ks ->
  h_calls G ks s1 = HOk (tt, s2) -> ~ hollow s2 -> exists s3, h_deinit s2 = HOk (tt, s3) /\ same_memory (s_heap s) (s_heap s3).
Proof.
  intros G a ks s s1 s2 SN JI E SP C NH. destruct (worked G a ks s s1 s2) as (p & l & m & F); auto.
  pose proof (hollow_full _ _ _ _ _ F) as HF. destruct F as (A1 & A2 & A3 & A4 & A5 & A6 & A7 & A8).
  pose proof (deinit_ok p l m (s_heap s) s2 A1 A2 A3 A4 A5 A8) as W. unfold wp in W. destruct (h_deinit s2) as [[[] s3]|u].
  - destruct W as (_ & K & _). exists s3. split; auto. apply sane_good in SN. destruct SN as [KY _]. eapply good_same; [exact KY|apply Permutation_refl|exact K].
  - destruct W as [_ W]. tauto.
Qed.
(** If some network has rows and no cells, ladder_ctx_deinit uses NULL. *)
Lemma C66_hollow_l : forall G a ks s s1 s2, sane s -> j_init a = true -> h_init G a s = HOk (true, s1) -> Forall spanned ks ->
  h_calls G ks s1 = HOk (tt, s2) -> hollow s2 -> h_deinit s2 = HBad H_null.
Proof.
  intros G a ks s s1 s2 SN JI E SP C NH. destruct (worked G a ks s s1 s2) as (p & l & m & F); auto.
  pose proof (hollow_full _ _ _ _ _ F) as HF. destruct F as (A1 & A2 & A3 & A4 & A5 & A6 & A7 & A8).
  pose proof (deinit_ok p l m (s_heap s) s2 A1 A2 A3 A4 A5 A8) as W. unfold wp in W. destruct (h_deinit s2) as [[[] s3]|u].
  - destruct W as (_ & _ & W). tauto.
  - destruct W as [-> _]. reflexivity.
Qed.
(** The only thing that can go wrong in the calls is a use of NULL: no block is released twice, used after it was released, or used
    outside its size. *)
Lemma C66_only_null_l : forall G a ks s s1 u, sane s -> j_init a = true -> h_init G a s = HOk (true, s1) -> Forall spanned ks ->
  h_calls G ks s1 = HBad u -> u = H_null.
Proof.
  intros G a ks s s1 u SN JI E SP C. destruct (started G a s s1) as (p & l & m & F & _); auto.
  pose proof (calls_ok G p (s_heap s) ks l m s1 F SP) as W. unfold wp in W. rewrite C in W. apply W.
Qed.
(** Programs that never load a document and give cron no jobs do not go wrong, whatever requests are refused; if no request is refused,
    neither do programs whose documents describe every network completely. All the memory comes back. *)
Lemma C66_safe_l : forall G a ks s s1, sane s -> j_init a = true -> h_init G a s = HOk (true, s1) ->
  Forall frugal ks \/ (Forall harmless ks /\ forall k, G k = true) ->
  exists s2 s3, h_calls G ks s1 = HOk (tt, s2) /\ ~ hollow s2 /\ h_deinit s2 = HOk (tt, s3) /\ same_memory (s_heap s) (s_heap s3).
Proof.
  intros G a ks s s1 SN JI E HK. destruct (started G a s s1) as (p & l & m & F & NH & _); auto.
  assert (FN : Forall (fine G) ks).
  { destruct HK as [HK|[HK AL]]; eapply Forall_impl; try exact HK; intros k Hk; [left|right]; auto. }
  assert (SP : Forall spanned ks).
  { destruct HK as [HK|[HK AL]]; eapply Forall_impl; try exact HK; intros k Hk; destruct k; simpl in *; auto. }
  pose proof (calls_ok G p (s_heap s) ks l m s1 F SP) as W. unfold wp in W. destruct (h_calls G ks s1) as [[[] s2]|u] eqn:C.
  - destruct W as (l' & m' & F' & H').
    assert (NH2 : ~ hollow s2) by (rewrite (hollow_full _ _ _ _ _ F'); intro Z; apply H' in Z; tauto).
    destruct (C66_released_l G a ks s s1 s2) as (s3 & D & S3); auto. exists s2, s3. auto.
  - exfalso. tauto.
Qed.

(** ladder_ctx_init never goes wrong. With arguments in range it fails only when a request is refused; then the rows of the networks
    are not given back: if [k] requests were granted before, all of these blocks but one are lost, up to the number of rows and
    networks. *)
Lemma C66_init_l : forall G a s, sane s -> hargs_ok a = true -> j_init a = true ->
  (exists s1, h_init G a s = HOk (true, s1))
  \/ (exists s1 k, h_init G a s = HOk (false, s1) /\ first_refused G s k /\ left_over s s1 (pred (min k (1 + j_nets a * S (j_rows a))))).
Proof.
  intros G a s SN OK JI. apply sane_good in SN. pose proof (init_ok G a (s_heap s) s (fun _ => False) OK JI SN) as W. unfold wp in W.
  destruct (h_init G a s) as [[[] s1]|u]; [eauto| |destruct W]. right. destruct W as (k & Y & R1 & R2 & LY & KY & P).
  exists s1, k. split; auto. split; [split; auto|]. rewrite <- LY. split.
  - intros x L. apply live_in in L. apply in_map_iff in L as ([y b] & Z & I). simpl in Z. subst y.
    rewrite (find_in (s_heap s) x b (s_n s)); [|apply SN|exact I]. eapply find_in; [exact KY|].
    eapply Permutation_in; [apply Permutation_sym; exact P|]. apply in_app_iff. auto.
  - rewrite (Permutation_length P), app_length. lia.
Qed.
(** Bad arguments: nothing is allocated. *)
Lemma C66_init_args_l : forall G a s, hargs_ok a = false -> h_init G a s = HOk (false, s).
Proof. intros G a s OK. unfold h_init. rewrite OK. reflexivity. Qed.
(** If nothing is refused it succeeds. *)
Lemma C66_init_succeeds_l : forall G a s, sane s -> hargs_ok a = true -> j_init a = true -> (forall k, G k = true) ->
  exists s1, h_init G a s = HOk (true, s1).
Proof.
  intros G a s SN OK JI AL. destruct (C66_init_l G a s SN OK JI) as [K|(s1 & k & _ & [K _] & _)]; auto. rewrite AL in K. discriminate.
Qed.
(** So a failure after the second request loses memory for good. *)
Lemma C66_init_leaks_l : forall G a s s1, sane s -> hargs_ok a = true -> j_init a = true -> h_init G a s = HOk (false, s1) ->
  G (s_n s) = true -> G (S (s_n s)) = true -> exists x, live (s_heap s1) x /\ ~ live (s_heap s) x.
Proof.
  intros G a s s1 SN OK JI E G0 G1. pose proof SN as SN2. apply sane_good in SN. pose proof (init_ok G a (s_heap s) s (fun _ => False) OK JI SN) as W. unfold wp in W.
  rewrite E in W. destruct W as (k & Y & R1 & R2 & LY & KY & P).
  assert (2 <= k). { destruct k as [|[|k]]; [rewrite Nat.add_0_r, G0 in R1; discriminate|rewrite Nat.add_1_r, G1 in R1; discriminate|lia]. }
  assert (1 <= j_nets a). { unfold hargs_ok in OK. repeat rewrite Bool.andb_true_iff in OK. destruct OK as [[[[[[[[A1 A2] A3] A4] A5] A6] A7] A8] A9]. apply Nat.leb_le in A4. exact A4. }
  assert (j_nets a * S (j_rows a) >= 1) by nia.
  destruct Y as [|[x b] Y]; [simpl in LY; lia|]. exists x. rewrite !live_in. split.
  - eapply Permutation_in; [apply Permutation_map; apply Permutation_sym; exact P|]. left. reflexivity.
  - pose proof (keyed_perm _ _ _ KY P) as [N _]. simpl in N. apply NoDup_cons_iff in N as [N _]. intro I. apply N. rewrite map_app. apply in_app_iff. auto.
Qed.

(** A machine made without networks cannot be released. *)
Lemma C66_bare_l : forall G a s, sane s -> hargs_ok a = true -> j_init a = false -> (forall k, G k = true) ->
  exists s1, h_init G a s = HOk (true, s1) /\ h_deinit s1 = HBad H_null.
Proof.
  intros G a s SN OK JI AL. apply sane_good in SN. pose proof (init_bare G a (s_heap s) s (fun _ => False) OK JI AL SN) as W. unfold wp in W.
  destruct (h_init G a s) as [[b s1]|u]; [|destruct W]. destruct W as (-> & EN & QN & m & R' & RP & SZ & K). exists s1. split; auto.
  assert (D : wp h_deinit (fun _ _ => False) (fun u => u = H_null) s1).
  { rewrite deinit_parts. apply wp_bind. eapply clear_memory_ok; [apply RP|exact SZ|unfold own in K; rewrite <- app_assoc in K; exact K|].
    apply wp_bind. unfold h_clear_program. apply wp_bind, wp_getg. destruct (g_nets (s_g s1)) as [|q]; [lia|]. simpl. apply wp_bind, wp_bind. unfold get_net.
    apply wp_bind, wp_getg. rewrite EN. apply wp_bind. red. simpl. reflexivity. }
  unfold wp in D. destruct (h_deinit s1) as [[]|u]; [destruct D|]. rewrite D. reflexivity.
Qed.
(** A machine cannot be released twice. *)
Lemma C66_twice_l : forall G a ks s s1 s2 s3, sane s -> j_init a = true -> h_init G a s = HOk (true, s1) -> Forall spanned ks ->
  h_calls G ks s1 = HOk (tt, s2) -> h_deinit s2 = HOk (tt, s3) -> h_deinit s3 = HBad H_null.
Proof.
  intros G a ks s s1 s2 s3 SN JI E SP C D. destruct (worked G a ks s s1 s2) as (p & l & m & F); auto.
  destruct F as (A1 & A2 & A3 & A4 & A5 & A6 & A7 & A8).
  pose proof (deinit_ok p l m (s_heap s) s2 A1 A2 A3 A4 A5 A8) as W. unfold wp in W. rewrite D in W. destruct W as (EG & K & _).
  assert (D3 : wp h_deinit (fun _ _ => False) (fun u => u = H_null) s3).
  { rewrite deinit_parts. apply wp_bind. unfold h_clear_memory. apply wp_bind, wp_getg. rewrite EG. cbn [ended g_m g_c g_t].
    apply Nat.ltb_lt in A6. rewrite A6. apply wp_bind, wp_bind. unfold h_wipe. apply wp_bind, wp_getg. rewrite EG. cbn [ended g_reg]. apply wp_bind.
    eapply wp_nth; [reflexivity|]. apply wp_bind. red. simpl. reflexivity. }
  unfold wp in D3. destruct (h_deinit s3) as [[]|u]; [destruct D3|]. rewrite D3. reflexivity.
Qed.
(** ladderlib_cron_init without memory uses NULL. *)
Lemma C66_cron_l : forall G a s s1 q, sane s -> j_init a = true -> h_init G a s = HOk (true, s1) -> 0 < q -> G (s_n s1) = false ->
  h_call G (K_cron q) s1 = HBad H_null.
Proof.
  intros G a s s1 q SN JI E HQ GF. destruct (started G a s s1) as (p & l & m & F & _ & c & EC); auto.
  destruct F as (A1 & A2 & A3 & A4 & A5 & A6 & A7 & A8). destruct A4 as (_ & _ & _ & _ & _ & _ & _ & _ & _ & _ & _ & _ & ECR).
  assert (D : wp (h_call G (K_cron q)) (fun _ _ => False) (fun u => u = H_null) s1).
  { simpl. unfold h_cron_init. apply wp_bind, wp_getg. rewrite ECR, EC. simpl op. apply wp_bind.
    eapply wp_load with (b := B_cron None); [exact A8|rewrite !in_app_iff; right; left; unfold own; rewrite EC, !in_app_iff; simpl; auto 10|].
    apply wp_bind, wp_ret. simpl. apply wp_bind. eapply wp_alloc; [exact A8|intros s2 _ _ Z; congruence|]. intros s2 E2 _ _ K2. apply wp_bind.
    eapply wp_store with (b := B_cron None) (L := nets p l ++ own_regs (v_reg m) ++ own_for (v_for m) ++ own_io (v_rd m) ++ own_io (v_wr m) ++ s_heap s).
    { eapply good_perm; [exact K2|]. unfold own. rewrite EC. simpl. perm. }
    intros s3 _ _ _. apply Nat.ltb_lt in HQ. rewrite HQ. simpl. red. simpl. reflexivity. }
  unfold wp in D. destruct (h_call G (K_cron q) s1) as [[]|u]; [destruct D|]. rewrite D. reflexivity.
Qed.
(** A document with a network that has rows but no cols breaks the machine: loading it or releasing the machine later uses NULL. *)
Lemma C66_load_breaks_l : forall G a ks s s1 s2 id r data, sane s -> j_init a = true -> h_init G a s = HOk (true, s1) -> Forall spanned ks ->
  h_calls G ks s1 = HOk (tt, s2) -> id < g_nets (s_g s2) ->
  (do! b <- h_load_json G (Some [DN id (Some (S r)) None data]); h_deinit) s2 = HBad H_null.
Proof.
  intros G a ks s s1 s2 id r data SN JI E SP C HI. destruct (worked G a ks s s1 s2) as (p & l & m & F); auto.
  destruct F as (A1 & A2 & A3 & A4 & A5 & A6 & A7 & A8).
  assert (CLR : forall (l : list tnet), Forall net_ok l -> Forall net_ok (map clr_net l)).
  { intros l0 F0. apply Forall_forall. intros x I. apply in_map_iff in I as (y & <- & I). rewrite Forall_forall in F0. apply net_ok_clr. auto. }
  assert (D : wp (do! b <- h_load_json G (Some [DN id (Some (S r)) None data]); h_deinit) (fun _ _ => False) (fun u => u = H_null) s2).
  { apply wp_bind. unfold h_load_json. apply wp_bind. eapply wp_mono; [eapply clear_ok; eauto| |intros u [Z _]; exact Z]. intros u s3 (E3 & K3).
    set (l3 := map clr_net l) in *. assert (O3 : Forall net_ok l3) by (apply CLR; auto). assert (L3 : length l3 = length l) by apply map_length. clearbody l3.
    apply wp_bind. cbn [length hwhile]. apply wp_bind, wp_bind. eapply wp_nth; [reflexivity|]. unfold json_net. apply wp_bind, wp_getg. rewrite E3.
    assert (Z : (g_nets (s_g s2) <=? id) = false) by (apply Nat.leb_gt; auto). rewrite Z. clear Z.
    destruct (nth_error l3 id) as [n|] eqn:NI; [|apply nth_error_None in NI; lia]. apply nth_error_split in NI as (l1 & l2 & -> & L1). subst id.
    assert (ON : net_ok n) by (rewrite Forall_app in O3; destruct O3 as [_ O2]; inversion O2; auto).
    apply wp_bind. eapply wp_get_net; [rewrite E3; eauto|exact K3|left; reflexivity|apply nth_map_mid|].
    set (R1 := flat_map own_net l1 ++ flat_map own_net l2 ++ own m ++ s_heap s).
    apply wp_bind. eapply wp_mono; [eapply wp_json_drop with (R := (p, B_nets (map hn (l1 ++ n :: l2))) :: R1); [exact ON|]| |intros u1 [Z _]; exact Z].
    { eapply good_perm; [exact K3|]. unfold R1. permt. }
    intros u1 s4 (E4 & K4 & _). apply wp_bind. eapply wp_set_net; [rewrite E4, E3; eauto|exact K4|apply nth_map_mid|]. intros s5 E5 _ K5. rewrite put_map_mid in K5.
    apply wp_bind. eapply wp_set_net; [rewrite E5, E4, E3; eauto|exact K5|rewrite <- (map_length hn l1); apply nth_mid|]. intros s6 E6 _ K6.
    rewrite <- (map_length hn l1), put_mid in K6. apply wp_ret. apply wp_ret. apply wp_bind.
    set (n' := mk_tnet (S r) 0 None). set (l4 := l1 ++ n' :: l2).
    assert (K6' : good s6 (nets p l4 ++ own m ++ s_heap s)).
    { eapply good_perm; [exact K6|]. unfold R1, l4, nets. rewrite map_app. simpl map. change (hn n') with (mk_hnet (S r) 0 None). rewrite flat_map_app. simpl flat_map. perm. }
    assert (E6' : s_g s6 = s_g s2) by congruence.
    assert (H4 : Exists hollow_t l4). { apply Exists_app. right. left. split; simpl; auto. lia. }
    assert (O4 : Forall net_ok l4). { rewrite Forall_app in O3. destruct O3 as [Q1 Q2]. inversion Q2; subst. apply Forall_app. split; auto. constructor; auto. exact Logic.I. }
    assert (L4 : length l4 = length l). { unfold l4. rewrite <- L3, !app_length. reflexivity. }
    eapply wp_mono; [eapply clear_ok with (l := l4); [rewrite E6'; eauto|rewrite E6'; congruence|exact O4|exact K6']| |intros u2 [Z _]; exact Z].
    intros u2 s7 (E7 & K7). apply wp_ret. rewrite E6' in E7.
    eapply wp_mono; [eapply deinit_ok with (l := map clr_net l4) (m := m)| |intros u3 [Z _]; exact Z].
    - rewrite E7. eauto.
    - rewrite E7, map_length. congruence.
    - apply CLR. exact O4.
    - rewrite E7. exact A4.
    - rewrite E7. exact A5.
    - exact K7.
    - intros u3 s8 (_ & _ & NH). apply NH. apply Exists_exists in H4 as (x & I & Hx). apply Exists_exists. exists (clr_net x). split; [apply in_map; auto|]. apply hollow_clr. auto. }
  unfold wp in D. destruct ((do! b <- h_load_json G (Some [DN id (Some (S r)) None data]); h_deinit) s2) as [[]|u]; [destruct D|]. rewrite D. reflexivity.
Qed.
(*EX
(** Two rows of three columns in one network; one block belongs to the rest of the program. *)
Definition hp_a : hargs := mk_hargs 3 2 1 4 2 2 1 1 true.
Definition hp_s : hst := mk_hst 5 [(2, B_any)] hctx0.
Definition hp_doc : option (list dnet) :=
  Some [DN 0 (Some 2) (Some 1) (Some [DR [DC I_NO [DV_other]]; DR [DC I_FOREIGN [DV_str; DV_other; DV_str]]])].
Definition hp_ks : list hcall :=
  [K_read true; K_write false; K_foreign 3; K_cron 2; K_cell 0 0 1 I_TON 2 2; K_cell 0 0 1 I_NO 1 1; K_clear; K_cell 0 1 2 I_NO 1 1; K_load hp_doc; K_cell 0 0 0 I_NC 1 1; K_read true].
Definition hp_all (k : nat) : bool := true.
(** The third request of the first ladder_add_read_fn is refused, and the block for a string. *)
Definition hp_few (k : nat) : bool := negb (Nat.eqb k 26) && negb (Nat.eqb k 44).
Lemma hp_sane : sane hp_s.
Proof. apply sane_good. split; [|apply Permutation.Permutation_refl]. split; [repeat constructor; intros []|repeat constructor]. Qed.
Example C66_owned_ex : exists s1 s2, h_init hp_all hp_a hp_s = HOk (true, s1) /\ h_calls hp_all hp_ks s1 = HOk (tt, s2) /\ Forall spanned hp_ks
  /\ length (s_heap s1) = 20 /\ length (s_heap s2) = 39.
Proof. eexists. eexists. split; [vm_compute; reflexivity|]. split; [vm_compute; reflexivity|]. split; [repeat constructor|]. split; reflexivity. Qed.
Example C66_few_ex : exists s1 s2, h_init hp_few hp_a hp_s = HOk (true, s1) /\ h_calls hp_few hp_ks s1 = HOk (tt, s2) /\ length (s_heap s2) < 39.
Proof. eexists. eexists. split; [vm_compute; reflexivity|]. split; [vm_compute; reflexivity|]. vm_compute. repeat constructor. Qed.
Example C66_released_ex : exists s1 s2 s3, h_init hp_all hp_a hp_s = HOk (true, s1) /\ h_calls hp_all hp_ks s1 = HOk (tt, s2) /\ ~ hollow s2
  /\ h_deinit s2 = HOk (tt, s3) /\ s_heap s3 = s_heap hp_s.
Proof.
  destruct (C66_init_succeeds hp_all hp_a hp_s hp_sane eq_refl eq_refl (fun _ => eq_refl)) as (s1 & E1).
  destruct (C66_safe hp_all hp_a hp_ks hp_s s1 hp_sane eq_refl E1) as (s2 & s3 & E2 & NH & E3 & _).
  { right. split; [|intros; reflexivity]. repeat constructor; simpl; eauto. }
  exists s1, s2, s3. split; auto. split; auto. split; auto. split; auto. vm_compute in E1. injection E1 as <-. vm_compute in E2. injection E2 as <-.
  vm_compute in E3. injection E3 as <-. reflexivity.
Qed.
(** A network without cols is left hollow. *)
Example C66_hollow_ex : exists s1 s2, h_init hp_all hp_a hp_s = HOk (true, s1)
  /\ h_calls hp_all [K_load (Some [DN 0 (Some 2) None None])] s1 = HOk (tt, s2) /\ hollow s2 /\ h_deinit s2 = HBad H_null.
Proof.
  eexists. eexists. split; [vm_compute; reflexivity|]. split; [vm_compute; reflexivity|]. split; [|vm_compute; reflexivity].
  exists 5, [mk_hnet 2 0 None], 0, (mk_hnet 2 0 None). repeat split; vm_compute; auto; repeat constructor.
Qed.
(** The calls go wrong when the hollow network is loaded once more. *)
Example C66_only_null_ex : exists s1, h_init hp_all hp_a hp_s = HOk (true, s1)
  /\ h_calls hp_all [K_load (Some [DN 0 (Some 2) None None]); K_load hp_doc] s1 = HBad H_null.
Proof. eexists. split; vm_compute; reflexivity. Qed.
(** Without memory for the jobs. *)
Example C66_cron_ex : exists s1, h_init (fun k => Nat.ltb k 24) hp_a hp_s = HOk (true, s1) /\ Nat.ltb (s_n s1) 24 = false
  /\ h_call (fun k => Nat.ltb k 24) (K_cron 2) s1 = HBad H_null.
Proof. eexists. split; [vm_compute; reflexivity|]. split; vm_compute; reflexivity. Qed.
(** The sixth request is refused: three blocks are lost; the third: one. *)
Example C66_init_ex : exists s1 s2, h_init (fun k => Nat.ltb k 10) hp_a hp_s = HOk (false, s1) /\ length (s_heap s1) = 4
  /\ h_init (fun k => Nat.ltb k 7) hp_a hp_s = HOk (false, s2) /\ s_heap s2 = [(6, B_rows [None; None]); (2, B_any)].
Proof. eexists. eexists. split; [vm_compute; reflexivity|]. split; [reflexivity|]. split; vm_compute; reflexivity. Qed.
Example C66_bare_ex : exists s1, h_init hp_all (mk_hargs 3 2 1 4 2 2 1 1 false) hp_s = HOk (true, s1) /\ h_deinit s1 = HBad H_null.
Proof. eexists. split; vm_compute; reflexivity. Qed.
EX*)
