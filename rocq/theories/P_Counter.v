(** counters (C13, C14). *)
From Verif Require Export Demo Counters.

Lemma r1 r : (r + 1 = S r)%nat. Proof. lia. Qed.
Section H.
Context (E : env) (n r col i : nat) (p : Z).

Lemma ctu_exec s V l rs : counter_cell (s_ctx s) n r col i p -> cshows (s_ctx s) n r (S col) i V ->
  powered (s_ctx s) n r col l -> powered (s_ctx s) n (S r) col rs ->
  exists s', outcome E I_CTU r (S col) s = Some (Ok (E_OK, s')) /\ cinv (s_ctx s) (s_tr s) n r (S col) i (ctu_step p l rs V) s'.
Proof.
  intros (He & _ & (v0 & Hv0 & Hi) & (v1 & Hv1 & <-)) HV Hl Hr. rewrite <- r1 in Hr.
  destruct (ctu_ok E (s_ctx s) (s_tr s) n r (S col) i v0 v1 He Hv0 Hi Hv1 rs) with (V := V) (s := s) (l := l)
    as (s' & A & B); [intros V' s' H'; eapply cond_right; eauto| |exact Hl|].
  - split; [intros x _; auto|split; auto].
  - exists s'. split; auto. unfold outcome; simpl. rewrite A; auto.
Qed.
Lemma ctd_exec s V l rs : counter_cell (s_ctx s) n r col i p -> cshows (s_ctx s) n r (S col) i V ->
  powered (s_ctx s) n r col l -> powered (s_ctx s) n (S r) col rs ->
  exists s', outcome E I_CTD r (S col) s = Some (Ok (E_OK, s')) /\ cinv (s_ctx s) (s_tr s) n r (S col) i (ctd_step p l rs V) s'.
Proof.
  intros (He & _ & (v0 & Hv0 & Hi) & (v1 & Hv1 & <-)) HV Hl Hr. rewrite <- r1 in Hr.
  destruct (ctd_ok E (s_ctx s) (s_tr s) n r (S col) i v0 v1 He Hv0 Hi Hv1 rs) with (V := V) (s := s) (l := l)
    as (s' & A & B); [intros V' s' H'; eapply cond_right; eauto| |exact Hl|].
  - split; [intros x _; auto|split; auto].
  - exists s'. split; auto. unfold outcome; simpl. rewrite A; auto.
Qed.
End H.

(** Existence of the values. *)
Lemma b2z_eqb a : a = 0 \/ a = 1 -> b2z (a =? 1) = a.
Proof. intros [-> | ->]; reflexivity. Qed.
Lemma cell_powered c n r col : cell_exists c n r col -> exists b, powered c n r col b.
Proof. intros (x & y & z & H). unfold powered; simpl in *. destruct (cell_of c n r col) as [k|]; [|discriminate]. exists (c_state k); auto. Qed.
Lemma exec_cell_exists c n r col : executing c n r col -> cell_exists c n r col.
Proof. intros (_ & _ & H); auto. Qed.
Lemma counter_shows c n r col i p : counter_cell c n r col i p -> counter_exists c i -> exists V, cshows c n r (S col) i V.
Proof.
  intros (He & Hc & _) (z & a & b & A & (B & B') & (D & D')).
  destruct (cell_powered _ _ _ _ (exec_cell_exists _ _ _ _ He)) as (p0 & P0). destruct (cell_powered _ _ _ _ Hc) as (p1 & P1).
  exists (mk_cv z (a =? 1) (b =? 1) p0 p1). unfold cshows; cbn [cv_n cv_d cv_r cv_p0 cv_p1]. rewrite r1, !b2z_eqb by auto. auto.
Qed.
Lemma fresh_shows c n r col i p z : counter_cell c n r col i p -> counter_fresh c i z ->
  exists p0 p1, cshows c n r (S col) i (mk_cv z false false p0 p1).
Proof.
  intros (He & Hc & _) (A & B & D).
  destruct (cell_powered _ _ _ _ (exec_cell_exists _ _ _ _ He)) as (p0 & P0). destruct (cell_powered _ _ _ _ Hc) as (p1 & P1).
  exists p0, p1. unfold cshows; cbn [cv_n cv_d cv_r cv_p0 cv_p1]. rewrite r1. auto.
Qed.
Lemma same_shows c c' n r col i p V : same_counter i c c' -> counter_cell c' n r col i p -> cshows c n r (S col) i V ->
  exists p0 p1, cshows c' n r (S col) i (mk_cv (cv_n V) (cv_d V) (cv_r V) p0 p1).
Proof.
  intros Hs (He & Hc & _) (A & B & D & _).
  destruct (cell_powered _ _ _ _ (exec_cell_exists _ _ _ _ He)) as (p0 & P0). destruct (cell_powered _ _ _ _ Hc) as (p1 & P1).
  exists p0, p1. unfold cshows, holds in *; cbn [cv_n cv_d cv_r cv_p0 cv_p1]. rewrite r1. rewrite !Hs by (simpl; auto). auto 6.
Qed.

(** The part of the value that lasts between executions. *)
Definition core (V : cv) : Z * bool * bool := (cv_n V, cv_d V, cv_r V).
Lemma ctu_core p l rs V V' : core V = core V' -> core (ctu_step p l rs V) = core (ctu_step p l rs V').
Proof.
  destruct V as [a b c d e], V' as [a' b' c' d' e']. unfold core; cbn [cv_n cv_d cv_r]. intros [= -> -> ->].
  unfold ctu_step, ccount, cdone, creset. destruct rs, l, b', c'; cbn [cv_n cv_d cv_r orb]; destruct (_ <=? _); reflexivity.
Qed.
Lemma ctd_core p l rs V V' : core V = core V' -> core (ctd_step p l rs V) = core (ctd_step p l rs V').
Proof.
  destruct V as [a b c d e], V' as [a' b' c' d' e']. unfold core; cbn [cv_n cv_d cv_r]. intros [= -> -> ->].
  unfold ctd_step, ccount, cdone, creset. destruct rs, l, b', c'; cbn [cv_n cv_d cv_r orb]; destruct (_ =? _); reflexivity.
Qed.
Section G.
Context (stp : Z -> bool -> bool -> cv -> cv) (code : ins) (E : env) (n r col i : nat) (p z : Z) (pre post : nat -> st) (on rst : nat -> bool) (K : nat).
Hypothesis Hex : forall s V l rs, counter_cell (s_ctx s) n r col i p -> cshows (s_ctx s) n r (S col) i V ->
  powered (s_ctx s) n r col l -> powered (s_ctx s) n (S r) col rs ->
  exists s', outcome E code r (S col) s = Some (Ok (E_OK, s')) /\ cinv (s_ctx s) (s_tr s) n r (S col) i (stp p l rs V) s'.
Hypothesis Hco : forall l rs V V', core V = core V' -> core (stp p l rs V) = core (stp p l rs V').
Hypothesis HH : counter_history E code n r col i p pre post on rst K.
Hypothesis Hfr : counter_fresh (s_ctx (pre 0%nat)) i z.
Fixpoint cbefore (k : nat) : cv :=
  match k with O => mk_cv z false false false false | S k => stp p (on k) (rst k) (cbefore k) end.
Lemma cnt_hist k : (k <= K)%nat -> exists V, cshows (s_ctx (pre k)) n r (S col) i V /\ core V = core (cbefore k)
  /\ cshows (s_ctx (post k)) n r (S col) i (stp p (on k) (rst k) V).
Proof.
  destruct HH as (H1 & H2). clear HH.
  assert (HS : forall k V, (k <= K)%nat -> cshows (s_ctx (pre k)) n r (S col) i V ->
     cshows (s_ctx (post k)) n r (S col) i (stp p (on k) (rst k) V)).
  { intros q V Hk HV. destruct (H1 q Hk) as (Hc & Hl & Hr & Ho). destruct (Hex _ _ _ _ Hc HV Hl Hr) as (s' & A & B).
    rewrite A in Ho. inversion Ho; subst. apply B. }
  induction k as [|k IH]; intros Hk.
  - destruct (fresh_shows _ _ _ _ _ _ _ (proj1 (H1 0%nat Hk)) Hfr) as (p0 & p1 & HV). eauto.
  - destruct IH as (V & A & B & C); [lia|]. 
    destruct (same_shows _ _ _ _ _ _ _ _ (H2 k Hk) (proj1 (H1 (S k) Hk)) C) as (p0 & p1 & D).
    eexists; split; [exact D|]. split; [|apply HS; auto]. simpl cbefore. rewrite <- (Hco (on k) (rst k) _ _ B). reflexivity.
Qed.
End G.
Lemma u32_small z : 0 <= z < 2 ^ 32 -> u32 z = z. Proof. intros; apply Z.mod_small; auto. Qed.
Lemma edges_nonneg on j d : 0 <= edges on j d.
Proof. induction d; simpl; [destruct (on j); lia|]. destruct (_ && _); lia. Qed.
Lemma ctu_values p on rst j d : 1 <= p < 2 ^ 31 -> (rst j = true \/ j = 0%nat) -> (forall m, (j < m <= j + d)%nat -> rst m = false) ->
  let W := cbefore ctu_step p 0 on rst (S (j + d)) in
  cv_n W = Z.min p (edges on j d) /\ cv_d W = (p <=? edges on j d) /\ (cv_d W = false -> cv_r W = on (j + d)%nat).
Proof.
  intros Hp Hj Hno. induction d as [|d IH].
  - rewrite Nat.add_0_r. cbn [cbefore edges]. cbv zeta.
    assert (HV : exists p0 p1, (if rst j then creset 0 else cbefore ctu_step p 0 on rst j) = mk_cv 0 false false p0 p1).
    { destruct Hj as [-> | ->]; [eexists; eexists; reflexivity|]. destruct (rst 0%nat); eexists; eexists; reflexivity. }
    destruct HV as (p0 & p1 & HV). unfold ctu_step at 1 3 5 7. rewrite HV. unfold ccount, cdone; cbn [cv_n cv_d cv_r orb].
    rewrite (u32_small p) by lia. destruct (on j); cbn [cv_n cv_d cv_r]; change (u32 (0 + 1)) with 1.
    + destruct (p <=? 1) eqn:Hp1; cbn [cv_n cv_d cv_r]; repeat split; auto; lia.
    + destruct (p <=? 0) eqn:Hp1; cbn [cv_n cv_d cv_r]; repeat split; auto; lia.
  - specialize (IH ltac:(intros; apply Hno; lia)). replace (j + S d)%nat with (S (j + d)) by lia.
    remember (cbefore ctu_step p 0 on rst (S (j + d))) as W0 eqn:HW. cbv zeta in *.
    change (cbefore ctu_step p 0 on rst (S (S (j + d)))) with (ctu_step p (on (S (j + d))) (rst (S (j + d))) (cbefore ctu_step p 0 on rst (S (j + d)))).
    rewrite <- HW. rewrite Hno by lia. destruct IH as (A & B & C). cbn [edges]. pose proof (edges_nonneg on j d) as He.
    replace (j + S d)%nat with (S (j + d)) by lia. set (e := edges on j d) in *.
    unfold ctu_step. unfold ccount. rewrite A, B. rewrite (u32_small p) by lia.
    destruct (p <=? e) eqn:Hpe.
    + rewrite orb_true_r. assert (Hx : Z.min p e = p) by lia. assert (Hy : forall x, 0 <= x -> Z.min p (e + x) = p) by (intros; lia).
      assert (Hz : forall x, 0 <= x -> (p <=? e + x) = true) by (intros; lia).
      destruct (on (S (j + d))); cbn [andb]; [destruct (on (j + d)%nat)|]; cbn [negb cv_n cv_d cv_r]; rewrite ?A, ?Hx, Z.leb_refl; unfold cdone; cbn [cv_n cv_d cv_r];
        rewrite ?A, ?Hx, Hy, Hz by lia; repeat split; auto; discriminate.
    + specialize (C B). rewrite C. rewrite orb_false_r. assert (Hx : Z.min p e = e) by lia. rewrite Hx in *.
      destruct (on (S (j + d))); cbn [andb]; [destruct (on (j + d)%nat)|]; cbn [negb cv_n cv_d cv_r]; rewrite ?A, ?(u32_small (e + 1)) by lia; unfold cdone.
      * rewrite Hpe. cbn [cv_n cv_d cv_r]. rewrite ?Z.add_0_r, A, B, C, Hpe. repeat split; auto; lia.
      * destruct (p <=? e + 1) eqn:Hq; cbn [cv_n cv_d cv_r]; repeat split; auto; lia.
      * rewrite Hpe. cbn [cv_n cv_d cv_r]. rewrite ?Z.add_0_r, Hpe. repeat split; auto; lia.
Qed.
Lemma ctd_values p on rst j d : 1 <= p < 2 ^ 31 -> (rst j = true \/ j = 0%nat) -> (forall m, (j < m <= j + d)%nat -> rst m = false) ->
  let W := cbefore ctd_step p p on rst (S (j + d)) in
  cv_n W = Z.max 0 (p - edges on j d) /\ cv_d W = (p <=? edges on j d) /\ (cv_d W = false -> cv_r W = on (j + d)%nat).
Proof.
  intros Hp Hj Hno. induction d as [|d IH].
  - rewrite Nat.add_0_r. cbn [cbefore edges]. cbv zeta.
    assert (HV : exists p0 p1, (if rst j then creset p else cbefore ctd_step p p on rst j) = mk_cv p false false p0 p1).
    { unfold creset. rewrite (u32_small p) by lia. destruct Hj as [-> | ->]; [eexists; eexists; reflexivity|]. destruct (rst 0%nat); eexists; eexists; reflexivity. }
    destruct HV as (p0 & p1 & HV). unfold ctd_step at 1 3 5 7. rewrite HV. unfold ccount, cdone; cbn [cv_n cv_d cv_r orb].
    destruct (on j); cbn [cv_n cv_d cv_r]; rewrite ?(u32_small (p + -1)) by lia.
    + destruct (p + -1 =? 0) eqn:Hp1; cbn [cv_n cv_d cv_r]; repeat split; auto; lia.
    + destruct (p =? 0) eqn:Hp1; cbn [cv_n cv_d cv_r]; repeat split; auto; lia.
  - specialize (IH ltac:(intros; apply Hno; lia)). replace (j + S d)%nat with (S (j + d)) by lia.
    remember (cbefore ctd_step p p on rst (S (j + d))) as W0 eqn:HW. cbv zeta in *.
    change (cbefore ctd_step p p on rst (S (S (j + d)))) with (ctd_step p (on (S (j + d))) (rst (S (j + d))) (cbefore ctd_step p p on rst (S (j + d)))).
    rewrite <- HW. rewrite Hno by lia. destruct IH as (A & B & C). cbn [edges]. pose proof (edges_nonneg on j d) as He.
    replace (j + S d)%nat with (S (j + d)) by lia. set (e := edges on j d) in *.
    unfold ctd_step. unfold ccount. rewrite A, B.
    destruct (p <=? e) eqn:Hpe.
    + rewrite orb_true_r. assert (Hx : Z.max 0 (p - e) = 0) by lia. assert (Hy : forall x, 0 <= x -> Z.max 0 (p - (e + x)) = 0) by (intros; lia).
      assert (Hz : forall x, 0 <= x -> (p <=? e + x) = true) by (intros; lia).
      destruct (on (S (j + d))); cbn [andb]; [destruct (on (j + d)%nat)|]; cbn [negb cv_n cv_d cv_r]; rewrite ?A, ?Hx, Z.eqb_refl; unfold cdone; cbn [cv_n cv_d cv_r];
        rewrite ?A, ?Hx, Hy, Hz by lia; repeat split; auto; discriminate.
    + specialize (C B). rewrite C. rewrite orb_false_r. assert (Hx : Z.max 0 (p - e) = p - e) by lia. rewrite Hx in *.
      destruct (on (S (j + d))); cbn [andb]; [destruct (on (j + d)%nat)|]; cbn [negb cv_n cv_d cv_r]; rewrite ?A, ?(u32_small (p - e + -1)) by lia; unfold cdone.
      * replace (p - e =? 0) with false by lia. cbn [cv_n cv_d cv_r]. rewrite ?Z.add_0_r, A, B, C, Hpe. repeat split; auto; lia.
      * destruct (p - e + -1 =? 0) eqn:Hq; cbn [cv_n cv_d cv_r]; repeat split; auto; lia.
      * replace (p - e =? 0) with false by lia. cbn [cv_n cv_d cv_r]. rewrite ?Z.add_0_r, Hpe. repeat split; auto; lia.
Qed.
Lemma last_reset_exists rst k : exists j, last_reset rst j k.
Proof.
  induction k as [|k (j & A & B & C)].
  - exists 0%nat. split; [lia|]. split; [destruct (rst 0%nat); auto|intros; lia].
  - destruct (rst (S k)) eqn:H.
    + exists (S k). split; [lia|]. split; [auto|intros; lia].
    + exists j. split; [lia|]. split; auto. intros m Hm. destruct (Nat.eq_dec m (S k)) as [-> |]; auto. apply C; lia.
Qed.

(** ** C13 *)
(** C13: executing CTU (right of column 0) always succeeds, calls nothing, and changes nothing but its own counter and
    the power of its two cells. *)
Lemma C13_frame_l : forall E s n r col i p on rst,
  counter_cell (s_ctx s) n r col i p -> counter_exists (s_ctx s) i ->
  powered (s_ctx s) n r col on -> powered (s_ctx s) n (S r) col rst ->
  exists c', runs E I_CTU r (S col) s E_OK c'
    /\ changes_only (s_ctx s) c' (fun l => In l (counter_regs i) \/ l = LPow n r (S col) \/ l = LPow n (S r) (S col)).
Proof.
  intros E s n r col i p on rst Hc He Ho Hr. destruct (counter_shows _ _ _ _ _ _ Hc He) as (V & HV).
  destruct (ctu_exec E n r col i p s V on rst Hc HV Ho Hr) as ([c' tr] & A & (B & _ & D)). simpl in D; subst tr.
  exists c'. split; auto. intros l Hl. apply B. unfold cpl. rewrite r1. auto.
Qed.
(** C13: over any history from a reset counter, the count is the number of rising edges of the input since the last
    execution with a powered reset input (the reset execution itself counts when the input is on), capped at the
    preset; the done flag is on exactly when the preset was reached, and then the first row is powered. *)
Lemma C13_count_l : forall E n r col i p pre post on rst K,
  1 <= p < 2 ^ 31 -> counter_fresh (s_ctx (pre 0%nat)) i 0 -> counter_history E I_CTU n r col i p pre post on rst K ->
  forall k, (k <= K)%nat ->
    (exists j, last_reset rst j k)
    /\ forall j, last_reset rst j k ->
       let e := edges on j (k - j) in
       counter_is (s_ctx (post k)) i (Z.min p e) (p <=? e) /\ (p <= e -> powered (s_ctx (post k)) n r (S col) true).
Proof.
  intros E n r col i p pre post on rst K Hp Hf HH k Hk. split; [apply last_reset_exists|].
  intros j (Hj & Hr & Hno) e.
  destruct (cnt_hist ctu_step I_CTU E n r col i p 0 pre post on rst K (ctu_exec E n r col i p) (ctu_core p) HH Hf k Hk) as (V & A & B & C).
  assert (Hc : core (ctu_step p (on k) (rst k) V) = core (cbefore ctu_step p 0 on rst (S k))) by (apply ctu_core; auto).
  destruct (ctu_values p on rst j (k - j) Hp) as (D & F & _); [destruct Hr as [?|(? & _)]; auto|intros; apply Hno; lia|].
  replace (j + (k - j))%nat with k in D, F by lia. pose proof (f_equal (fun t => fst (fst t)) Hc) as H1. pose proof (f_equal (fun t => snd (fst t)) Hc) as H2.
  unfold core in H1, H2. cbn [fst snd] in H1, H2. rewrite D in H1. rewrite F in H2. fold e in H1, H2.
  destruct C as (C1 & C2 & C3 & C4 & C5). rewrite H1 in C1. rewrite H2 in C2. split; [split; auto|].
  intros He. unfold ctu_step, cdone in C4. unfold ctu_step, cdone in H1. rewrite u32_small in C4, H1 by lia.
  remember (ccount 1 (on k) (if rst k then creset 0 else V)) as W. destruct (p <=? cv_n W) eqn:Hq; auto. exfalso. lia.
Qed.
(** C13: a powered reset input, with the count input off, zeroes the count and the done flag and unpowers both rows. *)
Lemma C13_reset_partial_l : forall E s n r col i p,
  1 <= p < 2 ^ 31 -> counter_cell (s_ctx s) n r col i p -> counter_exists (s_ctx s) i ->
  powered (s_ctx s) n r col false -> powered (s_ctx s) n (S r) col true ->
  exists c', runs E I_CTU r (S col) s E_OK c' /\ counter_is c' i 0 false /\ outputs c' n r (S col) false false.
Proof.
  intros E s n r col i p Hp Hc He Ho Hr. destruct (counter_shows _ _ _ _ _ _ Hc He) as (V & HV).
  destruct (ctu_exec E n r col i p s V _ _ Hc HV Ho Hr) as ([c' tr] & A & (_ & B & D)). simpl in D; subst tr.
  exists c'. split; auto. unfold ctu_step, ccount, cdone in B. cbn [creset cv_n cv_d cv_r cv_p0 cv_p1] in B. change (u32 0) with 0 in B.
  rewrite u32_small in B by lia. replace (p <=? 0) with false in B by lia. destruct B as (B1 & B2 & B3 & B4 & B5). rewrite r1 in B5.
  repeat split; auto.
Qed.
(** C13, finding: with the count input on, a powered reset input does not zero the count: it is 1 after every such
    execution. *)
Lemma C13_reset_while_counting_actual_l : forall E s n r col i p,
  1 <= p < 2 ^ 31 -> counter_cell (s_ctx s) n r col i p -> counter_exists (s_ctx s) i ->
  powered (s_ctx s) n r col true -> powered (s_ctx s) n (S r) col true ->
  exists c', runs E I_CTU r (S col) s E_OK c' /\ counter_is c' i 1 (p <=? 1) /\ outputs c' n r (S col) (p <=? 1) true.
Proof.
  intros E s n r col i p Hp Hc He Ho Hr. destruct (counter_shows _ _ _ _ _ _ Hc He) as (V & HV).
  destruct (ctu_exec E n r col i p s V _ _ Hc HV Ho Hr) as ([c' tr] & A & (_ & B & D)). simpl in D; subst tr.
  exists c'. split; auto. unfold ctu_step, ccount, cdone in B. cbn [creset cv_n cv_d cv_r cv_p0 cv_p1 orb] in B.
  change (u32 (u32 0 + 1)) with 1 in B.
  rewrite u32_small in B by lia. destruct (p <=? 1); destruct B as (B1 & B2 & B3 & B4 & B5); rewrite r1 in B5; repeat split; auto.
Qed.
(** C13: the power of the two rows when the preset is not reached: the first row is switched off by a reset and is left
    alone otherwise; the second row is switched on by a counted edge, off by an idle input, and left alone otherwise. *)
Lemma C13_outputs_l : forall E s n r col i p on rst z d a b0 b1,
  1 <= p < 2 ^ 31 -> counter_cell (s_ctx s) n r col i p ->
  holds (s_ctx s) (LReg B_C i) z -> holds (s_ctx s) (LReg B_Cd i) (b2z d) -> holds (s_ctx s) (LReg B_Cr i) (b2z a) ->
  outputs (s_ctx s) n r (S col) b0 b1 -> 0 <= z -> z + 1 < p ->
  powered (s_ctx s) n r col on -> powered (s_ctx s) n (S r) col rst ->
  exists c', runs E I_CTU r (S col) s E_OK c'
    /\ outputs c' n r (S col) (if rst then false else b0)
         (if on then (if rst then true else if a || d then b1 else true) else false)
    /\ holds c' (LReg B_Cr i) (b2z (if on then (if rst then true else if d then a else true) else false)).
Proof.
  intros E s n r col i p on rst z d a b0 b1 Hp Hc Hz Hd Ha (P0 & P1) Hz0 Hz1 Ho Hr.
  rewrite <- (r1 r) in P1.
  destruct (ctu_exec E n r col i p s (mk_cv z d a b0 b1) on rst Hc) as ([c' tr] & A & (_ & B & D)); auto; [unfold cshows; auto|].
  simpl in D; subst tr. exists c'. split; auto. unfold ctu_step, ccount, cdone in B.
  rewrite u32_small in B by lia. destruct on, rst; cbn [creset cv_n cv_d cv_r cv_p0 cv_p1 orb] in B.
  - change (u32 (u32 0 + 1)) with 1 in B. replace (p <=? 1) with false in B by lia.
    destruct B as (_ & _ & B3 & B4 & B5). rewrite r1 in B5. repeat split; auto.
  - destruct a, d; cbn [orb] in B |- *; cbn [cv_n cv_d cv_r cv_p0 cv_p1] in B;
      try (replace (p <=? z) with false in B by lia); try (rewrite (u32_small (z + 1)) in B by lia; replace (p <=? z + 1) with false in B by lia);
      destruct B as (_ & _ & B3 & B4 & B5); rewrite r1 in B5; repeat split; auto.
  - change (u32 0) with 0 in B. replace (p <=? 0) with false in B by lia.
    destruct B as (_ & _ & B3 & B4 & B5). rewrite r1 in B5. repeat split; auto.
  - replace (p <=? z) with false in B by lia. destruct B as (_ & _ & B3 & B4 & B5). rewrite r1 in B5. repeat split; auto.
Qed.
(** C13: one execution from any state of the counter: a powered reset input zeroes it first; then an input that is on, was not
    on, and finds the counter not done, counts one; then the counter is done, and the first row on, if the count is at or
    above the preset (as unsigned 32-bit numbers), however it got there. *)
Lemma C13_any_state_l : forall E s n r col i p on rst z d a b0 b1,
  counter_cell (s_ctx s) n r col i p ->
  holds (s_ctx s) (LReg B_C i) z -> holds (s_ctx s) (LReg B_Cd i) (b2z d) -> holds (s_ctx s) (LReg B_Cr i) (b2z a) ->
  outputs (s_ctx s) n r (S col) b0 b1 -> powered (s_ctx s) n r col on -> powered (s_ctx s) n (S r) col rst ->
  let base := if rst then 0 else z in
  let was_done := negb rst && d in
  let was_on := negb rst && a in
  let edge := on && negb was_on && negb was_done in
  let count := if edge then (base + 1) mod 2 ^ 32 else base in
  let reached := p mod 2 ^ 32 <=? count in
  exists c', runs E I_CTU r (S col) s E_OK c' /\ counter_is c' i count (was_done || reached)
    /\ holds c' (LReg B_Cr i) (b2z (on && (was_on || edge)))
    /\ outputs c' n r (S col) (reached || (negb rst && b0)) (on && (edge || (negb rst && b1))).
Proof.
  intros E s n r col i p on rst z d a b0 b1 Hc Hz Hd Ha (P0 & P1) Ho Hr. cbv zeta.
  rewrite <- (r1 r) in P1.
  destruct (ctu_exec E n r col i p s (mk_cv z d a b0 b1) on rst Hc) as ([c' tr] & A & (_ & B & D)); auto; [unfold cshows; auto|].
  simpl in D; subst tr. exists c'. split; auto. unfold ctu_step, ccount, cdone, creset, u32 in B.
  destruct on, rst, a, d; cbn [cv_n cv_d cv_r cv_p0 cv_p1 orb andb negb] in B |- *;
    change (0 mod 2 ^ 32) with 0 in B;
    match type of B with context [if ?q then _ else _] => destruct q eqn:Q end;
    destruct B as (B1 & B2 & B3 & B4 & B5); rewrite r1 in B5; cbn [cv_n cv_d cv_r cv_p0 cv_p1 s_ctx] in B1, B2, B3, B4, B5;
    unfold counter_is, outputs; rewrite ?Q; cbn [orb andb]; auto.
Qed.
(*EX
(* The count 7 is above the preset 2; the input is on, was off, and nothing resets. *)
Example C13_any_state_case : let c := s_ctx (play quiet_env I_CTU (fun _ => true) (block I_CTU [V R_C 1; V R_NONE 2]) 0) in
  counter_cell c 0 0 0 1 2 /\ holds c (LReg B_C 1) 7 /\ holds c (LReg B_Cd 1) (b2z false) /\ holds c (LReg B_Cr 1) (b2z false)
  /\ outputs c 0 0 1 false false /\ powered c 0 0 0 true /\ powered c 0 1 0 false
  /\ counter_is (after quiet_env I_CTU 0 1 c) 1 8 true.
Proof.
  cbv zeta. split; [split; [decide_exec|split; [do 3 eexists; reflexivity|split; eexists; split; reflexivity]]|].
  repeat match goal with |- _ /\ _ => split end; repeat split; vm_compute; reflexivity.
Qed.
EX*)
(** C13, finding: at column 0 a counter is reset at every execution of a running program, so it never gets beyond 1. *)
Lemma C13_column_zero_actual_l : forall E s n r i v0 v1,
  executing (s_ctx s) n r 0 -> cell_exists (s_ctx s) n (S r) 0 -> peek (s_ctx s) LState = Some (VState S_RUNNING) ->
  peek (s_ctx s) (LData n r 0 0) = Some (VVal v0) -> v_raw v0 = Z.of_nat i ->
  peek (s_ctx s) (LData n r 0 1) = Some (VVal v1) -> 2 <= v_raw v1 < 2 ^ 31 -> counter_exists (s_ctx s) i ->
  exists c', runs E I_CTU r 0 s E_OK c' /\ counter_is c' i 1 false.
Proof.
  intros E s n r i v0 v1 He Hc Hs Hv0 Hi Hv1 Hp (z & a & b & A & (B & B') & (D & D')).
  destruct (cell_powered _ _ _ _ (exec_cell_exists _ _ _ _ He)) as (p0 & P0). destruct (cell_powered _ _ _ _ Hc) as (p1 & P1).
  destruct (ctu_ok E (s_ctx s) (s_tr s) n r 0 i v0 v1 He Hv0 Hi Hv1 true) with (V := mk_cv z (a =? 1) (b =? 1) p0 p1) (s := s) (l := true)
    as ([c' tr] & F & (_ & G & T)).
  - intros V s' H'. eapply cond_left; eauto.
  - split; [intros x _; auto|split; auto]. unfold cshows; cbn [cv_n cv_d cv_r cv_p0 cv_p1]. rewrite r1, !b2z_eqb by auto. auto.
  - reflexivity.
  - simpl in T; subst tr. exists c'. split; [unfold runs, outcome; simpl; rewrite F; auto|].
    unfold ctu_step, ccount, cdone in G. cbn [creset cv_n cv_d cv_r cv_p0 cv_p1 orb] in G. change (u32 (u32 0 + 1)) with 1 in G.
    rewrite u32_small in G by lia. replace (v_raw v1 <=? 1) with false in G by lia. destruct G as (G1 & G2 & _). split; auto.
Qed.
Ltac norm_play := repeat match goal with |- context [play ?E ?i ?on ?c ?k] =>
  let v := eval vm_compute in (play E i on c k) in let H := fresh in
  assert (H : play E i on c k = v) by (vm_compute; reflexivity); rewrite H; clear H end.
Tactic Notation "chist_case" integer(K) constr(a) constr(b) := split;
  [ let k := fresh "k" in intros k ?; do K (destruct k as [|k]; [norm_play; split; [split; [decide_exec|split; [do 3 eexists; reflexivity|
      split; [exists a; split; reflexivity|exists b; split; reflexivity]]]|split; [reflexivity|split; vm_compute; reflexivity]]|]); lia
  | let k := fresh "k" in intros k ? l Hl; do K (destruct k as [|k]; [norm_play; simpl in Hl; destruct Hl as [<-|[<-|[<-|[]]]]; vm_compute; reflexivity|]); lia ].
(*EX
Definition ctu_demo : ctx := block I_CTU [V R_C 2; V R_NONE 2].
(** Input off, on, on, off, on: two edges. *)
Definition ctu_on (k : nat) : bool := nth k [false; true; true; false; true] false.
Example C13_case : let pre := play quiet_env I_CTU ctu_on ctu_demo in
  counter_fresh (s_ctx (pre 0%nat)) 2 0
  /\ counter_history quiet_env I_CTU 0 0 0 2 2 pre (fun k => step1 quiet_env I_CTU (pre k)) ctu_on (fun _ => false) 4
  /\ last_reset (fun _ => false) 0 4 /\ edges ctu_on 0 4 = 2.
Proof.
  cbv zeta. split; [repeat split; reflexivity|]. split; [chist_case 5 (V R_C 2) (V R_NONE 2)|].
  split; [split; [lia|split; auto]|reflexivity].
Qed.
Example C13_reset_case : let c := demo [[cellv I_CONN []; cellv I_CTU [V R_C 1; V R_NONE 9]]; [on (cellv I_CONN []); cellv I_MULTI []]] in
  counter_cell c 0 0 0 1 9 /\ counter_exists c 1 /\ powered c 0 0 0 false /\ powered c 0 1 0 true /\ holds c (LReg B_C 1) 7.
Proof.
  cbv zeta. split; [split; [decide_exec|split; [do 3 eexists; reflexivity|split; eexists; split; reflexivity]]|].
  split; [exists 7, 0, 0; repeat split; auto|]. repeat split.
Qed.
EX*)

(** ** C14 *)
(** C14: executing CTD (right of column 0) always succeeds, calls nothing, and changes nothing but its own counter and
    the power of its two cells. *)
Lemma C14_frame_l : forall E s n r col i p on rst,
  counter_cell (s_ctx s) n r col i p -> counter_exists (s_ctx s) i ->
  powered (s_ctx s) n r col on -> powered (s_ctx s) n (S r) col rst ->
  exists c', runs E I_CTD r (S col) s E_OK c'
    /\ changes_only (s_ctx s) c' (fun l => In l (counter_regs i) \/ l = LPow n r (S col) \/ l = LPow n (S r) (S col)).
Proof.
  intros E s n r col i p on rst Hc He Ho Hr. destruct (counter_shows _ _ _ _ _ _ Hc He) as (V & HV).
  destruct (ctd_exec E n r col i p s V on rst Hc HV Ho Hr) as ([c' tr] & A & (B & _ & D)). simpl in D; subst tr.
  exists c'. split; auto. intros l Hl. apply B. unfold cpl. rewrite r1. auto.
Qed.
(** C14: over any history from a counter loaded with its preset, the count is the preset minus the number of rising
    edges since the last execution with a powered reset input (which reloads the preset), never below 0; the done flag
    is on exactly when the count is 0, and then the first row is powered. *)
Lemma C14_count_l : forall E n r col i p pre post on rst K,
  1 <= p < 2 ^ 31 -> counter_fresh (s_ctx (pre 0%nat)) i p -> counter_history E I_CTD n r col i p pre post on rst K ->
  forall k, (k <= K)%nat ->
    (exists j, last_reset rst j k)
    /\ forall j, last_reset rst j k ->
       let e := edges on j (k - j) in
       counter_is (s_ctx (post k)) i (Z.max 0 (p - e)) (Z.max 0 (p - e) =? 0)
       /\ (p <= e -> powered (s_ctx (post k)) n r (S col) true).
Proof.
  intros E n r col i p pre post on rst K Hp Hf HH k Hk. split; [apply last_reset_exists|].
  intros j (Hj & Hr & Hno) e.
  destruct (cnt_hist ctd_step I_CTD E n r col i p p pre post on rst K (ctd_exec E n r col i p) (ctd_core p) HH Hf k Hk) as (V & A & B & C).
  assert (Hc : core (ctd_step p (on k) (rst k) V) = core (cbefore ctd_step p p on rst (S k))) by (apply ctd_core; auto).
  destruct (ctd_values p on rst j (k - j) Hp) as (D & F & _); [destruct Hr as [?|(? & _)]; auto|intros; apply Hno; lia|].
  replace (j + (k - j))%nat with k in D, F by lia. pose proof (f_equal (fun t => fst (fst t)) Hc) as H1. pose proof (f_equal (fun t => snd (fst t)) Hc) as H2.
  unfold core in H1, H2. cbn [fst snd] in H1, H2. rewrite D in H1. rewrite F in H2. fold e in H1, H2.
  destruct C as (C1 & C2 & C3 & C4 & C5). rewrite H1 in C1. rewrite H2 in C2. split; [split; auto|].
  - replace (Z.max 0 (p - e) =? 0) with (p <=? e) by lia. auto.
  - intros He. unfold ctd_step, cdone in C4. unfold ctd_step, cdone in H1.
    remember (ccount (-1) (on k) (if rst k then creset p else V)) as W. destruct (cv_n W =? 0) eqn:Hq; auto. exfalso. lia.
Qed.
(** C14: a powered reset input, with the count input off, loads the preset, clears done and unpowers both rows. *)
Lemma C14_reset_l : forall E s n r col i p,
  1 <= p < 2 ^ 31 -> counter_cell (s_ctx s) n r col i p -> counter_exists (s_ctx s) i ->
  powered (s_ctx s) n r col false -> powered (s_ctx s) n (S r) col true ->
  exists c', runs E I_CTD r (S col) s E_OK c' /\ counter_is c' i p false /\ outputs c' n r (S col) false false.
Proof.
  intros E s n r col i p Hp Hc He Ho Hr. destruct (counter_shows _ _ _ _ _ _ Hc He) as (V & HV).
  destruct (ctd_exec E n r col i p s V _ _ Hc HV Ho Hr) as ([c' tr] & A & (_ & B & D)). simpl in D; subst tr.
  exists c'. split; auto. unfold ctd_step, ccount, cdone in B. cbn [creset cv_n cv_d cv_r cv_p0 cv_p1] in B.
  rewrite u32_small in B by lia. replace (p =? 0) with false in B by lia. destruct B as (B1 & B2 & B3 & B4 & B5). rewrite r1 in B5.
  repeat split; auto.
Qed.
(** C14: the power of the two rows when the count stays above zero. *)
Lemma C14_outputs_l : forall E s n r col i p on rst z d a b0 b1,
  2 <= p < 2 ^ 31 -> counter_cell (s_ctx s) n r col i p ->
  holds (s_ctx s) (LReg B_C i) z -> holds (s_ctx s) (LReg B_Cd i) (b2z d) -> holds (s_ctx s) (LReg B_Cr i) (b2z a) ->
  outputs (s_ctx s) n r (S col) b0 b1 -> 2 <= z < 2 ^ 32 ->
  powered (s_ctx s) n r col on -> powered (s_ctx s) n (S r) col rst ->
  exists c', runs E I_CTD r (S col) s E_OK c'
    /\ outputs c' n r (S col) (if rst then false else b0)
         (if on then (if rst then true else if a || d then b1 else true) else false)
    /\ holds c' (LReg B_Cr i) (b2z (if on then (if rst then true else if d then a else true) else false)).
Proof.
  intros E s n r col i p on rst z d a b0 b1 Hp Hc Hz Hd Ha (P0 & P1) Hz0 Ho Hr.
  rewrite <- (r1 r) in P1.
  destruct (ctd_exec E n r col i p s (mk_cv z d a b0 b1) on rst Hc) as ([c' tr] & A & (_ & B & D)); auto; [unfold cshows; auto|].
  simpl in D; subst tr. exists c'. split; auto. unfold ctd_step, ccount, cdone in B.
  destruct on, rst; cbn [creset cv_n cv_d cv_r cv_p0 cv_p1 orb] in B.
  - rewrite (u32_small p), (u32_small (p + -1)) in B by lia. replace (p + -1 =? 0) with false in B by lia.
    destruct B as (_ & _ & B3 & B4 & B5). rewrite r1 in B5. repeat split; auto.
  - destruct a, d; cbn [orb] in B |- *; cbn [cv_n cv_d cv_r cv_p0 cv_p1] in B;
      try (replace (z =? 0) with false in B by lia); try (rewrite (u32_small (z + -1)) in B by lia; replace (z + -1 =? 0) with false in B by lia);
      destruct B as (_ & _ & B3 & B4 & B5); rewrite r1 in B5; repeat split; auto.
  - rewrite (u32_small p) in B by lia. replace (p =? 0) with false in B by lia.
    destruct B as (_ & _ & B3 & B4 & B5). rewrite r1 in B5. repeat split; auto.
  - replace (z =? 0) with false in B by lia. destruct B as (_ & _ & B3 & B4 & B5). rewrite r1 in B5. repeat split; auto.
Qed.
(** C14: one execution from any state of the counter: a powered reset input loads the preset first; then an input that is on,
    was not on, and finds the counter not done, takes one away, wrapping below 0; then the counter is done, and the first
    row on, if the count is 0. *)
Lemma C14_any_state_l : forall E s n r col i p on rst z d a b0 b1,
  counter_cell (s_ctx s) n r col i p ->
  holds (s_ctx s) (LReg B_C i) z -> holds (s_ctx s) (LReg B_Cd i) (b2z d) -> holds (s_ctx s) (LReg B_Cr i) (b2z a) ->
  outputs (s_ctx s) n r (S col) b0 b1 -> powered (s_ctx s) n r col on -> powered (s_ctx s) n (S r) col rst ->
  let base := if rst then p mod 2 ^ 32 else z in
  let was_done := negb rst && d in
  let was_on := negb rst && a in
  let edge := on && negb was_on && negb was_done in
  let count := if edge then (base + -1) mod 2 ^ 32 else base in
  let reached := count =? 0 in
  exists c', runs E I_CTD r (S col) s E_OK c' /\ counter_is c' i count (was_done || reached)
    /\ holds c' (LReg B_Cr i) (b2z (on && (was_on || edge)))
    /\ outputs c' n r (S col) (reached || (negb rst && b0)) (on && (edge || (negb rst && b1))).
Proof.
  intros E s n r col i p on rst z d a b0 b1 Hc Hz Hd Ha (P0 & P1) Ho Hr. cbv zeta.
  rewrite <- (r1 r) in P1.
  destruct (ctd_exec E n r col i p s (mk_cv z d a b0 b1) on rst Hc) as ([c' tr] & A & (_ & B & D)); auto; [unfold cshows; auto|].
  simpl in D; subst tr. exists c'. split; auto. unfold ctd_step, ccount, cdone, creset, u32 in B.
  destruct on, rst, a, d; cbn [cv_n cv_d cv_r cv_p0 cv_p1 orb andb negb] in B |- *;
    change (0 mod 2 ^ 32) with 0 in B;
    match type of B with context [if ?q then _ else _] => destruct q eqn:Q end;
    destruct B as (B1 & B2 & B3 & B4 & B5); rewrite r1 in B5; cbn [cv_n cv_d cv_r cv_p0 cv_p1 s_ctx] in B1, B2, B3, B4, B5;
    unfold counter_is, outputs; rewrite ?Q; cbn [orb andb]; auto.
Qed.
(*EX
(* The count 7 is above the preset 2; the input is on, was off, and nothing resets. *)
Example C14_any_state_case : let c := s_ctx (play quiet_env I_CTD (fun _ => true) (block I_CTD [V R_C 1; V R_NONE 2]) 0) in
  counter_cell c 0 0 0 1 2 /\ holds c (LReg B_C 1) 7 /\ holds c (LReg B_Cd 1) (b2z false) /\ holds c (LReg B_Cr 1) (b2z false)
  /\ outputs c 0 0 1 false false /\ powered c 0 0 0 true /\ powered c 0 1 0 false
  /\ counter_is (after quiet_env I_CTD 0 1 c) 1 6 false.
Proof.
  cbv zeta. split; [split; [decide_exec|split; [do 3 eexists; reflexivity|split; eexists; split; reflexivity]]|].
  repeat match goal with |- _ /\ _ => split end; repeat split; vm_compute; reflexivity.
Qed.
EX*)
(** C14, finding: a counter that was never loaded (count 0, not done) wraps to 2^32 - 1 on its first edge. *)
Lemma C14_unloaded_actual_l : forall E s n r col i p,
  counter_cell (s_ctx s) n r col i p -> counter_fresh (s_ctx s) i 0 ->
  powered (s_ctx s) n r col true -> powered (s_ctx s) n (S r) col false ->
  exists c', runs E I_CTD r (S col) s E_OK c' /\ counter_is c' i (2 ^ 32 - 1) false.
Proof.
  intros E s n r col i p Hc Hf Ho Hr. destruct (fresh_shows _ _ _ _ _ _ _ Hc Hf) as (p0 & p1 & HV).
  destruct (ctd_exec E n r col i p s _ _ _ Hc HV Ho Hr) as ([c' tr] & A & (_ & B & D)). simpl in D; subst tr.
  exists c'. split; auto. destruct B as (B1 & B2 & _). split; auto.
Qed.
(*EX
Example C14_case : let pre := play quiet_env I_CTD ctu_on (block I_CTD [V R_C 1; V R_NONE 7]) in
  counter_fresh (s_ctx (pre 0%nat)) 1 7
  /\ counter_history quiet_env I_CTD 0 0 0 1 7 pre (fun k => step1 quiet_env I_CTD (pre k)) ctu_on (fun _ => false) 4
  /\ last_reset (fun _ => false) 0 4 /\ edges ctu_on 0 4 = 2.
Proof.
  cbv zeta. split; [repeat split; reflexivity|]. split; [chist_case 5 (V R_C 1) (V R_NONE 7)|].
  split; [split; [lia|split; auto]|reflexivity].
Qed.
EX*)
