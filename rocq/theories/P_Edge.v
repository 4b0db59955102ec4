(** edges and latches over cycles (C06 to C08). *)
From Verif Require Import DemoTask.
From Verif Require Export P_Cycle.
(*IMPORT DemoTask *)

Lemma layout_shape c c' : same_program c c' -> stores_ok c -> stores_ok c'.
Proof.
  intros H. apply stores_shape. intros l L. destruct l; simpl in L; try contradiction; apply (same_get _ _ _ H); exact I.
Qed.
Lemma same_operand c c' n r col i v : same_program c c' -> (exists rows cols, peek c (LNet n) = Some (VNet true rows cols)) -> operand_at c n r col i v -> operand_at c' n r col i v.
Proof.
  intros H (rows & cols & N) [A (b & k & d & B & D)]. split.
  - rewrite H; auto; [exact I|discriminate|]. intros n0 r0 c0 i0 rw cl K. injection K as <- <- <- <-. congruence.
  - exists b, k, d. rewrite (same_get _ _ (LCell _ _ _) H I I). auto.
Qed.
Lemma same_writes c c' l : same_program c c' -> scan_writes c' l <-> scan_writes c l.
Proof.
  intros H. assert (SC : forall n rows cols, scanned c' n rows cols <-> scanned c n rows cols).
  { intros n rows cols. unfold scanned. destruct (same_q _ _ H) as (-> & _). now rewrite (same_net _ _ n H). }
  assert (IP : forall n r col i, in_program c' n r col i <-> in_program c n r col i).
  { intros n r col i. unfold in_program. setoid_rewrite SC. setoid_rewrite (same_get _ _ (LCell n r col) H I I). reflexivity. }
  unfold scan_writes. rewrite (same_cron_flag _ _ l H). setoid_rewrite SC.
  assert (NM : (exists n r col i, in_program c' n r col i /\ names c' i n r col l) <-> (exists n r col i, in_program c n r col i /\ names c i n r col l)).
  { split; intros (n & r & col & i & A & B); exists n, r, col, i; [apply IP in A|apply IP in A as A']; (split; [auto|]);
      (assert (X : exists rows cols, peek c (LNet n) = Some (VNet true rows cols)) by (destruct A as (rows & cols & b & dq & [_ K] & _); rewrite ?(same_net _ _ n H) in K; eauto));
      destruct X as (rows & cols & X); eapply (same_names c c' i n r col l rows cols H X); auto. }
  rewrite NM. reflexivity.
Qed.
(** What is known of an instruction when it is reached. *)
Section Rf.
Context (E : env) (W : event -> loc -> Prop) (m : Z) (s a : st).
Hypothesis (CB : callbacks E W) (TA : tame W) (SA : scan_ready E (during_scan W) (s_ctx a) m) (SP : same_program (s_ctx s) (s_ctx a)).
Lemma reach_facts n r col t e t' : reaches E W a n r col t e t' ->
  same_program (s_ctx s) (s_ctx t) /\ executing (s_ctx t) n r col /\ outcome E (code_at (s_ctx s) n r col) r col t = Some (Ok (e, t'))
  /\ (forall i v, operand_at (s_ctx s) n r col i v -> operand_at (s_ctx t) n r col i v).
Proof.
  intros RE. assert (ST : same_program (s_ctx s) (s_ctx t)).
  { destruct (reach_frame E W a m SA n r col t e t' RE) as [J _]. eapply same_trans; [exact SP|]. eapply scan_same; [exact J|].
    intros p [K|(x & y & z' & ->)]; [now apply (sr_layout _ _ _ _ SA)|simpl; auto]. }
  destruct RE as (a0 & b4 & af & CR & PC & X & LX & bar & i & dq & C & O).
  assert (IN : In (n, r, col) (program_cells (s_ctx s))) by (rewrite <- (same_cells _ _ SP), PC; apply in_app_iff; right; left; auto).
  apply program_cells_in in IN as (rows & cols & [SC1 SC2] & R & CO & _). split; auto. split.
  { split; auto. split; [exists true, rows, cols; rewrite (same_net _ _ n ST); auto|eauto]. }
  split. { rewrite (same_get _ _ (LCell _ _ _) ST I I) in C. unfold code_at. now rewrite C. }
  intros j v. apply same_operand; auto. eauto.
Qed.
End Rf.
(** What is known of a cycle without fault. *)
Record whole (E : env) (W : event -> loc -> Prop) (m : Z) (s a b s' : st) (t0 : Z) : Prop := {
  wh_begins : begins W s a t0;
  wh_scans : scans E a b;
  wh_ready : scan_ready E (during_scan W) (s_ctx a) m;
  wh_inv : peek (s_ctx b) LState <> Some (VState S_INV);
  wh_same : same_program (s_ctx s) (s_ctx a);
  wh_same_b : same_program (s_ctx s) (s_ctx b);
  wh_same' : same_program (s_ctx s) (s_ctx s');
  wh_saved : remembers (s_ctx s) -> forall l h, saved (s_ctx s) l -> past l = Some h -> peek (s_ctx a) h = peek (s_ctx s) l;
  wh_in : forall l h, input_kept (s_ctx s) l -> past l = Some h -> peek (s_ctx a) h = peek (s_ctx s) l;
  wh_scan : changes_only (s_ctx a) (s_ctx b) (fun l => scan_writes (s_ctx a) l \/ during_scan W l);
  wh_kept : forall l, past l <> None -> peek (s_ctx s') l = peek (s_ctx b) l }.
Lemma cycle_whole E W m s s' : cycle_ready E W (s_ctx s) m -> cycle E s = Ok (T_continue, s') -> exists a b t0, whole E W m s a b s' t0.
Proof.
  intros [CB TA TR SR] H. destruct (cycle_ok E W CB TA s m TR SR s' H) as (a & b & t0 & t1 & si & si1 & si2 & [P1 P2 P3 P4 (P5 & P6 & P7) P8 P9 P10 P11 P12 P13 P14 P15 P16 P17 P18]).
  exists a, b, t0. constructor; auto.
  intros R l h SV P. destruct (kept_dec (s_ctx s) l SV) as [D|D]; [now apply P13|]. rewrite (P14 l h P); auto. intros [K _]. apply input_now in K as (x & k & i & -> & _).
  destruct SV as [(bk & j & _ & _ & K)|(x' & id & qd & qa & j & _ & _ & [(K & _)|(K & _)])]; discriminate.
Qed.
Lemma place_past v l : place_now v = Some l -> exists h, past l = Some h.
Proof. unfold place_now. destruct (v_type v); try discriminate; intros K; injection K as <-; simpl; eauto. Qed.
(** The history of an operand, as an instruction of the cycle sees it. *)
Lemma seen_before E W m s a : tame W -> scan_ready E (during_scan W) (s_ctx a) m -> same_program (s_ctx s) (s_ctx a) ->
  (forall l h, saved (s_ctx s) l -> past l = Some h -> peek (s_ctx a) h = peek (s_ctx s) l) ->
  (forall l h, input_kept (s_ctx s) l -> past l = Some h -> peek (s_ctx a) h = peek (s_ctx s) l) ->
  forall n r col t e t' v z, reaches E W a n r col t e t' -> has_history (s_ctx s) v -> prev_reads (s_ctx t) v z <-> reads (s_ctx s) v z.
Proof.
  intros TA SA SP HA HI n r col t e t' v z RE (l & PN & PL & RW). destruct (place_past v l PN) as (h & P).
  assert (PK : peek (s_ctx t) h = peek (s_ctx s) l).
  { rewrite (reach_past E W m a n r col t e t' h TA SA RE (ex_intro _ l P)). destruct PL as [PL|[PL|PL]]; [apply HA; auto; left; auto|apply HA; auto; right; auto|apply HI; auto].
    split; auto. unfold place_now in PN. destruct (v_type v); try discriminate; injection PN as <-; try exact I; [|now apply digital_i].
    destruct PL as (m' & id & qd & qa & j & A & _ & [(K & _)|(K & _)]); discriminate. }
  destruct (reach_facts E W m s a SA SP n r col t e t' RE) as (ST & _).
  eapply prev_now; eauto. destruct (v_type v); auto; destruct RW as [K|[K|K]]; auto; discriminate.
Qed.

(** ** C06 *)

Lemma reads_move c c' v l z : same_program c c' -> place_now v = Some l -> peek c' l = peek c l -> reads c v z -> reads c' v z.
Proof.
  intros SP PN PK. destruct (same_q _ _ SP) as (Q & IO & _). assert (HO : forall y, holds c l y -> holds c' l y) by (unfold holds; rewrite PK; auto).
  assert (HF : forall y, holds_flag c l y -> holds_flag c' l y) by (unfold holds_flag; intros y [A B]; auto).
  assert (BA : forall b, bank_arr b c <> None -> bank_arr b c' <> None).
  { intros b N K. apply N. pose proof (same_get _ _ (LRegLen b) SP I I) as L. simpl in L. rewrite K in L. destruct (bank_arr b c); [discriminate|reflexivity]. }
  unfold reads, bad_index. rewrite Q, IO. unfold place_now in PN.
  destruct (v_type v) eqn:TY; try discriminate; injection PN as <-; cbn [bank_of]; (intros [(A & B & D)|(A & D)]; [left; split; auto; split; auto; intros b K; injection K as <-; auto|right; split; auto]).
  all: try (destruct (_ <? _); auto).
Qed.
Lemma reads_move' c c' v l z : same_program c c' -> place_now v = Some l -> peek c' l = peek c l -> reads c' v z -> reads c v z.
Proof.
  intros SP PN PK. destruct (same_q _ _ SP) as (Q & IO & _). assert (HO : forall y, holds c' l y -> holds c l y) by (unfold holds; rewrite PK; auto).
  assert (HF : forall y, holds_flag c' l y -> holds_flag c l y) by (unfold holds_flag; intros y [A B]; auto).
  assert (BA : forall b, bank_arr b c' <> None -> bank_arr b c <> None).
  { intros b N K. apply N. pose proof (same_get _ _ (LRegLen b) SP I I) as L. simpl in L. rewrite K in L. destruct (bank_arr b c'); [discriminate|reflexivity]. }
  unfold reads, bad_index. rewrite Q, IO. unfold place_now in PN.
  destruct (v_type v) eqn:TY; try discriminate; injection PN as <-; cbn [bank_of]; (intros [(A & B & D)|(A & D)]; [left; split; auto; split; auto; intros b K; injection K as <-; auto|right; split; auto]).
  all: try (destruct (_ <? _); auto).
Qed.
(** An input in the configured range has a value. *)
Lemma input_reads c v : ins_sized c -> has_history c v -> v_type v = R_I -> exists z, reads c v z.
Proof.
  intros SZ (l & PN & PL & _) TY. unfold place_now in PN. rewrite TY in PN. injection PN as <-.
  destruct PL as [(b & i & _ & _ & K)|[(x & id & qd & qa & i & _ & _ & [(K & _)|(K & _)])|(x & id & qd & qa & i & L & MT & [(K & IL & L1 & L2)|(K & _)])]]; try discriminate. injection K as <- <-.
  destruct SZ as [SZ|SZ]; [simpl in MT, SZ; destruct (x_in c); discriminate|]. destruct (SZ _ L) as (id' & qd' & qa' & MT' & SZ1). rewrite MT in MT'. injection MT' as <- <- <-.
  destruct (SZ1 K_I) as [K|(n & K & LE)]; [contradiction|]. simpl in LE. simpl in K. destruct (elem (x_in c) (ix (v_module v))) as [im|] eqn:EL; [|discriminate]. simpl in K.
  destruct (i_I im) as [arr|] eqn:AR; [|discriminate]. simpl in K. injection K as K.
  assert (exists z, nth_error arr (ix (v_port v)) = Some z) as (z & Z) by (apply nth_lt_some; lia).
  exists z. right. unfold bad_index. rewrite TY. cbn [bank_of]. split; [tauto|]. pose proof (v_module_range v). unfold ix in L. replace (v_module v <? Z.of_nat (io_rq (x_io c))) with true by lia.
  unfold holds. simpl. rewrite EL. simpl. rewrite AR. simpl. now rewrite Z.
Qed.
(** C06: with the histories up to date (as they are after every cycle, C32_run), the contact RE conducts, in every cycle and
    each time it is executed, iff there is power on its left and its operand is non-zero now and was zero when the cycle began. *)
Lemma C06_rising_l : forall E W m s s' nx, cycle_ready E W (s_ctx s) m -> cycle E s = Ok (nx, s') -> remembers (s_ctx s) ->
  exists a b t0, begins W s a t0 /\ scans E a b /\ forall n r col t e t' v z o p, reaches E W a n r col t e t' ->
    code_at (s_ctx s) n r col = I_RE -> operand_at (s_ctx s) n r col 0 v -> has_history (s_ctx s) v ->
    left_powered (s_ctx t) n r col p -> reads (s_ctx t) v z -> reads (s_ctx s) v o -> powered (s_ctx t') n r col (p && negb (z =? 0) && (o =? 0)).
Proof.
  intros E W m s s' nx [CB TA TR SR] H R.
  destruct (cycle_opens E W m s s' nx CB TA TR SR H) as (a & b & t0 & B & X & SA & SP & HA & HI & _). exists a, b, t0. split; auto. split; auto.
  intros n r col t e t' v z o p RE CO OP HH LP RT RS.
  destruct (reach_facts E W m s a SA SP n r col t e t' RE) as (ST & EX & OC & OT). apply OT in OP.
  apply (seen_before E W m s a TA SA SP (HA R) HI n r col t e t' v o RE HH) in RS.
  unfold outcome in OC. rewrite CO in OC. simpl in OC. injection OC as OC. rewrite (re_ok E t n r col EX v z o p LP OP RT RS) in OC. injection OC as <- <-. cbn [s_ctx].
  replace (p && negb (z =? 0) && (o =? 0)) with (negb (z =? 0) && (o =? 0) && p) by (destruct p, (z =? 0), (o =? 0); reflexivity).
  apply powered_pow_here. fr.
Qed.
(** C06: the contact FE conducts on the opposite transition. *)
Lemma C06_falling_l : forall E W m s s' nx, cycle_ready E W (s_ctx s) m -> cycle E s = Ok (nx, s') -> remembers (s_ctx s) ->
  exists a b t0, begins W s a t0 /\ scans E a b /\ forall n r col t e t' v z o p, reaches E W a n r col t e t' ->
    code_at (s_ctx s) n r col = I_FE -> operand_at (s_ctx s) n r col 0 v -> has_history (s_ctx s) v ->
    left_powered (s_ctx t) n r col p -> reads (s_ctx t) v z -> reads (s_ctx s) v o -> powered (s_ctx t') n r col (p && (z =? 0) && negb (o =? 0)).
Proof.
  intros E W m s s' nx [CB TA TR SR] H R.
  destruct (cycle_opens E W m s s' nx CB TA TR SR H) as (a & b & t0 & B & X & SA & SP & HA & HI & _). exists a, b, t0. split; auto. split; auto.
  intros n r col t e t' v z o p RE CO OP HH LP RT RS.
  destruct (reach_facts E W m s a SA SP n r col t e t' RE) as (ST & EX & OC & OT). apply OT in OP.
  apply (seen_before E W m s a TA SA SP (HA R) HI n r col t e t' v o RE HH) in RS.
  unfold outcome in OC. rewrite CO in OC. simpl in OC. injection OC as OC. rewrite (fe_ok E t n r col EX v z o p LP OP RT RS) in OC. injection OC as <- <-. cbn [s_ctx].
  replace (p && (z =? 0) && negb (o =? 0)) with ((z =? 0) && negb (o =? 0) && p) by (destruct p, (z =? 0), (o =? 0); reflexivity).
  apply powered_pow_here. fr.
Qed.
(** C06: an operand that nothing sets during a scan has, at every instruction of a cycle, the value it has at the end of the
    cycle; for an input this is the value read in this cycle. So the contacts compare the ends of successive cycles. *)
Lemma C06_steady_l : forall E W m s s', cycle_ready E W (s_ctx s) m -> cycle E s = Ok (T_continue, s') ->
  exists a b t0, begins W s a t0 /\ scans E a b /\ forall n r col t e t' v l z, reaches E W a n r col t e t' ->
    place_now v = Some l -> left_alone W (s_ctx s) l -> reads (s_ctx t) v z <-> reads (s_ctx s') v z.
Proof.
  intros E W m s s' CY H. destruct (cycle_whole E W m s s' CY H) as (a & b & t0 & P). exists a, b, t0. split; [apply P|]. split; [apply P|].
  intros n r col t e t' v l z RE PN [NS ND]. destruct (place_past v l PN) as (h & PA).
  assert (NS' : ~ scan_writes (s_ctx a) l) by (rewrite (same_writes _ _ l (wh_same _ _ _ _ _ _ _ _ P)); auto).
  destruct (reach_facts E W m s a (wh_ready _ _ _ _ _ _ _ _ P) (wh_same _ _ _ _ _ _ _ _ P) n r col t e t' RE) as (ST & _).
  assert (PK : peek (s_ctx t) l = peek (s_ctx s') l).
  { rewrite (wh_kept _ _ _ _ _ _ _ _ P) by congruence. destruct (reach_frame E W a m (wh_ready _ _ _ _ _ _ _ _ P) n r col t e t' RE) as [J _].
    rewrite (J l); [|intros [K|[K|(x & y & z' & ->)]]; [auto|auto|discriminate]]. symmetry. apply (wh_scan _ _ _ _ _ _ _ _ P). tauto. }
  assert (SS : same_program (s_ctx t) (s_ctx s')).
  { intros x L1 L2 L3. rewrite (wh_same' _ _ _ _ _ _ _ _ P x L1 L2). symmetry. apply ST; auto. all: intros; rewrite <- (same_net _ _ _ ST); eauto. }
  split; intros K; [eapply reads_move|eapply reads_move']; eauto.
Qed.
Lemma edge_run i pulses (PF : (i = I_RE /\ pulses = rises) \/ (i = I_FE /\ pulses = falls)) : forall E W m k s s' n r v l z,
  cycle_ready E W (s_ctx s) m -> remembers (s_ctx s) -> in_time (s_ctx s) m -> goes E W k s s' ->
  In (n, r, 0%nat) (program_cells (s_ctx s)) -> code_at (s_ctx s) n r 0 = i -> operand_at (s_ctx s) n r 0 0 v ->
  v_type v = R_I -> has_history (s_ctx s) v -> place_now v = Some l -> left_alone W (s_ctx s) l -> reads (s_ctx s) v z ->
  exists lg, length lg = k /\ log E W (contact_cycle E W n r 0 v) s lg s' /\ map snd lg = pulses (negb (z =? 0)) (map fst lg).
Proof.
  intros E W m k s s' n r v l z CY RM IT G. revert z CY RM IT.
  induction G as [s|j k s s1 s2 s3 WT J RU CC GO IH]; intros z CY RM IT IN CO OP TY HH PN LA RS.
  - exists []. split; auto. split; [constructor|]. destruct PF as [[_ ->]|[_ ->]]; reflexivity.
  - pose proof CY as [CB TA TR SR]. destruct (waits_ready E W CB TA _ _ _ _ TR SR WT) as (T1 & S1 & P1 & R1). destruct (waits_keep E W CB TA _ _ _ WT) as (_ & _ & _ & KP).
    destruct (cycle_keeps E W CB TA _ _ _ T1 S1 CC) as (T2 & S2 & P2 & R2). pose proof (Build_cycle_ready _ _ _ _ CB TA T1 S1) as CY1.
    assert (P12 : same_program (s_ctx s) (s_ctx s2)) by (eapply same_trans; eauto).
    assert (XF : forall c, same_program (s_ctx s) c -> has_history c v /\ left_alone W c l /\ operand_at c n r 0 0 v /\ code_at c n r 0 = i /\ In (n, r, 0%nat) (program_cells c) /\ in_time c m).
    { intros c SC. pose proof (same_conf _ _ SC) as L. split. { destruct HH as (l0 & A & B & D). exists l0. rewrite (flag_conf _ _ l0 L), (output_conf _ _ l0 L), (input_conf _ _ l0 L). auto. }
      split. { unfold left_alone in *. now rewrite (same_writes _ _ l SC). }
      split. { eapply same_operand; eauto. apply program_cells_in in IN as (rows & cols & [_ K] & _). eauto. }
      split; [now rewrite (proj1 (same_code _ _ n r 0 SC))|]. split; [now rewrite (same_cells _ _ SC)|].
      intros x X. destruct (same_q _ _ SC) as (Q & _). rewrite Q in X. rewrite (same_cost _ _ x SC). now apply IT. }
    destruct (XF _ P1) as (HH1 & LA1 & OP1 & CO1 & IN1 & IT1). destruct (XF _ P12) as (HH2 & LA2 & OP2 & CO2 & IN2 & IT2).
    destruct (place_past v l PN) as (h & PA).
    assert (RS1 : reads (s_ctx s1) v z) by (eapply reads_move; eauto; apply KP; left; congruence).
    destruct (input_reads (s_ctx s2) v (tr_ins _ T2) HH2 TY) as (z2 & RS2).
    assert (RM2 : remembers (s_ctx s2)) by auto.
    destruct (IH z2 (Build_cycle_ready _ _ _ _ CB TA T2 S2) RM2 IT2 IN2 CO2 OP2 TY HH2 PN LA2 RS2) as (lg & LG1 & LG2 & LG3).
    set (q := match i with I_RE => negb (negb (z =? 0)) && negb (z2 =? 0) | _ => negb (z =? 0) && negb (negb (z2 =? 0)) end).
    exists ((negb (z2 =? 0), q) :: lg). split; [simpl; auto|]. split.
    + econstructor; eauto. split; [exists z2; split; auto|].
      destruct (cycle_whole E W m s1 s2 CY1 CC) as (a & b & t0 & P). exists a, b, t0. split; [apply P|]. split; [apply P|].
      pose proof (wh_same _ _ _ _ _ _ _ _ P) as SP. pose proof (wh_ready _ _ _ _ _ _ _ _ P) as SA. split.
      { apply (scan_visits E W a m SA b); [apply P|apply P| |now rewrite (same_cells _ _ SP)].
        intros x X. destruct (same_q _ _ SP) as (Q & _). rewrite Q in X. rewrite (same_cost _ _ x SP). now apply IT1. }
      intros t e t' RE. destruct (reach_facts E W m s1 a SA SP n r 0 t e t' RE) as (ST & EX & OC & OT). pose proof (OT _ _ OP1) as OPt.
      pose proof (proj2 (seen_before E W m s1 a TA SA SP (wh_saved _ _ _ _ _ _ _ _ P (R1 RM)) (wh_in _ _ _ _ _ _ _ _ P) n r 0 t e t' v z RE HH1) RS1) as RP.
      assert (PK : peek (s_ctx s2) l = peek (s_ctx t) l).
      { rewrite (wh_kept _ _ _ _ _ _ _ _ P) by congruence. destruct (reach_frame E W a m SA n r 0 t e t' RE) as [JF _].
        destruct LA1 as [NS ND]. rewrite <- (same_writes _ _ l SP) in NS. rewrite (JF l); [|intros [K|[K|(x & y & z' & ->)]]; [auto|auto|discriminate]]. apply (wh_scan _ _ _ _ _ _ _ _ P). tauto. }
      assert (RT : reads (s_ctx t) v z2).
      { eapply (reads_move' (s_ctx t) (s_ctx s2)); eauto. intros x L1 L2 L3. rewrite (wh_same' _ _ _ _ _ _ _ _ P x L1 L2); [symmetry; apply ST; auto|]; intros; rewrite <- (same_net _ _ _ ST); eauto. }
      unfold outcome in OC. rewrite CO1 in OC. unfold q. destruct PF as [[-> _]|[-> _]]; simpl in OC; injection OC as OC.
      * rewrite (re_ok E t n r 0 EX v z2 z true eq_refl OPt RT RP) in OC. injection OC as <- <-. cbn [s_ctx snd]. rewrite negb_involutive.
        replace ((z =? 0) && negb (z2 =? 0)) with (negb (z2 =? 0) && (z =? 0) && true) by (destruct (z =? 0), (z2 =? 0); reflexivity). apply powered_pow_here. fr.
      * rewrite (fe_ok E t n r 0 EX v z2 z true eq_refl OPt RT RP) in OC. injection OC as <- <-. cbn [s_ctx snd]. rewrite negb_involutive.
        replace (negb (z =? 0) && (z2 =? 0)) with ((z2 =? 0) && negb (z =? 0) && true) by (destruct (z =? 0), (z2 =? 0); reflexivity). apply powered_pow_here. fr.
    + cbn [map fst snd]. rewrite LG3. unfold q. destruct PF as [[-> ->]|[-> ->]]; reflexivity.
Qed.
(** C06: one pulse per edge. In a run of the task, a contact RE on an input that nothing sets during scans, standing at the left
    rail, conducts in exactly those cycles in which the input is non-zero after having been zero in the cycle before. *)
Lemma C06_run_l : forall E W m k s s' n r v l z,
  cycle_ready E W (s_ctx s) m -> remembers (s_ctx s) -> in_time (s_ctx s) m -> goes E W k s s' ->
  In (n, r, 0%nat) (program_cells (s_ctx s)) -> code_at (s_ctx s) n r 0 = I_RE -> operand_at (s_ctx s) n r 0 0 v ->
  v_type v = R_I -> has_history (s_ctx s) v -> place_now v = Some l -> left_alone W (s_ctx s) l -> reads (s_ctx s) v z ->
  exists lg, length lg = k /\ log E W (contact_cycle E W n r 0 v) s lg s' /\ map snd lg = rises (negb (z =? 0)) (map fst lg).
Proof. apply edge_run. auto. Qed.
(** C06: and FE in exactly those cycles in which it is zero after having been non-zero. *)
Lemma C06_run_falling_l : forall E W m k s s' n r v l z,
  cycle_ready E W (s_ctx s) m -> remembers (s_ctx s) -> in_time (s_ctx s) m -> goes E W k s s' ->
  In (n, r, 0%nat) (program_cells (s_ctx s)) -> code_at (s_ctx s) n r 0 = I_FE -> operand_at (s_ctx s) n r 0 0 v ->
  v_type v = R_I -> has_history (s_ctx s) v -> place_now v = Some l -> left_alone W (s_ctx s) l -> reads (s_ctx s) v z ->
  exists lg, length lg = k /\ log E W (contact_cycle E W n r 0 v) s lg s' /\ map snd lg = falls (negb (z =? 0)) (map fst lg).
Proof. apply edge_run. auto. Qed.

(*EX
(* Six cycles in which input 0 is 0, 0, 1, 1, 0, 0: RE pulses in the third and FE in the fifth. *)
Definition edge_env (d : Z) : env := task_env (fun k => 5 * Z.of_nat k) (fun k i => if (i =? 0)%nat then (Z.of_nat k / d) mod 2 else 0) (fun _ => None).
Definition edge_prog : ctx := synced (demo_task [[cellv I_RE [V R_I 0]; cellv I_COIL [V R_M 1]]; [cellv I_FE [V R_I 0]; cellv I_COIL [V R_Q 0]]]).
Example C06_case :
  let s' := ran (edge_env 22) 6 edge_prog in
  cycle_ready (edge_env 22) task_w edge_prog 1000 /\ remembers edge_prog /\ in_time edge_prog 1000 /\ goes (edge_env 22) task_w 6 (start edge_prog) s'
  /\ In (0, 0, 0)%nat (program_cells edge_prog) /\ code_at edge_prog 0 0 0 = I_RE /\ operand_at edge_prog 0 0 0 0 (V R_I 0)
  /\ has_history edge_prog (V R_I 0) /\ place_now (V R_I 0) = Some (LIn 0 K_I 0) /\ left_alone task_w edge_prog (LIn 0 K_I 0)
  /\ reads edge_prog (V R_I 0) 1 /\ rises true [false; false; true; true; false; false] = [false; false; true; false; false; false]
  /\ map (fun k => peek (s_ctx (ran (edge_env 22) k edge_prog)) (LReg B_M 1)) [1; 2; 3; 4; 5; 6]%nat = map (fun z => Some (VZ z)) [0; 0; 1; 0; 0; 0]
  /\ map (fun k => peek (s_ctx (ran (edge_env 22) k edge_prog)) (LOut 0 K_Q 0)) [1; 2; 3; 4; 5; 6]%nat = map (fun z => Some (VZ z)) [1; 0; 0; 0; 1; 0].
Proof.
  cbv zeta. split; [unfold edge_env, edge_prog; decide_cycle|]. split; [apply synced_remembers|]. split; [apply in_timeb_ok; vm_compute; reflexivity|].
  split; [apply cycles_goes; vm_compute; reflexivity|]. split; [vm_compute; auto 10|]. split; [reflexivity|]. split; [decide_op|].
  split. { exists (LIn 0 K_I 0). split; [reflexivity|]. split; [|auto]. right; right. exists 0%nat. do 3 eexists. exists 0%nat. split; [vm_compute; lia|]. split; [reflexivity|].
    left. split; [reflexivity|]. split; [vm_compute; lia|]. split; vm_compute; discriminate. }
  split; [reflexivity|].
  split. { split; [|intros (ev & S & K); destruct ev; simpl in S, K; contradiction].
    apply input_alone. vm_compute. reflexivity. }
  split; [decide_reads|]. repeat split; vm_compute; reflexivity.
Qed.
EX*)
(** ** C07 *)

Lemma holds_reads c v l z : has_history c v -> place_now v = Some l -> holds c l z -> z = 0 \/ z = 1 -> reads c v z.
Proof.
  intros (l0 & PN0 & PL & RW) PN HO ZO. rewrite PN in PN0. injection PN0 as <-. right. unfold bad_index. unfold place_now in PN.
  pose proof (v_module_range v) as VM.
  destruct (v_type v) eqn:TY; try discriminate; injection PN as <-; cbn [bank_of].
  all: destruct PL as [(b & i & IN & LT & K)|[(x & id & qd & qa & i & A & _ & [(K & _)|(K & _)])|(x & id & qd & qa & i & A & _ & [(K & _)|(K & _)])]]; try discriminate; injection K as <- <-.
  all: try (split; [intros N; apply N; unfold in_qty; unfold ix in LT; destruct RW as [K|[K|K]]; try discriminate; lia|try exact HO; split; auto]).
  all: split; [tauto|]; unfold ix in A.
  - replace (v_module v <? Z.of_nat (io_wq (x_io c))) with true by lia. exact HO.
  - replace (v_module v <? Z.of_nat (io_rq (x_io c))) with true by lia. exact HO.
Qed.
Lemma history_target c v l : has_history c v -> place_now v = Some l -> target c v = Some l.
Proof.
  intros (l0 & PN0 & PL & RW) PN. rewrite PN in PN0. injection PN0 as <-. unfold place_now in PN. unfold target, below.
  pose proof (v_module_range v) as VM. pose proof (v_port_range v) as VP.
  destruct (v_type v) eqn:TY; try discriminate; injection PN as <-; cbn [bank_of].
  all: destruct PL as [(b & i & IN & LT & K)|[(x & id & qd & qa & i & A & MT & [(K & IL & _)|(K & _)])|(x & id & qd & qa & i & A & MT & [(K & IL & _)|(K & _)])]]; try discriminate; injection K as <- <-.
  all: try (unfold ix in LT; destruct RW as [K|[K|K]]; try discriminate; replace (0 <=? v_raw v) with true by lia;
    rewrite (proj2 (Z.ltb_lt (v_raw v) _)) by lia; reflexivity).
  all: unfold ix in A, IL; replace (0 <=? v_module v) with true by lia; replace (0 <=? v_port v) with true by lia.
  - replace (v_module v <? Z.of_nat (io_wq (x_io c))) with true by lia. simpl. fold (peek c (LOutMeta (ix (v_module v)))). rewrite MT. replace (v_port v <? Z.of_nat qd) with true by lia. reflexivity.
  - replace (v_module v <? Z.of_nat (io_rq (x_io c))) with true by lia. simpl. fold (peek c (LInMeta (ix (v_module v)))). rewrite MT. replace (v_port v <? Z.of_nat qd) with true by lia. reflexivity.
Qed.
Lemma left_exists c n r col : executing c n r col -> exists p, left_powered c n r col p.
Proof.
  intros (_ & _ & b & k & d & C). destruct col as [|col]; [exists true; reflexivity|]. simpl in C. unfold left_powered, powered. simpl.
  unfold cell_of in *. destruct (row_of c n r) as [rw|]; [|discriminate]. cbn [obind] in *. destruct (nth_error rw (S col)) eqn:N; [|discriminate].
  destruct (nth_lt_some rw col) as (y & Y). { assert (nth_error rw (S col) <> None) as K by congruence. apply nth_error_Some in K. lia. }
  rewrite Y. simpl. eauto.
Qed.
Lemma scan_visits_at E W m a b n r col l1 l2 : scan_ready E (during_scan W) (s_ctx a) m -> scans E a b -> peek (s_ctx b) LState <> Some (VState S_INV) -> in_time (s_ctx a) m ->
  program_cells (s_ctx a) = l1 ++ (n, r, col) :: l2 ->
  exists t t', visits E W a b n r col t t' /\ executes E (during_scan W) l2 t' b.
Proof.
  intros SR X NI CO PC. destruct (scan_ends E (during_scan W) a b m SR X) as (s0 & CS & [[[EX _] _]|[(k & r' & cl & e & F)|(k & K1 & K2 & _)]]).
  - rewrite PC in EX. apply executes_split in EX as (t & t' & A & B & D). exists t, t'. split; auto. exists s0, l1, l2. auto.
  - destruct F as (b4 & af & u1 & u2 & _ & _ & _ & _ & _ & _ & _ & K & _). contradiction.
  - specialize (CO k K1). lia.
Qed.
Definition latch (i : ins) (x p : bool) : bool := match i with I_COILL => x || p | _ => x && negb p end.
(** One cycle. *)
Lemma latch_cycle i : i = I_COILL \/ i = I_COILU -> forall E W m s s' n r col v l z,
  cycle_ready E W (s_ctx s) m -> remembers (s_ctx s) -> in_time (s_ctx s) m -> stores_ok (s_ctx s) -> cycle E s = Ok (T_continue, s') ->
  last_writer W (s_ctx s) n r col l -> code_at (s_ctx s) n r col = i -> operand_at (s_ctx s) n r col 0 v ->
  has_history (s_ctx s) v -> place_now v = Some l -> reads (s_ctx s) v z ->
  exists a b t0 t t' p, begins W s a t0 /\ scans E a b /\ visits E W a b n r col t t' /\ left_powered (s_ctx t) n r col p
    /\ holds (s_ctx s') l (b2z (latch i (negb (z =? 0)) p)).
Proof.
  intros IC E W m s s' n r col v l z CY RM IT SO CC (ND & l1 & l2 & PC & LW) CO OP HH PN RS. pose proof CY as [CB TA TR SR].
  destruct (cycle_whole E W m s s' CY CC) as (a & b & t0 & P). pose proof (wh_same _ _ _ _ _ _ _ _ P) as SP. pose proof (wh_ready _ _ _ _ _ _ _ _ P) as SA.
  destruct (scan_visits_at E W m a b n r col l1 l2 SA) as (t & t' & V & EX2); [apply P|apply P| |now rewrite (same_cells _ _ SP)|].
  { intros x X. destruct (same_q _ _ SP) as (Q & _). rewrite Q in X. rewrite (same_cost _ _ x SP). now apply IT. }
  pose proof (visit_reach E W a b n r col t t' V) as RE. destruct (reach_facts E W m s a SA SP n r col t E_OK t' RE) as (ST & EX & OC & OT). pose proof (OT _ _ OP) as OPt.
  destruct (left_exists _ _ _ _ EX) as (p & LP). exists a, b, t0, t, t', p. split; [apply P|]. split; [apply P|]. split; auto. split; auto.
  pose proof (proj2 (seen_before E W m s a TA SA SP (wh_saved _ _ _ _ _ _ _ _ P RM) (wh_in _ _ _ _ _ _ _ _ P) n r col t E_OK t' v z RE HH) RS) as RP.
  pose proof (layout_shape _ _ ST SO) as SOt. pose proof (history_target _ _ _ HH PN) as TG. rewrite <- (same_target _ _ v ST) in TG.
  destruct (place_past v l PN) as (h & PA).
  assert (HT : holds (s_ctx t') l (b2z (latch i (negb (z =? 0)) p))).
  { assert (WH : forall q, holds (wr v (b2z q) (put_pow n r col q (s_ctx t))) l (b2z q)).
    { intros q. rewrite <- (kept_bit (v_type v) q) at 2. apply wr_here; [fr|]. rewrite <- TG. apply target_same. intros l0 IS. apply put_pow_frame. intros ->. exact IS. }
    unfold outcome in OC. rewrite CO in OC. destruct IC as [-> | ->]; simpl in OC; injection OC as OC.
    - rewrite (coill_ok E t n r col EX v z p LP OPt RP SOt) in OC. injection OC as <-. cbn [s_ctx latch]. apply WH.
    - rewrite (coilu_ok E t n r col EX v z p LP OPt RP SOt) in OC. injection OC as <-. cbn [s_ctx latch]. apply WH. }
  unfold holds in *. rewrite (wh_kept _ _ _ _ _ _ _ _ P) by congruence. rewrite <- HT.
  destruct (reach_frame E W a m SA n r col t E_OK t' RE) as [_ J].
  destruct (J2_executes E (during_scan W) (s_ctx a) (sr_env _ _ _ _ SA) (sr_layout _ _ _ _ SA) (sr_nets _ _ _ _ SA) l2 t' b) as [_ FR]; auto.
  { intros x IN. rewrite (same_cells _ _ SP), PC. apply in_app_iff. right. right. exact IN. }
  apply FR.
  - intros [(x & y & w & ->)|[K|K]]; [discriminate| |auto]. simpl in K. destruct K as [<-|[<-|[<-|[]]]]; discriminate.
  - intros ->. discriminate.
  - intros n' r' col' IN K. assert (IP : In (n', r', col') (program_cells (s_ctx s))) by (rewrite PC; apply in_app_iff; right; right; exact IN).
    apply program_cells_in in IP as (rows & cols & [_ SC] & _). rewrite (proj1 (same_code _ _ n' r' col' SP)) in K. apply (same_names _ _ _ _ _ _ _ rows cols SP SC) in K. now apply LW in K.
Qed.
(** C07: in a cycle in which the latch is the last instruction that may set its operand, the operand ends as 1 if it was non-zero
    when the cycle began or there was power on the left of the latch, and as 0 otherwise. *)
Lemma C07_latch_l : forall E W m s s' n r col v l z,
  cycle_ready E W (s_ctx s) m -> remembers (s_ctx s) -> in_time (s_ctx s) m -> stores_ok (s_ctx s) -> cycle E s = Ok (T_continue, s') ->
  last_writer W (s_ctx s) n r col l -> code_at (s_ctx s) n r col = I_COILL -> operand_at (s_ctx s) n r col 0 v ->
  has_history (s_ctx s) v -> place_now v = Some l -> reads (s_ctx s) v z ->
  exists a b t0 t t' p, begins W s a t0 /\ scans E a b /\ visits E W a b n r col t t' /\ left_powered (s_ctx t) n r col p
    /\ holds (s_ctx s') l (b2z (negb (z =? 0) || p)).
Proof. apply (latch_cycle I_COILL). auto. Qed.
(** C07: likewise the unlatch leaves 1 only if the operand was non-zero and there was no power on its left. *)
Lemma C07_unlatch_l : forall E W m s s' n r col v l z,
  cycle_ready E W (s_ctx s) m -> remembers (s_ctx s) -> in_time (s_ctx s) m -> stores_ok (s_ctx s) -> cycle E s = Ok (T_continue, s') ->
  last_writer W (s_ctx s) n r col l -> code_at (s_ctx s) n r col = I_COILU -> operand_at (s_ctx s) n r col 0 v ->
  has_history (s_ctx s) v -> place_now v = Some l -> reads (s_ctx s) v z ->
  exists a b t0 t t' p, begins W s a t0 /\ scans E a b /\ visits E W a b n r col t t' /\ left_powered (s_ctx t) n r col p
    /\ holds (s_ctx s') l (b2z (negb (z =? 0) && negb p)).
Proof. apply (latch_cycle I_COILU). auto. Qed.
Lemma same_last W c c' n r col l : same_program c c' -> last_writer W c n r col l -> last_writer W c' n r col l.
Proof.
  intros H (ND & b4 & af & P & N). split; auto. exists b4, af. rewrite (same_cells _ _ H). split; auto. intros n' r' col' IN K.
  assert (IP : In (n', r', col') (program_cells c)) by (rewrite P; apply in_app_iff; simpl; tauto).
  apply program_cells_in in IP as (rows & cols & [_ SC] & _).
  apply (N n' r' col' IN). rewrite (proj1 (same_code _ _ n' r' col' H)) in K. apply (same_names c c' _ _ _ _ _ rows cols H SC). exact K.
Qed.
Lemma b2z_nz b : negb (b2z b =? 0) = b. Proof. destruct b; reflexivity. Qed.
Lemma latch_run i f (PF : (i = I_COILL /\ f = sets) \/ (i = I_COILU /\ f = resets)) : forall E W m k s s' n r col v l z,
  cycle_ready E W (s_ctx s) m -> remembers (s_ctx s) -> in_time (s_ctx s) m -> stores_ok (s_ctx s) -> goes E W k s s' ->
  last_writer W (s_ctx s) n r col l -> code_at (s_ctx s) n r col = i -> operand_at (s_ctx s) n r col 0 v ->
  has_history (s_ctx s) v -> place_now v = Some l -> reads (s_ctx s) v z ->
  exists lg, length lg = k /\ log E W (coil_cycle E W n r col l) s lg s' /\ map snd lg = f (negb (z =? 0)) (map fst lg).
Proof.
  intros E W m k s s' n r col v l z CY RM IT SO G. revert z CY RM IT SO.
  induction G as [s|j k s s1 s2 s3 WT J RU CC GO IH]; intros z CY RM IT SO LW CO OP HH PN RS.
  - exists []. split; auto. split; [constructor|]. destruct PF as [[_ ->]|[_ ->]]; reflexivity.
  - pose proof CY as [CB TA TR SR]. destruct (waits_ready E W CB TA _ _ _ _ TR SR WT) as (T1 & S1 & P1 & R1). destruct (waits_keep E W CB TA _ _ _ WT) as (_ & _ & _ & KP).
    destruct (cycle_keeps E W CB TA _ _ _ T1 S1 CC) as (T2 & S2 & P2 & R2). pose proof (Build_cycle_ready _ _ _ _ CB TA T1 S1) as CY1.
    assert (P12 : same_program (s_ctx s) (s_ctx s2)) by (eapply same_trans; eauto).
    assert (XF : forall c, same_program (s_ctx s) c -> has_history c v /\ last_writer W c n r col l /\ operand_at c n r col 0 v /\ code_at c n r col = i /\ in_time c m /\ stores_ok c).
    { intros c SC. pose proof (same_conf _ _ SC) as L. split. { destruct HH as (l0 & A & B & D). exists l0. rewrite (flag_conf _ _ l0 L), (output_conf _ _ l0 L), (input_conf _ _ l0 L). auto. }
      split; [eapply same_last; eauto|].
      split. { eapply same_operand; eauto. destruct LW as (_ & b4 & af & PC & _). assert (IN : In (n, r, col) (program_cells (s_ctx s))) by (rewrite PC; apply in_app_iff; right; left; auto).
        apply program_cells_in in IN as (rows & cols & [_ K] & _). eauto. }
      split; [now rewrite (proj1 (same_code _ _ n r col SC))|]. split; [|eapply layout_shape; eauto].
      intros x X. destruct (same_q _ _ SC) as (Q & _). rewrite Q in X. rewrite (same_cost _ _ x SC). now apply IT. }
    destruct (XF _ P1) as (HH1 & LW1 & OP1 & CO1 & IT1 & SO1). destruct (XF _ P12) as (HH2 & LW2 & OP2 & CO2 & IT2 & SO2).
    destruct (place_past v l PN) as (h & PA).
    assert (RS1 : reads (s_ctx s1) v z) by (eapply reads_move; eauto; apply KP; left; congruence).
    destruct (latch_cycle i ltac:(destruct PF as [[-> _]|[-> _]]; auto) E W m s1 s2 n r col v l z CY1 (R1 RM) IT1 SO1 CC LW1 CO1 OP1 HH1 PN RS1) as (a & b & t0 & t & t' & p & B1 & B2 & B3 & B4 & B5).
    set (q := latch i (negb (z =? 0)) p) in *.
    assert (RS2 : reads (s_ctx s2) v (b2z q)) by (eapply holds_reads; eauto; destruct q; auto).
    assert (RM2 : remembers (s_ctx s2)) by auto.
    destruct (IH (b2z q) (Build_cycle_ready _ _ _ _ CB TA T2 S2) RM2 IT2 SO2 LW2 CO2 OP2 HH2 PN RS2) as (lg & LG1 & LG2 & LG3).
    exists ((p, q) :: lg). split; [simpl; auto|]. split.
    + econstructor; eauto. split; [exists a, b, t0, t, t'; auto|auto].
    + cbn [map fst snd]. rewrite LG3, b2z_nz. unfold q. destruct PF as [[-> ->]|[-> ->]]; reflexivity.
Qed.
(** C07: in a run of the task, a latch that is the last to set its operand makes it the disjunction of all the powers it had
    on its left so far (and the value at the beginning). *)
Lemma C07_run_l : forall E W m k s s' n r col v l z,
  cycle_ready E W (s_ctx s) m -> remembers (s_ctx s) -> in_time (s_ctx s) m -> stores_ok (s_ctx s) -> goes E W k s s' ->
  last_writer W (s_ctx s) n r col l -> code_at (s_ctx s) n r col = I_COILL -> operand_at (s_ctx s) n r col 0 v ->
  has_history (s_ctx s) v -> place_now v = Some l -> reads (s_ctx s) v z ->
  exists lg, length lg = k /\ log E W (coil_cycle E W n r col l) s lg s' /\ map snd lg = sets (negb (z =? 0)) (map fst lg).
Proof. apply latch_run. auto. Qed.
(** C07: and an unlatch clears it for ever from the first cycle with power on its left. *)
Lemma C07_run_unlatch_l : forall E W m k s s' n r col v l z,
  cycle_ready E W (s_ctx s) m -> remembers (s_ctx s) -> in_time (s_ctx s) m -> stores_ok (s_ctx s) -> goes E W k s s' ->
  last_writer W (s_ctx s) n r col l -> code_at (s_ctx s) n r col = I_COILU -> operand_at (s_ctx s) n r col 0 v ->
  has_history (s_ctx s) v -> place_now v = Some l -> reads (s_ctx s) v z ->
  exists lg, length lg = k /\ log E W (coil_cycle E W n r col l) s lg s' /\ map snd lg = resets (negb (z =? 0)) (map fst lg).
Proof. apply latch_run. auto. Qed.
(** C07: what [sets] and [resets] mean: once on, on for ever; once off, off for ever. *)
Lemma C07_for_ever_l : forall x ps i j, (i <= j < length ps)%nat ->
  (nth i ps false = true -> nth j (sets x ps) false = true) /\ (nth i ps false = true -> nth j (resets x ps) true = false)
  /\ (nth i (sets x ps) false = true -> nth j (sets x ps) false = true) /\ (nth i (resets x ps) true = false -> nth j (resets x ps) true = false).
Proof.
  assert (A : forall ps j, (j < length ps)%nat -> nth j (sets true ps) false = true) by (induction ps as [|p ps IH]; intros [|j] L; simpl in *; auto; try lia; apply IH; lia).
  assert (B : forall ps j, (j < length ps)%nat -> nth j (resets false ps) true = false) by (induction ps as [|p ps IH]; intros [|j] L; simpl in *; auto; try lia; apply IH; lia).
  intros x ps. revert x. induction ps as [|p ps IH]; intros x i j [L1 L2]; simpl in L2; [lia|].
  destruct i as [|i], j as [|j]; try lia; cbn [sets resets nth].
  - split; [intros ->; apply orb_true_r|]. split; [intros ->; apply andb_false_r|auto].
  - split; [intros ->; rewrite orb_true_r; apply A; lia|]. split; [intros ->; rewrite andb_false_r; apply B; lia|].
    split; intros ->; [apply A|apply B]; lia.
  - destruct (IH (x || p) i j ltac:(lia)) as (A1 & _ & A3 & _), (IH (x && negb p) i j ltac:(lia)) as (_ & B2 & _ & B4). auto.
Qed.

(*EX
(* A latch with input 0 on its left, which is 0, 0, 1, 1, 0, 0: the flag is set in the third cycle and stays so. *)
Definition latch_prog (i : ins) (x : nat) : ctx := synced (demo_task [[cellv (match x with O => I_NO | _ => I_NC end) [V R_I 0]; cellv i [V R_M (Z.of_nat (1 + x))]]]).
Example C07_case :
  let c := latch_prog I_COILL 0 in
  cycle_ready (edge_env 16) task_w c 1000 /\ remembers c /\ in_time c 1000 /\ stores_ok c /\ goes (edge_env 16) task_w 6 (start c) (ran (edge_env 16) 6 c)
  /\ last_writer task_w c 0 0 1 (LReg B_M 1) /\ code_at c 0 0 1 = I_COILL /\ operand_at c 0 0 1 0 (V R_M 1)
  /\ has_history c (V R_M 1) /\ place_now (V R_M 1) = Some (LReg B_M 1) /\ reads c (V R_M 1) 0
  /\ sets false [false; false; true; true; false; false] = [false; false; true; true; true; true]
  /\ map (fun k => peek (s_ctx (ran (edge_env 16) k c)) (LReg B_M 1)) [1; 2; 3; 4; 5; 6]%nat = map (fun z => Some (VZ z)) [0; 0; 1; 1; 1; 1].
Proof.
  cbv zeta. split; [unfold edge_env, latch_prog; decide_cycle|]. split; [apply synced_remembers|]. split; [apply in_timeb_ok; vm_compute; reflexivity|].
  split; [decide_stores|]. split; [apply cycles_goes; vm_compute; reflexivity|].
  split. { split; [intros (ev & S & K); destruct ev; simpl in S, K; contradiction|]. exists [(0, 0, 0)%nat], []. split; [vm_compute; reflexivity|]. intros ? ? ? []. }
  split; [reflexivity|]. split; [decide_op|].
  split. { exists (LReg B_M 1). split; [reflexivity|]. split; [|right; right; simpl; lia]. left. exists B_M, 1%nat. split; [simpl; auto|]. split; [vm_compute; lia|reflexivity]. }
  split; [reflexivity|]. split; [decide_reads|]. split; vm_compute; reflexivity.
Qed.
(* An unlatch on memory 2, which is 1 at first, with the negated input on its left. *)
Example C07_unlatch_case :
  let c := latch_prog I_COILU 1 in
  cycle_ready (edge_env 16) task_w c 1000 /\ last_writer task_w c 0 0 1 (LReg B_M 2) /\ code_at c 0 0 1 = I_COILU /\ reads c (V R_M 2) 1
  /\ map (fun k => peek (s_ctx (ran (edge_env 16) k c)) (LReg B_M 2)) [0; 1; 2; 3; 4; 5]%nat = map (fun z => Some (VZ z)) [1; 0; 0; 0; 0; 0].
Proof.
  cbv zeta. split; [unfold edge_env, latch_prog; decide_cycle|].
  split. { split; [intros (ev & S & K); destruct ev; simpl in S, K; contradiction|]. exists [(0, 0, 0)%nat], []. split; [vm_compute; reflexivity|]. intros ? ? ? []. }
  split; [reflexivity|]. split; [decide_reads|]. vm_compute; reflexivity.
Qed.
EX*)
(** ** C08 *)

Lemma log_one {A} E W (R : st -> st -> A -> Prop) s x s' : log E W R s [x] s' -> exists s1, R s1 s' x.
Proof. inversion 1 as [|j' sa sb sc sd x' l' _ _ _ _ K LN]; subst. inversion LN; subst. eauto. Qed.
Lemma latch_stays i x (PF : (i = I_COILL /\ x = true) \/ (i = I_COILU /\ x = false)) : forall E W m k s s' n r col v l z,
  cycle_ready E W (s_ctx s) m -> remembers (s_ctx s) -> in_time (s_ctx s) m -> stores_ok (s_ctx s) -> goes E W k s s' ->
  last_writer W (s_ctx s) n r col l -> code_at (s_ctx s) n r col = i -> operand_at (s_ctx s) n r col 0 v ->
  has_history (s_ctx s) v -> place_now v = Some l -> reads (s_ctx s) v z -> negb (z =? 0) = x ->
  exists z', reads (s_ctx s') v z' /\ negb (z' =? 0) = x.
Proof.
  intros E W m k s s' n r col v l z CY RM IT SO G. revert z CY RM IT SO.
  induction G as [s|j k s s1 s2 s3 WT J RU CC GO IH]; intros z CY RM IT SO LW CO OP HH PN RS ZX; eauto.
  pose proof CY as [CB TA TR SR]. destruct (waits_ready E W CB TA _ _ _ _ TR SR WT) as (T1 & S1 & P1 & R1).
  destruct (cycle_keeps E W CB TA _ _ _ T1 S1 CC) as (T2 & S2 & P2 & R2).
  assert (SC : same_program (s_ctx s) (s_ctx s2)) by (eapply same_trans; eauto). pose proof (same_conf _ _ SC) as L.
  assert (HH2 : has_history (s_ctx s2) v). { destruct HH as (l0 & A & B & D). exists l0. rewrite (flag_conf _ _ l0 L), (output_conf _ _ l0 L), (input_conf _ _ l0 L). auto. }
  assert (HO : holds (s_ctx s2) l (b2z x)).
  { destruct (latch_run i (if x then sets else resets) ltac:(destruct PF as [[-> ->]|[-> ->]]; auto) E W m 1 s s2 n r col v l z CY RM IT SO) as (lg & LG1 & LG2 & LG3); auto.
    { econstructor; eauto. constructor. }
    destruct lg as [|[p q] [|? ?]]; try discriminate. apply log_one in LG2 as (s0 & _ & HO). cbn [snd] in HO. replace x with q; auto. clear - LG3 PF ZX. destruct PF as [[_ ->]|[_ ->]]; simpl in LG3; injection LG3 as ->; now rewrite ZX. }
  apply (IH (b2z x)); auto.
  - constructor; auto.
  - intros y X. destruct (same_q _ _ SC) as (Q & _). rewrite Q in X. rewrite (same_cost _ _ y SC). now apply IT.
  - eapply layout_shape; eauto.
  - eapply same_last; eauto.
  - now rewrite (proj1 (same_code _ _ n r col SC)).
  - eapply same_operand; eauto. destruct LW as (_ & b4 & af & PC & _). assert (IN : In (n, r, col) (program_cells (s_ctx s))) by (rewrite PC; apply in_app_iff; right; left; auto).
    apply program_cells_in in IN as (rows & cols & [_ K] & _). eauto.
  - eapply holds_reads; eauto. destruct x; auto.
  - apply b2z_nz.
Qed.
(** C08, finding: when a latch and an unlatch name the same flag, only the one executed last counts, since both start from
    the value of the previous cycle. If the unlatch is the last, the flag can never be set: once zero it stays zero whatever
    power the latch has. *)
Lemma C08_unlatch_last_actual_l : forall E W m k s s' n r col v l,
  cycle_ready E W (s_ctx s) m -> remembers (s_ctx s) -> in_time (s_ctx s) m -> stores_ok (s_ctx s) -> goes E W k s s' ->
  last_writer W (s_ctx s) n r col l -> code_at (s_ctx s) n r col = I_COILU -> operand_at (s_ctx s) n r col 0 v ->
  has_history (s_ctx s) v -> place_now v = Some l -> reads (s_ctx s) v 0 ->
  reads (s_ctx s') v 0.
Proof.
  intros. destruct (latch_stays I_COILU false ltac:(auto) E W m k s s' n r col v l 0) as (z' & A & B); auto.
  apply negb_false_iff, Z.eqb_eq in B. now subst.
Qed.
(** C08, finding: if the latch is the last, the flag can never be cleared: once set it stays set whatever power the unlatch
    has. *)
Lemma C08_latch_last_actual_l : forall E W m k s s' n r col v l z,
  cycle_ready E W (s_ctx s) m -> remembers (s_ctx s) -> in_time (s_ctx s) m -> stores_ok (s_ctx s) -> goes E W k s s' ->
  last_writer W (s_ctx s) n r col l -> code_at (s_ctx s) n r col = I_COILL -> operand_at (s_ctx s) n r col 0 v ->
  has_history (s_ctx s) v -> place_now v = Some l -> reads (s_ctx s) v z -> z <> 0 ->
  exists z', z' <> 0 /\ reads (s_ctx s') v z'.
Proof.
  intros. destruct (latch_stays I_COILL true ltac:(auto) E W m k s s' n r col v l z) as (z' & A & B); auto.
  { now apply negb_true_iff, Z.eqb_neq. }
  exists z'. split; auto. now apply negb_true_iff, Z.eqb_neq in B.
Qed.
(** C08 is false: a latch before an unlatch on the same flag, which is 0; only the latch has power, by an input that is 1, and
    the flag stays 0. *)
Lemma C08_refuted_l : exists E W s s',
  cycle_ready E W (s_ctx s) 1000 /\ remembers (s_ctx s) /\ cycle E s = Ok (T_continue, s')
  /\ program_cells (s_ctx s) = [(0, 0, 0); (0, 0, 1); (0, 1, 0); (0, 1, 1)]%nat
  /\ code_at (s_ctx s) 0 0 0 = I_NO /\ operand_at (s_ctx s) 0 0 0 0 (V R_I 0) /\ code_at (s_ctx s) 0 0 1 = I_COILL /\ operand_at (s_ctx s) 0 0 1 0 (V R_M 1)
  /\ code_at (s_ctx s) 0 1 0 = I_NO /\ operand_at (s_ctx s) 0 1 0 0 (V R_I 256) /\ code_at (s_ctx s) 0 1 1 = I_COILU /\ operand_at (s_ctx s) 0 1 1 0 (V R_M 1)
  /\ reads (s_ctx s') (V R_I 0) 1 /\ powered (s_ctx s') 0 0 0 true /\ reads (s_ctx s') (V R_I 256) 0 /\ powered (s_ctx s') 0 1 0 false
  /\ reads (s_ctx s) (V R_M 1) 0 /\ reads (s_ctx s') (V R_M 1) 0.
Proof.
  set (E := task_env (fun k => 5 * Z.of_nat k) (fun k i => if (i =? 0)%nat then 1 else 0) (fun _ => None)).
  set (c := synced (demo_task [[cellv I_NO [V R_I 0]; cellv I_COILL [V R_M 1]]; [cellv I_NO [V R_I 256]; cellv I_COILU [V R_M 1]]])).
  exists E, task_w, (start c), (ran E 1 c).
  split; [unfold E, c; change (s_ctx (start ?x)) with x; decide_cycle|]. split; [apply synced_remembers|]. split; [vm_compute; reflexivity|]. split; [vm_compute; reflexivity|].
  split; [reflexivity|]. split; [decide_op|]. split; [reflexivity|]. split; [decide_op|]. split; [reflexivity|]. split; [decide_op|]. split; [reflexivity|]. split; [decide_op|].
  split; [decide_reads|]. split; [vm_compute; reflexivity|]. split; [decide_reads|]. split; [vm_compute; reflexivity|]. split; [decide_reads|decide_reads].
Qed.
(*EX
(* The universal findings on the same shape of program, with the coils in either order. *)
Definition pair_prog (i j : ins) (x : Z) : ctx := synced (demo_task [[cellv I_NO [V R_I 0]; cellv i [V R_M x]]; [cellv I_NO [V R_I 256]; cellv j [V R_M x]]]).
Example C08_case :
  let c := pair_prog I_COILL I_COILU 1 in
  cycle_ready (edge_env 16) task_w c 1000 /\ remembers c /\ in_time c 1000 /\ stores_ok c /\ goes (edge_env 16) task_w 6 (start c) (ran (edge_env 16) 6 c)
  /\ last_writer task_w c 0 1 1 (LReg B_M 1) /\ code_at c 0 1 1 = I_COILU /\ operand_at c 0 1 1 0 (V R_M 1)
  /\ has_history c (V R_M 1) /\ place_now (V R_M 1) = Some (LReg B_M 1) /\ reads c (V R_M 1) 0.
Proof.
  cbv zeta. split; [unfold edge_env, pair_prog; decide_cycle|]. split; [apply synced_remembers|]. split; [apply in_timeb_ok; vm_compute; reflexivity|].
  split; [decide_stores|]. split; [apply cycles_goes; vm_compute; reflexivity|].
  split. { split; [intros (ev & S & K); destruct ev; simpl in S, K; contradiction|]. exists [(0, 0, 0); (0, 0, 1); (0, 1, 0)]%nat, []. split; [vm_compute; reflexivity|]. intros ? ? ? []. }
  split; [reflexivity|]. split; [decide_op|].
  split. { exists (LReg B_M 1). split; [reflexivity|]. split; [|right; right; simpl; lia]. left. exists B_M, 1%nat. split; [simpl; auto|]. split; [vm_compute; lia|reflexivity]. }
  split; [reflexivity|]. decide_reads.
Qed.
EX*)
