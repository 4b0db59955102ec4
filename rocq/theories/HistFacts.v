(** Lemmas: the state of a timer or counter is carried from cycle to cycle. *)
From Verif Require Export SpecHist TurnFacts P_Edge.

(** Places that belong to timers and counters. *)
Definition of_block (l : loc) : Prop :=
  match l with
  | LTs _ | LAcc _ => True
  | LReg b _ => match b with B_C | B_Cd | B_Cr | B_Td | B_Tr => True | _ => False end
  | _ => False
  end.
Lemma block_past l : of_block l -> ~ is_past l.
Proof. intros B (x & P). destruct x; try discriminate; [destruct b| |]; try discriminate; try (injection P as <-; exact B); destruct k; try discriminate; injection P as <-; exact B. Qed.
Lemma timer_of i l : In l (timer_regs i) -> of_block l.
Proof. intros [<-|[<-|[<-|[<-|[]]]]]; exact I. Qed.
Lemma counter_of i l : In l (counter_regs i) -> of_block l.
Proof. intros [<-|[<-|[<-|[]]]]; exact I. Qed.
Lemma same_sole W c c' n r col regs : same_program c c' -> sole_user W c n r col regs -> sole_user W c' n r col regs.
Proof.
  intros SP ((b4 & af & PC & NI & N) & ND). split; auto. exists b4, af. rewrite (same_cells _ _ SP). split; auto. split; auto.
  intros n' r' col' l IN R K. assert (IP : In (n', r', col') (program_cells c)) by (rewrite PC; apply in_app_iff in IN; apply in_app_iff; simpl; tauto).
  apply program_cells_in in IP as (rows & cols & [_ SC] & _). rewrite (proj1 (same_code _ _ n' r' col' SP)) in K.
  apply (same_names _ _ _ _ _ _ _ rows cols SP SC) in K. revert K. apply N; auto.
Qed.
Lemma same_in_time c c' m : same_program c c' -> in_time c m -> in_time c' m.
Proof. intros SP IT x X. destruct (same_q _ _ SP) as (Q & _). rewrite Q in X. rewrite (same_cost _ _ x SP). now apply IT. Qed.

(** The execution of the cell from [t] to [t'] is one of the turns of the scan from [a] to [b]. *)
Definition in_turn (E : env) (W : event -> loc -> Prop) (a b : st) (n r col : nat) (t t' : st) : Prop :=
  exists lg l1 l2, Forall (fair_turn E (during_scan W) (s_ctx a)) lg /\ scan_run E (during_scan W) lg a true b /\ lg = l1 ++ mk_turn n r col t E_OK t' :: l2.
Lemma turn_visits E W a b n r col t t' : in_turn E W a b n r col t t' -> visits E W a b n r col t t'.
Proof. intros (lg & l1 & l2 & _ & R & EQ). exact (run_visits E W lg a b l1 _ l2 R EQ). Qed.
(** One cycle: the block is executed, and its registers are not touched before and after. *)
Lemma block_cycle E W m s s' n r col regs : cycle_ready E W (s_ctx s) m -> in_time (s_ctx s) m -> cycle E s = Ok (T_continue, s') ->
  (forall l, In l regs -> of_block l) -> sole_user W (s_ctx s) n r col regs ->
  exists a b t0 t t', whole E W m s a b s' t0 /\ in_turn E W a b n r col t t'
    /\ (forall l, In l regs -> peek (s_ctx t) l = peek (s_ctx s) l) /\ (forall l, In l regs -> peek (s_ctx s') l = peek (s_ctx t') l)
    /\ same_program (s_ctx s) (s_ctx t) /\ executing (s_ctx t) n r col /\ outcome E (code_at (s_ctx s) n r col) r col t = Some (Ok (E_OK, t')).
Proof.
  intros CY IT H OB SU. pose proof CY as [CB TA TR SR]. pose proof SU as ((b4 & af & PC & NI & N) & ND).
  destruct (cycle_ok E W CB TA s m TR SR s' H) as (a & b & t0 & t1 & si & si1 & si2 & P).
  assert (WH : whole E W m s a b s' t0).
  { destruct P as [P1 P2 P3 P4 (P5 & P6 & P7) P8 P9 P10 P11 P12 P13 P14 P15 P16 P17 P18]. constructor; auto.
    intros R l h SV Q. destruct (kept_dec (s_ctx s) l SV) as [D|D]; [now apply P13|]. rewrite (P14 l h Q); auto. intros [K _]. apply input_now in K as (x & k & i & -> & _).
    destruct SV as [(bk & j & _ & _ & K)|(x' & id & qd & qa & j & _ & _ & [(K & _)|(K & _)])]; discriminate. }
  destruct (cp_same _ _ _ _ _ _ _ _ _ _ _ _ P) as (SP & SB & SS). pose proof (cp_ready _ _ _ _ _ _ _ _ _ _ _ _ P) as SA.
  assert (NA : forall n' r' col' l, In (n', r', col') (b4 ++ af) -> In l regs -> ~ names (s_ctx a) (code_at (s_ctx a) n' r' col') n' r' col' l).
  { intros n' r' col' l IN R K. assert (IP : In (n', r', col') (program_cells (s_ctx s))) by (rewrite PC; apply in_app_iff in IN; apply in_app_iff; simpl; tauto).
    apply program_cells_in in IP as (rows & cols & [_ SC] & _). rewrite (proj1 (same_code _ _ n' r' col' SP)) in K.
    apply (same_names _ _ _ _ _ _ _ rows cols SP SC) in K. revert K. apply N; auto. }
  assert (PA : program_cells (s_ctx a) = b4 ++ (n, r, col) :: af) by now rewrite (same_cells _ _ SP).
  assert (GL : forall l, In l regs -> ~ glue (during_scan W) l).
  { intros l R [(x & y & z & ->)|[K|(ev & _ & K)]]; [exact (OB _ R)| |exact (ND ev l R K)]. simpl in K. destruct K as [<-|[<-|[<-|[]]]]; exact (OB _ R). }
  assert (LS : forall l, In l regs -> l <> LState) by (intros l R ->; exact (OB _ R)).
  destruct (scan_done E (during_scan W) a b m SA (wh_scans _ _ _ _ _ _ _ _ WH) (wh_inv _ _ _ _ _ _ _ _ WH) (same_in_time _ _ _ SP IT)) as (lg & FA & RN).
  assert (TU : exists l1 t t' l2, lg = l1 ++ mk_turn n r col t E_OK t' :: l2 /\ map place_of l1 = b4 /\ map place_of l2 = af).
  { pose proof (run_places _ _ _ _ _ RN) as PL. rewrite PA in PL. apply map_eq_app in PL as (l1 & l2 & EQ & P1 & P2). destruct l2 as [|u l2]; [discriminate|]. simpl in P2.
    injection P2 as Q1 Q2 Q3 P3. assert (OK : returned u = E_OK).
    { destruct RN as (s0 & _ & RN). destruct (nets_cells _ _ _ _ _ _ _ _ RN) as (rest & _ & B). destruct (B eq_refl) as [_ B2]. rewrite Forall_forall in B2. apply B2. rewrite EQ. apply in_or_app. simpl; auto. }
    destruct u as [un ur uc t e t']. simpl in Q1, Q2, Q3, OK. subst. exists l1, t, t', l2. auto. }
  destruct TU as (l1 & t & t' & l2 & EQ & ML1 & ML2).
  assert (IT2 : in_turn E W a b n r col t t') by (exists lg, l1, l2; auto).
  assert (V : visits E W a b n r col t t') by (apply turn_visits; auto).
  assert (EXS : exists s0, cron_step E a s0 /\ executes E (during_scan W) b4 s0 t /\ executes E (during_scan W) af t' b).
  { destruct RN as (s0 & CS & RN). exists s0. split; auto. apply nets_chain in RN; auto. rewrite EQ in RN. apply chain_split in RN as (A1 & _ & A2). rewrite <- ML1, <- ML2. auto. }
  destruct EXS as (s0 & CS & A & D).
  pose proof (visit_reach E W a b n r col t t' V) as RE. destruct (reach_facts E W m s a SA SP n r col t E_OK t' RE) as (ST & EXE & OC & _).
  exists a, b, t0, t, t'. split; auto. split; auto. split; [|split]; auto.
  - intros l R. pose proof (cron_J2 E (during_scan W) (s_ctx a) a s0 eq_refl CS) as H0.
    destruct (J2_executes E (during_scan W) (s_ctx a) (sr_env _ _ _ _ SA) (sr_layout _ _ _ _ SA) (sr_nets _ _ _ _ SA) b4 s0 t) as [_ H1]; auto.
    { intros x IN. rewrite PA. apply in_app_iff. auto. }
    rewrite H1; auto. 2:{ intros n' r' col' IN. apply NA; auto. apply in_app_iff; auto. }
    destruct CS as (CS & _). rewrite CS.
    2:{ intros [->|(k & js & j & _ & _ & _ & _ & _ & ->)]; exact (OB _ R). }
    destruct (cp_begins _ _ _ _ _ _ _ _ _ _ _ _ P) as (_ & CH). apply CH. pose proof (OB l R) as OL.
    intros [->|[K|[K|[K|(x & _ & K)]]]]; [exact OL|now apply block_past in K|..]; exact (ND _ l R K).
  - intros l R. destruct (reach_frame E W a m SA n r col t E_OK t' RE) as [_ J].
    destruct (J2_executes E (during_scan W) (s_ctx a) (sr_env _ _ _ _ SA) (sr_layout _ _ _ _ SA) (sr_nets _ _ _ _ SA) af t' b) as [_ H1]; auto.
    { intros x IN. rewrite PA. apply in_app_iff. right. right. auto. }
    rewrite <- H1; auto. 2:{ intros n' r' col' IN. apply NA; auto. apply in_app_iff; auto. }
    destruct (cp_closes _ _ _ _ _ _ _ _ _ _ _ _ P) as (ws & _ & _ & CH). apply CH. pose proof (OB l R) as OL.
    intros [->|[K|[[-> _]|[K|[K|[K|[(d & K)|(x & q & qw & _ & K)]]]]]]]; try exact OL; [now apply block_past in K|..]; exact (ND _ l R K).
Qed.
(** A run. *)
Lemma block_run {A} E W m k s s' n r col regs (R : st -> st -> A -> Prop) :
  (forall l, In l regs -> of_block l) ->
  (forall s1 s2 t t', cycle_ready E W (s_ctx s1) m -> same_program (s_ctx s) (s_ctx s1) ->
     (exists a b t0, whole E W m s1 a b s2 t0 /\ in_turn E W a b n r col t t')
     -> (forall l, In l regs -> peek (s_ctx t) l = peek (s_ctx s1) l) -> (forall l, In l regs -> peek (s_ctx s2) l = peek (s_ctx t') l)
     -> same_program (s_ctx s) (s_ctx t) -> executing (s_ctx t) n r col -> outcome E (code_at (s_ctx s) n r col) r col t = Some (Ok (E_OK, t'))
     -> exists x, R s1 s2 x) ->
  cycle_ready E W (s_ctx s) m -> in_time (s_ctx s) m -> goes E W k s s' -> sole_user W (s_ctx s) n r col regs ->
  exists lg, length lg = k /\ log E W R s lg s'.
Proof.
  intros OB MK CY IT G SU.
  assert (GEN : forall k u u', goes E W k u u' -> same_program (s_ctx s) (s_ctx u) -> cycle_ready E W (s_ctx u) m -> exists lg, length lg = k /\ log E W R u lg u').
  { clear G k s'. intros k u u' G. induction G as [u|j k u u1 u2 u3 WT J RU CC GO IH]; intros SP CU.
    - exists []. split; auto. constructor.
    - pose proof CU as [CB TA TR SR]. destruct (waits_ready E W CB TA _ _ _ _ TR SR WT) as (T1 & S1 & P1 & R1).
      destruct (cycle_keeps E W CB TA _ _ _ T1 S1 CC) as (T2 & S2 & P2 & R2). pose proof (Build_cycle_ready _ _ _ _ CB TA T1 S1) as CY1.
      assert (SP1 : same_program (s_ctx s) (s_ctx u1)) by (eapply same_trans; eauto).
      destruct (block_cycle E W m u1 u2 n r col regs CY1 (same_in_time _ _ _ SP1 IT) CC OB (same_sole _ _ _ _ _ _ _ SP1 SU)) as (a & b & t0 & t & t' & B & X & K1 & K2 & K3 & K4 & K5).
      rewrite (proj1 (same_code _ _ n r col SP1)) in K5.
      destruct (MK u1 u2 t t') as (x & RX); auto. { exists a, b, t0. auto. } { eapply same_trans; eauto. }
      destruct IH as (lg & L1 & L2). { eapply same_trans; eauto. } { constructor; auto. }
      exists (x :: lg). split; [simpl; auto|]. econstructor; eauto. }
  apply GEN; auto. apply same_refl.
Qed.
(** From one cycle to the next. *)
Lemma log_mono {A} E W (R R' : st -> st -> A -> Prop) s lg s' : (forall s1 s2 x, R s1 s2 x -> R' s1 s2 x) -> log E W R s lg s' -> log E W R' s lg s'.
Proof. intros H. induction 1; econstructor; eauto. Qed.
Lemma log_all {A} E W (R : st -> st -> A -> Prop) s lg s' : log E W R s lg s' -> forall x, In x lg -> exists s1 s2, R s1 s2 x.
Proof. induction 1; intros y IN; [destruct IN|]. destruct IN as [<-|IN]; eauto. Qed.
Lemma log_chain E W (R : st -> st -> note -> Prop) regs s lg s' : callbacks E W -> tame W -> (forall ev l, In l regs -> ~ W ev l) ->
  (forall s1 s2 x, R s1 s2 x -> (forall l, In l regs -> peek (s_ctx (at_pre x)) l = peek (s_ctx s1) l)
     /\ (forall l, In l regs -> peek (s_ctx s2) l = peek (s_ctx (at_post x)) l)) ->
  log E W R s lg s' ->
  (forall x, nth_error lg 0 = Some x -> forall l, In l regs -> peek (s_ctx (at_pre x)) l = peek (s_ctx s) l)
  /\ (forall k x y, nth_error lg k = Some x -> nth_error lg (S k) = Some y -> forall l, In l regs -> peek (s_ctx (at_pre y)) l = peek (s_ctx (at_post x)) l).
Proof.
  intros CB TA ND RK L. induction L as [s|j s s1 s2 s3 x lg WT J RU CC RX L [IH1 IH2]]; [split; [intros x K|intros [|k] x y K]; discriminate|].
  destruct (RK _ _ _ RX) as [R1 R2]. destruct (waits_keep E W CB TA _ _ _ WT) as (_ & _ & KP & _). split.
  - intros y K l LI. injection K as <-. rewrite R1; auto.
  - intros [|k] y z K1 K2 l LI.
    + injection K1 as <-. cbn [nth_error] in K2. rewrite (IH1 z); auto.
    + cbn [nth_error] in K1, K2. eapply IH2; eauto.
Qed.
Lemma nth_map_err {A B} (f : A -> B) l d k x : nth_error l k = Some x -> nth k (map f l) d = f x.
Proof. intros H. apply nth_error_nth. rewrite nth_error_map, H. reflexivity. Qed.
Lemma nth_is {A} (l : list A) k : (k < length l)%nat -> exists x, nth_error l k = Some x /\ In x l.
Proof. intros H. destruct (nth_lt_some l k H) as (x & X). exists x. split; auto. eapply nth_error_In; eauto. Qed.
(** ** Timers *)
Lemma same_exists c c' n r col : same_program c c' -> cell_exists c n r col -> cell_exists c' n r col.
Proof. intros SP (b & i & d & C). exists b, i, d. now rewrite (same_get _ _ (LCell _ _ _) SP I I). Qed.
Lemma executing_scanned W c n r col regs : sole_user W c n r col regs -> exists rows cols, peek c (LNet n) = Some (VNet true rows cols).
Proof.
  intros ((b4 & af & PC & _) & _). assert (IP : In (n, r, col) (program_cells c)) by (rewrite PC; apply in_app_iff; right; left; auto).
  apply program_cells_in in IP as (rows & cols & [_ SC] & _). eauto.
Qed.
Lemma opened E W m s1 s2 n r col t t' : (exists a b t0, whole E W m s1 a b s2 t0 /\ in_turn E W a b n r col t t') ->
  exists a b t0, begins W s1 a t0 /\ scans E a b /\ visits E W a b n r col t t'.
Proof. intros (a & b & t0 & P & T). exists a, b, t0. split; [apply P|]. split; [apply P|]. now apply turn_visits. Qed.
Lemma timer_run (X : st -> bool -> Prop) code E W m k s s' n r col i v1 :
  (forall s1 a b s2 t0 t t' on, cycle_ready E W (s_ctx s1) m -> same_program (s_ctx s) (s_ctx s1) -> whole E W m s1 a b s2 t0 -> in_turn E W a b n r col t t' ->
     left_powered (s_ctx t) n r col on -> X s2 on) ->
  cycle_ready E W (s_ctx s) m -> in_time (s_ctx s) m -> goes E W k s s' ->
  timer_block (s_ctx s) code n r col i v1 -> sole_user W (s_ctx s) n r col (timer_regs i) ->
  exists lg, length lg = k /\ log E W (fun s1 s2 x => timer_cycle E W n r col i s1 s2 x /\ X s2 (at_on x)) s lg s'
    /\ (forall K, (K < k)%nat -> timer_history E code n r col i v1 (pre_at lg s) (post_at lg s) (on_at lg) K)
    /\ ((0 < k)%nat -> same_timer i (s_ctx s) (s_ctx (pre_at lg s 0)))
    /\ (forall q x, nth_error lg q = Some x -> same_timer i (s_ctx (at_post x)) (s_ctx (at_end x)))
    /\ (forall q x, nth_error lg q = Some x -> same_program (s_ctx s) (s_ctx (at_pre x))).
Proof.
  intros HX CY IT G (CO & CE & (v0 & OP0 & V0) & OP1) SU. destruct (executing_scanned _ _ _ _ _ _ SU) as (rows & cols & SC).
  set (R := fun s1 s2 x => timer_cycle E W n r col i s1 s2 x /\ timer_cell (s_ctx (at_pre x)) n r col i v1
              /\ outcome E code r col (at_pre x) = Some (Ok (E_OK, at_post x)) /\ same_program (s_ctx s) (s_ctx (at_pre x)) /\ X s2 (at_on x)).
  destruct (block_run E W m k s s' n r col (timer_regs i) R (timer_of i)) as (lg & LL & LG); auto.
  { intros s1 s2 t t' CY1 SP1 V K1 K2 SP EX OC. destruct (left_exists _ _ _ _ EX) as (p & LP). exists (mk_note t t' p p s2).
    rewrite CO in OC. split; [|split; [|split; [|split]]]; cbn [at_pre at_post at_on at_second at_end]; auto.
    2:{ split; auto. split; [eapply same_exists; eauto|]. split.
      + exists v0. split; auto. eapply (same_operand (s_ctx s)); eauto.
      + eapply (same_operand (s_ctx s)); eauto. }
    2:{ destruct V as (a & b & t0 & V1 & V2). eapply HX; eauto. }
    - split; [exact (opened _ _ _ _ _ _ _ _ _ _ V)|]. split; [exact LP|]. split; [reflexivity|]. split; [exact K1|exact K2].
 }
  exists lg. split; auto. assert (AL : forall q x, nth_error lg q = Some x -> exists s1 s2, R s1 s2 x).
  { intros q x K. apply nth_error_In in K. eapply log_all; eauto. }
  destruct (log_chain E W R (timer_regs i) s lg s' (cy_callbacks _ _ _ _ CY) (cy_tame _ _ _ _ CY) (proj2 SU)) as [C1 C2]; auto.
  { intros s1 s2 x ((_ & _ & _ & A & B) & _). split; [exact A|exact B]. }
  split; [eapply log_mono; [|exact LG]; intros s1 s2 x RX; split; apply RX|]. split; [|split; [|split]].
  - intros KK LK. split.
    + intros q LQ. destruct (nth_is lg q ltac:(lia)) as (x & X0 & IN). destruct (AL q x X0) as (s1 & s2 & (_ & LP & _) & TC & OC & _).
      unfold pre_at, post_at, on_at. rewrite !(nth_map_err _ _ _ _ _ X0). auto.
    + intros q LQ l LI. destruct (nth_is lg q ltac:(lia)) as (x & X0 & _). destruct (nth_is lg (S q) ltac:(lia)) as (y & Y & _).
      unfold pre_at, post_at. rewrite (nth_map_err _ _ _ _ _ X0), (nth_map_err _ _ _ _ _ Y). eapply C2; eauto.
  - intros LK l LI. destruct (nth_is lg 0 ltac:(lia)) as (x & X0 & _). unfold pre_at. rewrite (nth_map_err _ _ _ _ _ X0). eapply C1; eauto.
  - intros q x X0. destruct (AL q x X0) as (s1 & s2 & (_ & _ & -> & _ & B) & _). exact B.
  - intros q x X0. destruct (AL q x X0) as (s1 & s2 & _ & _ & _ & B & _). exact B.
Qed.
Lemma idle_same c c' i : same_timer i c c' -> timer_idle c i -> timer_idle c' i.
Proof.
  intros ST ((a & b & ts & acc & [A1 A2] & [B1 B2] & C & D) & T1 & T2). unfold holds in *.
  assert (K : forall l, In l (timer_regs i) -> peek c' l = peek c l) by exact ST. unfold timer_idle, timer_exists, holds_flag, holds.
  split; [exists a, b, ts, acc|]; rewrite ?K by (simpl; auto 6); auto.
Qed.
Lemma is_same c c' i x y z : same_timer i c c' -> timer_is c i x y z -> timer_is c' i x y z.
Proof. intros ST (A & B & C). unfold timer_is, holds in *. rewrite !ST by (simpl; auto 6). auto. Qed.
(** ** Counters *)
Lemma cell_left c n r col : cell_exists c n r (S col) -> exists p, powered c n r col p.
Proof.
  intros (b & k & d & C). unfold powered. simpl in *.
  unfold cell_of in *. destruct (row_of c n r) as [rw|]; [|discriminate]. cbn [obind] in *. destruct (nth_error rw (S col)) eqn:N; [|discriminate].
  destruct (nth_lt_some rw col) as (y & Y). { assert (nth_error rw (S col) <> None) as K by congruence. apply nth_error_Some in K. lia. }
  rewrite Y. simpl. eauto.
Qed.
Lemma counter_run (X : st -> bool -> bool -> Prop) code E W m k s s' n r col i p :
  (forall s1 a b s2 t0 t t' on sec, cycle_ready E W (s_ctx s1) m -> same_program (s_ctx s) (s_ctx s1) -> whole E W m s1 a b s2 t0 -> in_turn E W a b n r (S col) t t' ->
     powered (s_ctx t) n r col on -> powered (s_ctx t) n (S r) col sec -> X s2 on sec) ->
  cycle_ready E W (s_ctx s) m -> in_time (s_ctx s) m -> goes E W k s s' ->
  counter_block (s_ctx s) code n r col i p -> sole_user W (s_ctx s) n r (S col) (counter_regs i) ->
  exists lg, length lg = k /\ log E W (fun s1 s2 x => counter_cycle E W n r col i s1 s2 x /\ X s2 (at_on x) (at_second x)) s lg s'
    /\ (forall K, (K < k)%nat -> counter_history E code n r col i p (pre_at lg s) (post_at lg s) (on_at lg) (second_at lg) K)
    /\ ((0 < k)%nat -> same_counter i (s_ctx s) (s_ctx (pre_at lg s 0)))
    /\ (forall q x, nth_error lg q = Some x -> same_counter i (s_ctx (at_post x)) (s_ctx (at_end x))).
Proof.
  intros HX CY IT G (CO & CE & (v0 & OP0 & V0) & (v1 & OP1 & V1)) SU. destruct (executing_scanned _ _ _ _ _ _ SU) as (rows & cols & SC).
  set (R := fun s1 s2 x => counter_cycle E W n r col i s1 s2 x /\ counter_cell (s_ctx (at_pre x)) n r col i p
              /\ outcome E code r (S col) (at_pre x) = Some (Ok (E_OK, at_post x)) /\ X s2 (at_on x) (at_second x)).
  destruct (block_run E W m k s s' n r (S col) (counter_regs i) R (counter_of i)) as (lg & LL & LG); auto.
  { intros s1 s2 t t' CY1 SP1 V K1 K2 SP EX OC. destruct (left_exists _ _ _ _ EX) as (q & LP). pose proof (same_exists _ _ _ _ _ SP CE) as CE'.
    destruct (cell_left _ _ _ _ CE') as (q2 & LP2). exists (mk_note t t' q q2 s2).
    rewrite CO in OC. split; [|split; [|split]]; cbn [at_pre at_post at_on at_second at_end]; auto.
    3:{ destruct V as (a & b & t0 & V2 & V3). eapply HX; eauto. }
    - split; [exact (opened _ _ _ _ _ _ _ _ _ _ V)|]. split; [exact LP|]. split; [exact LP2|]. split; [reflexivity|]. split; [exact K1|exact K2].
    - split; auto. split; auto. split.
      + exists v0. split; auto. eapply (same_operand (s_ctx s)); eauto.
      + exists v1. split; auto. eapply (same_operand (s_ctx s)); eauto. }
  exists lg. split; auto. assert (AL : forall q x, nth_error lg q = Some x -> exists s1 s2, R s1 s2 x).
  { intros q x K. apply nth_error_In in K. eapply log_all; eauto. }
  destruct (log_chain E W R (counter_regs i) s lg s' (cy_callbacks _ _ _ _ CY) (cy_tame _ _ _ _ CY) (proj2 SU)) as [C1 C2]; auto.
  { intros s1 s2 x ((_ & _ & _ & _ & A & B) & _). split; [exact A|exact B]. }
  split; [eapply log_mono; [|exact LG]; intros s1 s2 x RX; split; apply RX|]. split; [|split].
  - intros KK LK. split.
    + intros q LQ. destruct (nth_is lg q ltac:(lia)) as (x & X0 & IN). destruct (AL q x X0) as (s1 & s2 & (_ & LP & LP2 & _) & TC & OC & _).
      unfold pre_at, post_at, on_at, second_at. rewrite !(nth_map_err _ _ _ _ _ X0). auto.
    + intros q LQ l LI. destruct (nth_is lg q ltac:(lia)) as (x & X0 & _). destruct (nth_is lg (S q) ltac:(lia)) as (y & Y & _).
      unfold pre_at, post_at. rewrite (nth_map_err _ _ _ _ _ X0), (nth_map_err _ _ _ _ _ Y). eapply C2; eauto.
  - intros LK l LI. destruct (nth_is lg 0 ltac:(lia)) as (x & X0 & _). unfold pre_at. rewrite (nth_map_err _ _ _ _ _ X0). eapply C1; eauto.
  - intros q x X0. destruct (AL q x X0) as (s1 & s2 & (_ & _ & _ & -> & _ & B) & _). exact B.
Qed.
Lemma fresh_same c c' i z : same_counter i c c' -> counter_fresh c i z -> counter_fresh c' i z.
Proof. intros ST (A & B & C). unfold counter_fresh, holds in *. rewrite !ST by (simpl; auto 6). auto. Qed.
Lemma count_same c c' i z d : same_counter i c c' -> counter_is c i z d -> counter_is c' i z d.
Proof. intros ST (A & B). unfold counter_is, holds in *. rewrite !ST by (simpl; auto 6). auto. Qed.
(** ** What is in front of a block *)
Lemma same_bar c c' n r col : same_program c c' -> bar_at c' n r col = bar_at c n r col.
Proof. intros SP. unfold bar_at. now rewrite (same_get _ _ (LCell n r col) SP I I). Qed.
Lemma same_marked c c' : same_program c c' -> marked c -> marked c'.
Proof.
  intros SP MK n rows cols r col k [S1 S2] R C F D. rewrite (proj1 (same_code _ _ n r col SP)) in F. rewrite (proj1 (same_code _ _ n k col SP)).
  apply (MK n rows cols r col k); auto. split; [destruct (same_q _ _ SP) as (Q & _); now rewrite <- Q|now rewrite <- (same_net _ _ n SP)].
Qed.
Lemma same_history c c' v : same_program c c' -> has_history c v -> has_history c' v.
Proof.
  intros SP. pose proof (same_conf _ _ SP) as L. intros (l0 & A & B & D). exists l0. rewrite (flag_conf _ _ l0 L), (output_conf _ _ l0 L), (input_conf _ _ l0 L). auto.
Qed.
Lemma no_dup_split {A} (x : A) a b c d : a ++ x :: b = c ++ x :: d -> ~ In x (c ++ d) -> a = c.
Proof.
  revert c. induction a as [|y a IH]; intros [|z c] EQ NI; auto; simpl in EQ.
  - injection EQ as -> EQ. exfalso. apply NI. simpl. auto.
  - injection EQ as -> EQ. exfalso. apply NI. simpl. rewrite <- EQ. apply in_or_app. simpl. auto.
  - injection EQ as -> EQ. f_equal. apply IH; auto. intros K. apply NI. simpl. auto.
Qed.
Lemma switch_on E W m s s1 a b s2 t0 n r v l regs t t' on :
  marked (s_ctx s) -> switch W (s_ctx s) n r v l -> sole_user W (s_ctx s) n r 1 regs -> cycle_ready E W (s_ctx s1) m ->
  same_program (s_ctx s) (s_ctx s1) -> whole E W m s1 a b s2 t0 -> in_turn E W a b n r 1 t t' -> powered (s_ctx t) n r 0 on -> input_is v s2 on.
Proof.
  intros MK SW ((b4 & af & PC & NI & _) & _) CY SP P (lg & l1 & l2 & FA & RN & EQ) PW. destruct SW as [CO OP TY HH PN LA BA BB NP (b4' & af' & PC' & IN)].
  pose proof (wh_same _ _ _ _ _ _ _ _ P) as SP1. pose proof (same_trans _ _ _ SP SP1) as SPA. pose proof (wh_ready _ _ _ _ _ _ _ _ P) as SA.
  pose proof (run_places _ _ _ _ _ RN) as PL. rewrite (same_cells _ _ SPA), PC, EQ, map_app in PL. simpl in PL. change (place_of _) with (n, r, 1%nat) in PL.
  apply no_dup_split in PL; auto.
  assert (B4 : b4' = b4) by (rewrite PC in PC'; symmetry in PC'; now apply no_dup_split in PC'). subst b4'. rewrite <- PL in IN.
  destruct (last_of _ _ IN) as (e1 & u & e2 & EL & PU & NU).
  assert (EQ2 : lg = e1 ++ u :: (e2 ++ mk_turn n r 1 t E_OK t' :: l2)) by (rewrite EQ, EL, <- app_assoc; reflexivity).
  pose proof (run_visits E W lg a b e1 u _ RN EQ2) as VU. unfold place_of in PU. injection PU as U1 U2 U3. rewrite U1, U2, U3 in VU.
  pose proof (visit_reach E W a b n r 0 _ _ VU) as RE.
  destruct (reach_facts E W m s1 a SA SP1 n r 0 _ _ _ RE) as (ST & EX & OC & OT).
  pose proof (wh_same' _ _ _ _ _ _ _ _ P) as SP2.
  assert (SC : exists rows cols, peek (s_ctx s) (LNet n) = Some (VNet true rows cols)).
  { assert (IP : In (n, r, 0%nat) (program_cells (s_ctx s))) by (rewrite PC, <- PL; apply in_or_app; auto). apply program_cells_in in IP as (rows & cols & [_ K] & _). eauto. }
  pose proof (OT _ _ (same_operand _ _ _ _ _ _ _ SP SC OP)) as OPt.
  destruct CY as [CB TA TR SR].
  assert (HH2 : has_history (s_ctx s2) v) by (exact (same_history _ _ v (same_trans _ _ _ SP SP2) HH)).
  assert (INS : ins_sized (s_ctx s2)).
  { eapply ins_conf; [exact (tr_ins _ TR)|]. apply same_conf. exact SP2. }
  destruct (input_reads (s_ctx s2) v INS HH2 TY) as (z & RZ). exists z. split; auto.
  destruct (place_past v l PN) as (h & PA).
  assert (PK : peek (s_ctx s2) l = peek (s_ctx (pre_of u)) l).
  { rewrite (wh_kept _ _ _ _ _ _ _ _ P) by congruence. destruct (reach_frame E W a m SA n r 0 _ _ _ RE) as [JF _].
    destruct LA as [NS ND]. rewrite <- (same_writes _ _ l SPA) in NS. rewrite (JF l); [|intros [K|[K|(x & y & z' & ->)]]; [auto|auto|discriminate]]. apply (wh_scan _ _ _ _ _ _ _ _ P). tauto. }
  assert (RT : reads (s_ctx (pre_of u)) v z).
  { eapply (reads_move' (s_ctx (pre_of u)) (s_ctx s2)); eauto. intros x L1 L2 L3. rewrite (SP2 x L1 L2); [symmetry; apply ST; auto|]; intros; rewrite <- (same_net _ _ _ ST); eauto. }
  assert (PP : powered (s_ctx (post_of u)) n r 0 (negb (z =? 0))).
  { unfold outcome in OC. rewrite (proj1 (same_code _ _ n r 0 SP)), CO in OC. simpl in OC. injection OC as OC.
    rewrite (no_ok E (pre_of u) n r 0 EX v z true eq_refl OPt RT) in OC. injection OC as OC. rewrite <- OC. cbn [s_ctx inc]. rewrite andb_true_r. apply powered_pow_here. fr. }
  pose proof RN as (s0 & _ & NR).
  pose proof (last_nets E (during_scan W) (s_ctx a) (same_marked _ _ SPA MK) n r 0) as LN.
  rewrite (proj1 (same_code _ _ n r 0 SPA)), !(same_bar _ _ _ _ _ SPA) in LN.
  assert (NM : multi (code_at (s_ctx s) n r 0) = false) by now rewrite CO.
  pose proof (LN NM NP BA BB _ _ _ _ _ NR (seq_NoDup _ _) FA l1 _ l2 EQ eq_refl e1 u e2 (negb (z =? 0)) EL) as K.
  unfold place_of in K. rewrite U1, U2, U3 in K. specialize (K eq_refl NU PP). simpl pre_of in K. unfold powered in PW. congruence.
Qed.
(** No bar, no reset. *)
Lemma reset_off E W m s s1 a b s2 t0 n r col t t' sec :
  marked (s_ctx s) -> bar_at (s_ctx s) n (S r) col = false -> multi (code_at (s_ctx s) n (S r) col) = false -> ~ during_scan W (LPow n (S r) col) ->
  (exists rows cols, scanned (s_ctx s) n rows cols /\ (S r < rows)%nat) ->
  same_program (s_ctx s) (s_ctx s1) -> whole E W m s1 a b s2 t0 -> in_turn E W a b n r (S col) t t' -> powered (s_ctx t) n (S r) col sec -> sec = false.
Proof.
  intros MK BF NM NP (rows & cols & [S1 S2] & RR) SP P (lg & l1 & l2 & FA & RN & EQ) PW.
  pose proof (same_trans _ _ _ SP (wh_same _ _ _ _ _ _ _ _ P)) as SPA. pose proof RN as (s0 & _ & NR).
  assert (TI : In (mk_turn n r (S col) t E_OK t') lg) by (rewrite EQ; apply in_or_app; simpl; auto).
  assert (SC : scanned (s_ctx a) n rows cols).
  { split; [destruct (same_q _ _ SPA) as (Q & _); now rewrite Q|now rewrite (same_net _ _ n SPA)]. }
  pose proof (reset_of_run E (during_scan W) (s_ctx a) lg s0 true b (same_marked _ _ SPA MK) NR FA _ col rows cols TI eq_refl SC RR) as K. cbn [at_net at_row pre_of] in K.
  rewrite (proj1 (same_code _ _ n (S r) col SPA)), (same_bar _ _ _ _ _ SPA) in K. specialize (K NM NP BF). unfold powered in *. congruence.
Qed.
