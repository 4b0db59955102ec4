(** Whole cycles and runs of the task. *)
From Verif Require Export ScanPoint.

(** ** The program stays *)
Lemma same_refl c : same_program c c. Proof. intros l _ _ _; auto. Qed.
Lemma same_net c c' n : same_program c c' -> peek c' (LNet n) = peek c (LNet n).
Proof. intros H. apply H; [exact I|discriminate|discriminate]. Qed.
Lemma same_trans a b d : same_program a b -> same_program b d -> same_program a d.
Proof.
  intros A B l L X D. rewrite B; auto. intros n r col i rows cols K. rewrite (same_net _ _ _ A). eauto.
Qed.
Lemma same_changes c c' (P : loc -> Prop) : changes_only c c' P -> (forall l, P l -> ~ is_layout l) -> same_program c c'.
Proof. intros H N l L X D. apply H. intros K. now apply N in K. Qed.
Lemma past_layout h : is_past h -> ~ is_layout h.
Proof. intros (x & P). destruct x; simpl in P; repeat match type of P with match ?x with _ => _ end = _ => destruct x end; try discriminate; injection P as <-; auto. Qed.
Lemma same_get c c' l : same_program c c' -> is_layout l -> match l with LExec | LData _ _ _ _ => False | _ => True end -> peek c' l = peek c l.
Proof. intros H L N. apply H; auto; [intros ->; contradiction|intros n r col i rows cols ->; contradiction]. Qed.
Lemma same_data c c' n r col i rows cols : same_program c c' -> peek c (LNet n) = Some (VNet true rows cols) -> peek c' (LData n r col i) = peek c (LData n r col i).
Proof. intros H N. apply H; [exact I|discriminate|]. intros n1 r1 c1 i1 a b K. injection K as <- _ _ _. rewrite N. discriminate. Qed.
Lemma same_q c c' : same_program c c' -> x_q c' = x_q c /\ x_io c' = x_io c /\ x_h c' = x_h c /\ x_cron c' = x_cron c.
Proof.
  intros H. pose proof (same_get _ _ LQty H I I) as A. pose proof (same_get _ _ LIo H I I) as B. pose proof (same_get _ _ LHooks H I I) as C. pose proof (same_get _ _ LCron H I I) as D.
  simpl in *. repeat split; congruence.
Qed.
Lemma same_code c c' n r col : same_program c c' -> code_at c' n r col = code_at c n r col /\ bar_at c' n r col = bar_at c n r col.
Proof. intros H. unfold code_at, bar_at. now rewrite (same_get _ _ (LCell n r col) H I I). Qed.
Lemma filter_ext' {A} (f g : A -> bool) l : (forall x, f x = g x) -> filter f l = filter g l.
Proof. intros H. induction l as [|a l IH]; simpl; auto. rewrite H, IH. auto. Qed.
Section Ext.
Variables (rows cols : nat) (code code' : nat -> nat -> ins) (bar bar' : nat -> nat -> bool).
Hypothesis HC : forall r col, code' r col = code r col.
Hypothesis HB : forall r col, bar' r col = bar r col.
Lemma joined_ext k g col : joined bar' k g col = joined bar k g col.
Proof. revert g. induction k as [|k IH]; intros g; simpl; auto. rewrite HB, IH. auto. Qed.
Lemma group_ext g col : group rows bar' g col = group rows bar g col. Proof. unfold group. now rewrite joined_ext. Qed.
Lemma branch_ext r : branch rows cols code' bar' r = branch rows cols code bar r.
Proof. unfold branch. induction (seq 0 cols) as [|x l IH]; simpl; auto. now rewrite IH, HB, HC. Qed.
Lemma looked_ext l col : looked code' l col = looked code l col.
Proof. induction l as [|x l IH]; simpl; auto. now rewrite HC, IH. Qed.
Lemma existsb_ext' {A} (f g : A -> bool) l : (forall x, f x = g x) -> existsb f l = existsb g l.
Proof. intros H. induction l; simpl; auto. now rewrite H, IHl. Qed.
Lemma column_ext g col : column_steps rows cols code' bar' g col = column_steps rows cols code bar g col.
Proof. unfold column_steps. rewrite group_ext, looked_ext, branch_ext. rewrite (existsb_ext' (fun r => always_run (code' r col)) (fun r => always_run (code r col))); auto. intros x. now rewrite HC. Qed.
Lemma rung_ext g : rung_steps rows cols code' bar' g = rung_steps rows cols code bar g.
Proof. unfold rung_steps. rewrite HC. destruct (multi _); auto. do 2 f_equal. induction (seq 0 cols) as [|x l IH]; simpl; auto. now rewrite column_ext, IH. Qed.
Lemma net_ext k g : net_steps rows cols code' bar' k g = net_steps rows cols code bar k g.
Proof.
  revert g. induction k as [|k IH]; intros g; cbn [net_steps]; auto. destruct (g <? rows)%nat; auto. rewrite rung_ext, IH. unfold next_rung. now rewrite HC, group_ext.
Qed.
End Ext.
Lemma same_plan c c' n : same_program c c' -> plan c' n = plan c n.
Proof.
  intros H. unfold plan. rewrite (same_net _ _ n H). destruct (peek c (LNet n)) as [[]|]; auto. destruct en; auto.
  apply net_ext; intros; now apply same_code.
Qed.
Lemma same_net_cells c c' n : same_program c c' -> net_cells c' n = net_cells c n.
Proof.
  intros H. unfold net_cells. rewrite (same_plan _ _ n H). induction (plan c n) as [|x l IH]; simpl; auto. rewrite IH. f_equal.
  destruct x; simpl; auto. f_equal. apply filter_ext'. intros r. now rewrite (proj1 (same_code c c' n r col H)).
Qed.
Lemma same_cells c c' : same_program c c' -> program_cells c' = program_cells c.
Proof.
  intros H. unfold program_cells. destruct (same_q _ _ H) as (-> & _). induction (seq 0 (q_nets (x_q c))) as [|x l IH]; simpl; auto.
  now rewrite IH, (same_net_cells _ _ x H).
Qed.
Lemma same_cost c c' n : same_program c c' -> cost c' n = cost c n.
Proof. intros H. unfold cost. now rewrite (same_plan _ _ n H). Qed.
Lemma same_target c c' v : same_program c c' -> target c' v = target c v.
Proof. intros H. apply target_meta. intros l L. apply same_get; auto; destruct l; simpl in *; tauto. Qed.
Lemma same_names c c' i n r col l rows cols : same_program c c' -> peek c (LNet n) = Some (VNet true rows cols) -> names c' i n r col l <-> names c i n r col l.
Proof.
  intros H N. unfold names. split.
  - intros [(j & v & A & B & T)|[(A & v & B & C & T)|[(A & v & B & C & T)|(-> & n' & r' & c2 & a & b & A & ->)]]].
    + left. rewrite (same_data _ _ n r col j rows cols H N) in B. rewrite (same_target _ _ _ H) in T. eauto.
    + right; left. rewrite (same_data _ _ n r col 0 rows cols H N) in B. eauto.
    + right; right; left. rewrite (same_data _ _ n r col 0 rows cols H N) in B. eauto.
    + right; right; right. rewrite (same_net _ _ _ H) in A. split; eauto 10.
  - intros [(j & v & A & B & T)|[(A & v & B & C & T)|[(A & v & B & C & T)|(-> & n' & r' & c2 & a & b & A & ->)]]].
    + left. rewrite <- (same_data _ _ n r col j rows cols H N) in B. rewrite <- (same_target _ _ _ H) in T. eauto.
    + right; left. rewrite <- (same_data _ _ n r col 0 rows cols H N) in B. eauto.
    + right; right; left. rewrite <- (same_data _ _ n r col 0 rows cols H N) in B. eauto.
    + right; right; right. rewrite <- (same_net _ _ _ H) in A. split; eauto 10.
Qed.
Lemma same_conf c c' : same_program c c' -> forall l, is_config l -> peek c' l = peek c l.
Proof. intros H l L. apply same_get; auto; [now apply conf_layout|destruct l; auto]. Qed.
Lemma same_cron_flag c c' l : same_program c c' -> cron_flag c' l <-> cron_flag c l.
Proof. intros H. unfold cron_flag. now rewrite (same_get _ _ LCron H I I). Qed.
Lemma same_ready E W c c' m : same_program c c' -> limit c' m -> scan_ready E W c m -> scan_ready E W c' m.
Proof.
  intros H LM [A B C D F _ G WF CR]. destruct (same_q _ _ H) as (QQ & _). constructor; auto.
  - intros k. rewrite (same_get _ _ LNets H I I). auto.
  - intros K. apply F. destruct K as [(b & K)|K]; [left; exists b; rewrite <- (same_get _ _ (LRegLen b) H I I)|right; rewrite <- (same_get _ _ LTmLen H I I)]; auto.
  - destruct WF as [W1 W2]. split; [now rewrite (same_get _ _ LNets H I I)|]. rewrite QQ. intros n Hn. destruct (W2 n Hn) as (R1 & en & rows & cols & R2 & R3).
    split; [now rewrite (same_get _ _ (LRows n) H I I)|]. exists en, rows, cols. rewrite (same_net _ _ n H). split; auto. intros EN. destruct (R3 EN) as [C0 WC]. split; auto.
    intros r col R CC. destruct (WC r col R CC) as (b & i & dq & K). exists b, i, dq. now rewrite (same_get _ _ (LCell n r col) H I I).
  - unfold cron_ready in *. now rewrite (same_get _ _ LCron H I I).
Qed.
Lemma same_lone c c' n r col l : same_program c c' -> lone c n r col l -> lone c' n r col l.
Proof.
  intros H (b4 & af & P & N & U). exists b4, af. rewrite (same_cells _ _ H). split; auto. split; auto. intros n' r' col' IN K.
  assert (IP : In (n', r', col') (program_cells c)) by (rewrite P; apply in_app_iff in IN; apply in_app_iff; simpl; tauto).
  apply program_cells_in in IP as (rows & cols & [_ SC] & _).
  apply (N n' r' col' IN). rewrite (proj1 (same_code _ _ n' r' col' H)) in K. apply (same_names c c' _ _ _ _ _ rows cols H SC). exact K.
Qed.
Lemma scan_same c c' W : changes_only c c' (fun l => scan_writes c l \/ W l) -> (forall l, W l -> ~ is_layout l) -> same_program c c'.
Proof.
  intros H HL l L X D. apply H. intros K. destruct (WS_layout W c HL l K L) as [K1|(n & r & col & a & b & A & ->)]; [auto|]. eapply D; eauto.
Qed.

Lemma past_some_loc l h : past l = Some h -> past l <> None. Proof. congruence. Qed.
Lemma past_inj l l' h : past l = Some h -> past l' = Some h -> l = l'.
Proof.
  intros A B. destruct l; simpl in A; repeat match type of A with match ?x with _ => _ end = _ => destruct x end; try discriminate; injection A as <-;
  destruct l'; simpl in B; repeat match type of B with match ?x with _ => _ end = _ => destruct x end; try discriminate; injection B; intros; subst; reflexivity.
Qed.
Lemma past_past h : is_past h -> past h = None.
Proof. intros (x & P). destruct x; simpl in P; repeat match type of P with match ?x with _ => _ end = _ => destruct x end; try discriminate; injection P as <-; auto. Qed.
Lemma now_not_past l : past l <> None -> ~ is_past l. Proof. intros H K. apply H. now apply past_past. Qed.
Lemma outs_now m k i : k = K_Q \/ k = K_QW -> past (LOut m k i) <> None. Proof. intros [->| ->]; discriminate. Qed.
Lemma saved_now c l : saved c l -> past l <> None.
Proof.
  intros [(b & i & IN & _ & ->)|(m & id & qd & qa & i & _ & _ & [(-> & _)|(-> & _)])]; try discriminate.
  simpl in IN. decompose [or] IN; subst; try discriminate; contradiction.
Qed.
Lemma input_now c l : input_place c l -> exists m k i, l = LIn m k i /\ past l <> None.
Proof. intros (m & id & qd & qa & i & _ & _ & [(-> & _)|(-> & _)]); eexists _, _, _; split; eauto; discriminate. Qed.

Section Run.
Variables (E : env) (W : event -> loc -> Prop).
Hypothesis CB : callbacks E W.
Hypothesis TA : tame W.
Lemma cb_lay ev l : W ev l -> ~ is_layout l. Proof. apply (cb_layout E W CB). Qed.
(** Which calls leave which registers alone. *)
Definition harmless (ev : event) : Prop := match ev with EvRead _ | EvForeign _ _ _ => False | _ => True end.
Lemma harmless_now ev l : harmless ev -> past l <> None -> ~ W ev l.
Proof. intros H P K. destruct (ta_now W TA ev l P K) as [(m & k & i & -> & _)|(a & b & d & ->)]; contradiction. Qed.

Lemma begins_split s t0 s1 s2 s3 s4 s5 : opening W s t0 s1 s2 s3 s4 s5 ->
  begins W s s5 t0 /\ same_program (s_ctx s) (s_ctx s5)
  /\ (forall l h, input_kept (s_ctx s) l -> past l = Some h -> peek (s_ctx s5) h = peek (s_ctx s) l)
  /\ (forall l h, output_kept (s_ctx s) l -> past l = Some h -> peek (s_ctx s5) h = peek (s_ctx s) l)
  /\ (forall l h, past l = Some h -> ~ input_kept (s_ctx s) l -> ~ output_kept (s_ctx s) l -> peek (s_ctx s5) h = peek (s_ctx s) h)
  /\ (forall l, past l <> None -> (forall m k i, l <> LIn m k i) -> peek (s_ctx s5) l = peek (s_ctx s) l)
  /\ (forall si, peek (s_ctx s) LStats = Some (VStats si) -> peek (s_ctx s5) LStats = Some (VStats (set_si_start t0 si))).
Proof.
  intros [A1 A2 A3 A4 B1 B2 [C0 [C1 C2]] D1 D2 [F0 [F1 F2]] CF].
  set (n := io_rq (x_io (s_ctx s))) in *.
  assert (CH : changes_only (s_ctx s) (s_ctx s5) (fun l => l = LStats \/ is_past l \/ W (EvMillis t0) l \/ W EvBefore l \/ exists m, (m < n)%nat /\ W (EvRead m) l)).
  { intros l L. rewrite F2, D2, C2, B2, A3; auto; try tauto.
    - intros (x & _ & K). apply L. right; left. exists x; auto.
    - intros (x & _ & K). apply L. right; left. exists x; auto. }
  assert (N1 : forall l, past l <> None -> peek (s_ctx s2) l = peek (s_ctx s) l).
  { intros l L. rewrite B2, A3; auto.
    - intros [K| ->]; [|now apply L]. revert K. apply harmless_now; simpl; auto.
    - apply harmless_now; simpl; auto. }
  assert (N2 : forall h, is_past h -> peek (s_ctx s2) h = peek (s_ctx s) h).
  { intros h P. rewrite B2, A3; auto; [|now apply (ta_past W TA)]. intros [K| ->]; [revert K; now apply (ta_past W TA)|]. now apply past_not_stats in P. }
  assert (N4 : forall h, is_past h -> peek (s_ctx s4) h = peek (s_ctx s3) h).
  { intros h P. apply D2. intros (m & _ & K). revert K. now apply (ta_past W TA). }
  assert (CC : calls s s5 ([EvMillis t0] ++ optional (h_before (x_h (s_ctx s))) EvBefore ++ map EvRead (seq 0 n))).
  { eapply calls_trans; [exact A1|]. eapply calls_trans; [exact B1|]. unfold calls in *. rewrite F0, D1, C0. reflexivity. }
  split; [split; [exact CC|exact CH]|].
  split.
  { eapply same_changes; [exact CH|]. intros l [->|[K|[K|[K|(m & _ & K)]]]]; auto; [now apply past_layout|eapply cb_lay; eauto..]. }
  assert (OI : forall l l' h, output_kept (s_ctx s) l -> past l = Some h -> input_kept (s_ctx s) l' -> past l' = Some h -> False).
  { intros l l' h O P I0 P'. rewrite (past_inj _ _ _ P' P) in I0. destruct I0 as [I0 _]. apply input_now in I0 as (m & k & i & -> & _). destruct O as [(? & ? & ? & ? & ? & _ & _ & [(K & _)|(K & _)]) _]; discriminate. }
  split.
  { intros l h IK P. rewrite F2; [|intros (x & K1 & K2); eapply OI; eauto]. rewrite N4 by (exists l; auto). rewrite (C1 l h) by auto. apply N1. congruence. }
  split.
  { intros l h OK P. rewrite (F1 l h) by auto. transitivity (peek (s_ctx s3) l).
    - apply D2. intros (m & _ & K). assert (PN : past l <> None) by congruence. destruct (ta_now W TA _ _ PN K) as [(m' & k & i & _ & ->)|(? & ? & ? & ?)]; [|discriminate].
      destruct OK as [(? & ? & ? & ? & ? & _ & _ & [(K' & _)|(K' & _)]) _]; discriminate.
    - rewrite C2; [apply N1; congruence|]. intros (x & K1 & K2). apply (now_not_past l); [congruence|]. exists x; auto. }
  split.
  { intros l h P NI NO. rewrite F2; [|intros (x & K1 & K2); rewrite (past_inj _ _ _ K2 P) in K1; auto]. rewrite N4 by (exists l; auto).
    rewrite C2; [apply N2; exists l; auto|]. intros (x & K1 & K2). rewrite (past_inj _ _ _ K2 P) in K1; auto. }
  split.
  { intros l P NI. apply CH. intros [->|[K|[K|[K|(m & _ & K)]]]].
    - now apply P.
    - revert K. now apply now_not_past.
    - revert K. apply harmless_now; simpl; auto.
    - revert K. apply harmless_now; simpl; auto.
    - destruct (ta_now W TA _ _ P K) as [(m' & k & i & _ & ->)|(? & ? & ? & ?)]; [|discriminate]. eapply NI; eauto. }
  assert (PS : ~ is_past LStats) by (intros Q; now apply past_not_stats in Q).
  intros si K. rewrite F2 by (intros (x & _ & P); apply PS; exists x; auto). rewrite D2 by (intros (m & _ & P); revert P; apply (ta_stats W TA)).
  rewrite C2 by (intros (x & _ & P); apply PS; exists x; auto). rewrite B2 by apply (ta_stats W TA). apply A4; auto. apply (ta_stats W TA).
Qed.

Lemma hands_same c c' n ev : (forall i, peek c' (LOut n K_Q i) = peek c (LOut n K_Q i)) -> (forall i, peek c' (LOut n K_QW i) = peek c (LOut n K_QW i)) -> hands c n ev -> hands c' n ev.
Proof. intros A B (q & qw & -> & H). exists q, qw. split; auto. intros i. rewrite A, B. apply H. Qed.
Lemma optional_map (b : bool) d : optional b (EvDelay d) = map EvDelay (if b then [d] else []). Proof. now destruct b. Qed.
Lemma closes_split b t1 ws si1 si2 s7 s8 s9 s10 s' : closing W b t1 ws si1 si2 s7 s8 s9 s10 s' ->
  closes W b s' t1 (alarm (s_ctx b) (si_actual si2)) (if (0 <? si_target si2) && (si_actual si2 <? si_target si2) then [si_target si2 - si_actual si2] else [])
  /\ same_program (s_ctx b) (s_ctx s')
  /\ scan_stats t1 si1 = Ok si2 /\ 0 <= t1 < 2 ^ 64 /\ peek (s_ctx b) LStats = Some (VStats si1) /\ peek (s_ctx s') LStats = Some (VStats si2)
  /\ (forall l h, saved (s_ctx b) l -> past l = Some h -> peek (s_ctx s') h = peek (s_ctx b) l)
  /\ (forall l, past l <> None -> peek (s_ctx s') l = peek (s_ctx b) l).
Proof.
  intros [[A0 [A1 A2]] B1 B2 B3 C1 C2 C3 C4 C5 C6 D1 D2 F1 F2 CF].
  assert (TS := ta_stats W TA). assert (PS : ~ is_past LStats) by (intros Q; now apply past_not_stats in Q).
  assert (WR : forall c l, writers W c l -> past l <> None -> False).
  { intros c l (m & q & qw & _ & K) P. revert K. apply harmless_now; simpl; auto. }
  assert (CH : changes_only (s_ctx b) (s_ctx s') (fun l => l = LStats \/ is_past l \/ (l = LState /\ alarm (s_ctx b) (si_actual si2) = true) \/ W (EvMillis t1) l \/ W EvPanic l \/ W EvAfter l
       \/ (exists d, W (EvDelay d) l) \/ exists m q qw, (m < io_wq (x_io (s_ctx b)))%nat /\ W (EvWrite m q qw) l)).
  { intros l L. rewrite F2 by tauto. rewrite D2 by tauto. rewrite C6 by tauto. rewrite B3 by (intros K; apply L; do 7 right; exact K).
    apply A2. intros (x & _ & P). apply L. right; left. exists x; auto. }
  assert (S7 : forall l, past l <> None -> peek (s_ctx s7) l = peek (s_ctx b) l).
  { intros l P. apply A2. intros (x & _ & K). apply (now_not_past l P). exists x; auto. }
  assert (PN : forall l, past l <> None -> l <> LStats /\ l <> LState) by (intros l P; split; intros ->; now apply P).
  split.
  { exists ws. split; [|split; [|exact CH]].
    - eapply Forall2_mono; [|exact B2]. intros m ev (c & C & H). apply (hands_same c); auto; intros i.
      + rewrite <- (S7 (LOut m K_Q i)) by discriminate. symmetry. apply C. intros K. eapply WR; eauto; discriminate.
      + rewrite <- (S7 (LOut m K_QW i)) by discriminate. symmetry. apply C. intros K. eapply WR; eauto; discriminate.
    - rewrite <- optional_map. specialize (D1 (TS _)).
      assert (CC : calls b s' (ws ++ (EvMillis t1 :: optional (alarm (s_ctx b) (si_actual si2) && h_panic (x_h (s_ctx b))) EvPanic)
          ++ optional ((0 <? si_target si2) && (si_actual si2 <? si_target si2)) (EvDelay (si_target si2 - si_actual si2)) ++ optional (h_after (x_h (s_ctx b))) EvAfter)).
      { eapply calls_trans; [unfold calls in *; rewrite B1, A0; reflexivity|]. eapply calls_trans; [exact C1|]. eapply calls_trans; [exact D1|exact F1]. }
      exact CC. }
  split.
  { eapply same_changes; [exact CH|]. intros l [->|[K|[[-> _]|[K|[K|[K|[(d & K)|(m & q & qw & _ & K)]]]]]]]; auto; [now apply past_layout|eapply cb_lay; eauto..]. }
  split; auto. split; auto. split.
  { rewrite <- (C4 (TS _)). rewrite B3, A2; auto.
    - intros (x & _ & P). apply PS. exists x; auto.
    - intros (m & q & qw & _ & K). revert K. apply TS. }
  split.
  { rewrite <- (C5 (TS _)). rewrite F2, D2; auto. intros (d & K). revert K. apply TS. }
  assert (KP : forall h, is_past h -> peek (s_ctx s') h = peek (s_ctx s7) h).
  { intros h P. assert (TP := fun ev => ta_past W TA ev h P). pose proof (past_not_stats h P) as (N1 & N2 & _).
    rewrite F2 by auto. rewrite D2 by (intros (d & K); now apply TP in K). rewrite C6; [|intros [K|[K|[K|[K _]]]]; auto; now apply TP in K].
    apply B3. intros (m & q & qw & _ & K). now apply TP in K. }
  split.
  { intros l h SV P. rewrite KP by (exists l; auto). now apply A1. }
  intros l P. destruct (PN l P) as [N1 N2]. rewrite <- S7 by auto. rewrite F2 by (apply harmless_now; simpl; auto).
  rewrite D2 by (intros (d & K); revert K; apply harmless_now; simpl; auto).
  rewrite C6; [|intros [K|[K|[K|[K _]]]]; auto; revert K; apply harmless_now; simpl; auto]. apply B3. intros K. eapply WR; eauto.
Qed.

(** ** A whole cycle *)
Section One.
Variables (s : st) (m : Z).
Hypothesis TR : task_ready (s_ctx s).
Hypothesis SR : scan_ready E (during_scan W) (s_ctx s) m.
Lemma during_past l : during_scan W l -> ~ is_past l.
Proof. intros (ev & _ & K) P. now apply (ta_past W TA ev l P). Qed.
Lemma scan_keeps a b : same_program (s_ctx s) (s_ctx a) -> limit (s_ctx a) m -> scans E a b ->
  scan_ready E (during_scan W) (s_ctx a) m /\ changes_only (s_ctx a) (s_ctx b) (fun l => scan_writes (s_ctx a) l \/ during_scan W l) /\ same_program (s_ctx a) (s_ctx b)
  /\ (forall h, is_past h -> peek (s_ctx b) h = peek (s_ctx a) h) /\ peek (s_ctx b) LStats = peek (s_ctx a) LStats.
Proof.
  intros SP LM X. pose proof (same_ready _ _ _ _ _ SP LM SR) as SA. split; auto.
  pose proof (scan_frame E (during_scan W) a (sr_env _ _ _ _ SA) (sr_layout _ _ _ _ SA) (sr_nets _ _ _ _ SA)) as F. unfold scans in X.
  apply (wp_ok _ _ _ _ _ _ F) in X. split; auto. split; [eapply scan_same; [exact X|]; apply (sr_layout _ _ _ _ SA)|]. split.
  - intros h P. apply X. intros [K|K]; [now apply scan_past in K|now apply during_past in K].
  - apply X. intros [K|K]; [now apply scan_stats_kept in K|]. destruct K as (ev & _ & K). now apply (ta_stats W TA ev).
Qed.
(** All about a cycle that goes on. *)
Record cycle_parts (a b s' : st) (t0 t1 : Z) (si si1 si2 : scanint) : Prop := {
  cp_begins : begins W s a t0;
  cp_scans : scans E a b;
  cp_not_inv : peek (s_ctx b) LState <> Some (VState S_INV);
  cp_closes : closes W b s' t1 (alarm (s_ctx b) (si_actual si2)) (if (0 <? si_target si2) && (si_actual si2 <? si_target si2) then [si_target si2 - si_actual si2] else []);
  cp_same : same_program (s_ctx s) (s_ctx a) /\ same_program (s_ctx s) (s_ctx b) /\ same_program (s_ctx s) (s_ctx s');
  cp_clock : 0 <= t0 < 2 ^ 64 /\ 0 <= t1 < 2 ^ 64;
  cp_stats : peek (s_ctx s) LStats = Some (VStats si) /\ si1 = set_si_start t0 si /\ scan_stats t1 si1 = Ok si2
             /\ peek (s_ctx a) LStats = Some (VStats si1) /\ peek (s_ctx s') LStats = Some (VStats si2);
  cp_ready : scan_ready E (during_scan W) (s_ctx a) m;
  cp_scan : changes_only (s_ctx a) (s_ctx b) (fun l => scan_writes (s_ctx a) l \/ during_scan W l);
  cp_in_hist : forall l h, input_kept (s_ctx s) l -> past l = Some h -> peek (s_ctx a) h = peek (s_ctx s) l;
  cp_out_hist : forall l h, output_kept (s_ctx s) l -> past l = Some h -> peek (s_ctx a) h = peek (s_ctx s) l;
  cp_hist : forall l h, past l = Some h -> ~ input_kept (s_ctx s) l -> ~ output_kept (s_ctx s) l -> peek (s_ctx a) h = peek (s_ctx s) h;
  cp_now : forall l, past l <> None -> (forall m k i, l <> LIn m k i) -> peek (s_ctx a) l = peek (s_ctx s) l;
  cp_scan_hist : forall h, is_past h -> peek (s_ctx b) h = peek (s_ctx a) h;
  cp_saved : forall l h, saved (s_ctx s) l -> past l = Some h -> peek (s_ctx s') h = peek (s_ctx b) l;
  cp_kept : forall l, past l <> None -> peek (s_ctx s') l = peek (s_ctx b) l }.
Lemma limit_start c si t : limit c m -> peek c LStats = Some (VStats si) -> forall c', peek c' LStats = Some (VStats (set_si_start t si)) -> limit c' m.
Proof. intros (x & A & B) H c' K. rewrite A in H. injection H as <-. exists (set_si_start t x). split; auto. Qed.
Lemma same_saved c c' l : same_program c c' -> saved c' l <-> saved c l.
Proof. intros H. pose proof (same_conf _ _ H) as L. unfold saved. rewrite (flag_conf c c' l L), (output_conf c c' l L). tauto. Qed.
Lemma cycle_ok s' : cycle E s = Ok (T_continue, s') -> exists a b t0 t1 si si1 si2, cycle_parts a b s' t0 t1 si si1 si2.
Proof.
  intros H. destruct (cycle_split E W CB s T_continue s' TR H) as (t0 & s1 & s2 & s3 & s4 & a & b & OP & X & CF & [(_ & K & _)|(NI & _ & NP)]); [discriminate|].
  destruct (begins_split _ _ _ _ _ _ _ OP) as (B1 & B2 & B3 & B4 & B5 & B6 & B7).
  assert (exists si, peek (s_ctx s) LStats = Some (VStats si)) as (si & SI) by (eexists; reflexivity).
  pose proof (B7 si SI) as SA.
  destruct (scan_keeps a b B2) as (R1 & R2 & R3 & R4 & R5); auto. { eapply (limit_start (s_ctx s)); [apply (sr_limit _ _ _ _ SR)|exact SI|exact SA]. }
  assert (TB : task_ready (s_ctx b)) by (eapply ready_conf; [exact TR|exact CF]).
  destruct (normal_split E W CB b s' TB NP) as (t1 & ws & si1 & si2 & s7 & s8 & s9 & s10 & CL).
  destruct (closes_split _ _ _ _ _ _ _ _ _ _ CL) as (C1 & C2 & C3 & C4 & C5 & C6 & C7 & C8).
  assert (SB : same_program (s_ctx s) (s_ctx b)) by (eapply same_trans; eauto).
  assert (S1 : si1 = set_si_start t0 si) by congruence.
  exists a, b, t0, t1, si, si1, si2. constructor; auto.
  - split; auto. split; auto. eapply same_trans; eauto.
  - split; auto. apply OP.
  - split; auto. split; auto. split; auto. split; auto. rewrite S1. auto.
  - intros l h SV. apply C7. apply (same_saved _ _ l SB). exact SV.
Qed.

(** All about a cycle that faults; [sf] is the state in which the write functions are called. *)
Record fault_parts (a b sf s' : st) (t0 t1 : Z) (late : bool) (ws : list event) : Prop := {
  fp_begins : begins W s a t0;
  fp_scans : scans E a b;
  fp_inv : peek (s_ctx b) LState = Some (VState S_INV);
  fp_same : same_program (s_ctx s) (s_ctx a) /\ same_program (s_ctx s) (s_ctx b) /\ same_program (s_ctx s) (s_ctx sf) /\ same_program (s_ctx s) (s_ctx s');
  fp_ready : scan_ready E (during_scan W) (s_ctx a) m;
  fp_tr : s_tr sf = s_tr b;
  fp_hands : Forall2 (hands (s_ctx sf)) (seq 0 (io_wq (x_io (s_ctx s)))) ws;
  fp_calls : calls b s' (ws ++ EvMillis t1 :: optional (late && h_panic (x_h (s_ctx s))) EvPanic ++ optional (h_after (x_h (s_ctx s))) EvAfter);
  fp_state : peek (s_ctx sf) LState = Some (VState S_EXIT_TSK);
  fp_wof : peek (s_ctx sf) LWof = peek (s_ctx b) LWof;
  fp_flags : forall l h, flag_place (s_ctx s) l -> past l = Some h -> peek (s_ctx sf) l = peek (s_ctx s) h;
  fp_regs : forall l, reg_place (s_ctx s) l -> peek (s_ctx sf) l = Some (VZ 0);
  fp_kept : forall l, peek (s_ctx b) LWof = Some (VB true) -> output_kept (s_ctx s) l -> peek (s_ctx sf) l = peek (s_ctx s) l;
  fp_zero : forall l, peek (s_ctx b) LWof = Some (VB false) -> driven (s_ctx s) l -> peek (s_ctx sf) l = Some (VZ 0);
  fp_analog : forall x k i id qa, (x < io_wq (x_io (s_ctx s)))%nat -> peek (s_ctx s) (LOutMeta x) = Some (VMeta id 0 qa) -> k = K_Q \/ k = K_QW ->
    peek (s_ctx sf) (LOut x k i) = peek (s_ctx b) (LOut x k i);
  fp_after : changes_only (s_ctx sf) (s_ctx s') (fun l => l = LStats \/ (l = LState /\ late = true) \/ W (EvMillis t1) l \/ W EvPanic l \/ W EvAfter l
       \/ exists m q qw, (m < io_wq (x_io (s_ctx s)))%nat /\ W (EvWrite m q qw) l) }.
Lemma conf_kept c c' l : (forall l, is_config l -> peek c' l = peek c l) -> output_kept c' l <-> output_kept c l.
Proof. intros L. unfold output_kept. rewrite (output_conf c c' l L), (digital_conf c c' l L). tauto. Qed.
Lemma conf_driven c c' l : (forall l, is_config l -> peek c' l = peek c l) -> driven c l -> driven c' l.
Proof.
  intros L (x & k & i & id & qd & qa & A & B & C & D & F & G & H & ->). destruct (conf_q _ _ L) as (_ & IO & _).
  exists x, k, i, id, qd, qa. rewrite IO, (L (LOutMeta x) I), (L (LOutLen x k) I), (L (LOutLen x K_Q) I). auto 10.
Qed.
Lemma cycle_fault s' : cycle E s = Ok (T_exit, s') -> exists a b sf t0 t1 late ws, fault_parts a b sf s' t0 t1 late ws.
Proof.
  intros H. destruct (cycle_split E W CB s T_exit s' TR H) as (t0 & s1 & s2 & s3 & s4 & a & b & OP & X & CF & [(NI & _ & NP)|(_ & K & _)]); [|discriminate].
  destruct (begins_split _ _ _ _ _ _ _ OP) as (B1 & B2 & B3 & B4 & B5 & B6 & B7).
  assert (exists si, peek (s_ctx s) LStats = Some (VStats si)) as (si & SI) by (eexists; reflexivity).
  pose proof (B7 si SI) as SA.
  destruct (scan_keeps a b B2) as (R1 & R2 & R3 & R4 & R5); auto. { eapply (limit_start (s_ctx s)); [apply (sr_limit _ _ _ _ SR)|exact SI|exact SA]. }
  assert (TB : task_ready (s_ctx b)) by (eapply ready_conf; [exact TR|exact CF]).
  destruct (fault_split E W CB b s' TB NP) as (t1 & ws & si1 & si2 & sf & s8 & s9 & [[F0 [U1 U2 U3 U4 U5 U6 U7]] F1 F2 F3 F4 F5 F6 F7 F8 F9 F10 F11]).
  destruct (conf_q _ _ CF) as (QQ & QIO & QH). rewrite QIO, QH in *.
  assert (SB : same_program (s_ctx s) (s_ctx b)) by (eapply same_trans; eauto).
  assert (SBF : same_program (s_ctx b) (s_ctx sf)).
  { eapply same_changes; [exact U7|]. intros l [->|[(bk & i & _ & _ & ->)|[[(bk & i & _ & _ & ->)|(i & _ & ->)]|[K|(x & k & i & id & qd & qa & _ & _ & _ & _ & ->)]]]]; auto. now apply past_layout. }
  assert (WR : forall c l, writers W c l -> past l <> None -> False).
  { intros c l (x & q & qw & _ & K) P. revert K. apply harmless_now; simpl; auto. }
  assert (AF : changes_only (s_ctx sf) (s_ctx s') (fun l => l = LStats \/ (l = LState /\ alarm (s_ctx b) (si_actual si2) = true) \/ W (EvMillis t1) l \/ W EvPanic l \/ W EvAfter l
       \/ exists m q qw, (m < io_wq (x_io (s_ctx s)))%nat /\ W (EvWrite m q qw) l)).
  { intros l L. rewrite F10 by tauto. rewrite F8 by tauto. apply F3. intros (x & q & qw & K1 & K2). apply L. do 5 right. rewrite QIO in K1. eauto. }
  assert (RF : forall h, is_past h -> peek (s_ctx b) h = peek (s_ctx a) h) by auto.
  exists a, b, sf, t0, t1, (alarm (s_ctx b) (si_actual si2)), ws. constructor; auto.
  - split; auto. split; auto. split; [eapply same_trans; eauto|]. eapply same_trans; [exact SB|]. eapply same_trans; [exact SBF|]. eapply same_changes; [exact AF|].
    intros l [->|[[-> _]|[K|[K|[K|(x & q & qw & _ & K)]]]]]; auto; eapply cb_lay; eauto.
  - eapply Forall2_mono; [|exact F2]. intros x ev (c & C & HH). apply (hands_same c); auto; intros i; symmetry; apply C; intros K; eapply WR; eauto; discriminate.
  - assert (CC : calls b s' (ws ++ (EvMillis t1 :: optional (alarm (s_ctx b) (si_actual si2) && h_panic (x_h (s_ctx s))) EvPanic) ++ optional (h_after (x_h (s_ctx s))) EvAfter)).
    { eapply calls_trans; [unfold calls in *; rewrite F1, F0; reflexivity|]. eapply calls_trans; [exact F4|exact F9]. }
    exact CC.
  - intros l h FL P. rewrite (U3 l h) by (auto; now apply (flag_conf _ _ l CF)). rewrite RF by (exists l; auto). apply (B5 l); auto.
    + intros [K _]. apply input_now in K as (x & k & i & -> & _). destruct FL as (bk & j & _ & _ & K). discriminate.
    + intros [(x & id & qd & qa & i & _ & _ & [(K & _)|(K & _)]) _]; destruct FL as (bk & j & _ & _ & ->); discriminate.
  - intros l RP. apply U4. unfold reg_place in *. now rewrite QQ.
  - intros l WF OK. destruct (past l) as [h|] eqn:P.
    + rewrite (U5 l h) by (auto; now apply (conf_kept _ _ l CF)). rewrite RF by (exists l; auto). now apply B4.
    + exfalso. destruct OK as [OK _]. revert P. apply (saved_now (s_ctx s)). right; auto.
  - intros l WF OK. apply U6; auto. eapply conf_driven; [|exact OK]. auto.
  - intros x k i id qa XL MT KK. apply U7. intros [K|[(bk & j & _ & _ & K)|[[(bk & j & _ & _ & K)|(j & _ & K)]|[K|(y & k' & j & id' & qd & qa' & _ & K1 & K2 & _ & K)]]]]; try discriminate.
    + revert K. apply now_not_past. now apply outs_now.
    + injection K as <- <- <-. rewrite (CF (LOutMeta x) I) in K1. rewrite MT in K1. injection K1 as _ <- _. lia.
Qed.
End One.

(** ** Waiting *)
Lemma waits_keep k s s' : waits W k s s' -> same_program (s_ctx s) (s_ctx s') /\ calls s s' (repeat (EvDelay (q_delay (x_q (s_ctx s)))) k)
  /\ changes_only (s_ctx s) (s_ctx s') (W (EvDelay (q_delay (x_q (s_ctx s)))))
  /\ (forall l, past l <> None \/ is_past l \/ l = LStats -> peek (s_ctx s') l = peek (s_ctx s) l).
Proof.
  induction 1 as [s|k s s1 s2 NS CA CH WT (A & B & D & F)].
  - split; [apply same_refl|]. split; [reflexivity|]. split; [apply changes_refl|auto].
  - assert (SP : same_program (s_ctx s) (s_ctx s1)) by (eapply same_changes; [exact CH|apply cb_lay]).
    destruct (same_q _ _ SP) as (Q & _). rewrite Q in *. split; [eapply same_trans; eauto|]. split.
    { change (repeat ?x (S k)) with ([x] ++ repeat x k). eapply calls_trans; eauto. }
    split; [eapply changes_trans; eauto|]. intros l L. rewrite F by auto. apply CH. destruct L as [L|[L| ->]].
    + apply harmless_now; simpl; auto.
    + now apply (ta_past W TA).
    + apply (ta_stats W TA).
Qed.
Lemma in_states c : ~ In (peek c LState) [Some (VState S_RUNNING); Some (VState S_EXIT_TSK)] <-> lstate_eqb (x_state c) S_RUNNING = false /\ lstate_eqb (x_state c) S_EXIT_TSK = false.
Proof.
  simpl. split.
  - intros H. split; destruct (lstate_eqb _ _) eqn:K; auto; apply lstate_eqb_true in K; exfalso; apply H; rewrite K; auto.
  - intros [A B] [K|[K|[]]]; injection K as K; rewrite <- K in *; discriminate.
Qed.
Lemma wait_split n s w s' : h_delay (x_h (s_ctx s)) = true -> wait E n s = Ok (w, s') -> exists k, (k <= n)%nat /\ waits W k s s' /\
  match w with Some true => k = n | Some false => (k < n)%nat /\ peek (s_ctx s') LState = Some (VState S_RUNNING) | None => (k < n)%nat /\ peek (s_ctx s') LState = Some (VState S_EXIT_TSK) end.
Proof.
  revert s. induction n as [|n IH]; intros s HD H; cbn [wait] in H; unfold bind at 1, getc at 1 in H.
  - unfold ret in H. injection H as <- <-. exists 0%nat. split; auto. split; [constructor|auto].
  - destruct (lstate_eqb (x_state (s_ctx s)) S_RUNNING) eqn:R.
    { apply lstate_eqb_true in R. unfold ret in H. injection H as <- <-. exists 0%nat. split; [lia|]. split; [constructor|]. split; [lia|]. simpl. now rewrite R. }
    destruct (lstate_eqb (x_state (s_ctx s)) S_EXIT_TSK) eqn:X.
    { apply lstate_eqb_true in X. unfold ret in H. injection H as <- <-. exists 0%nat. split; [lia|]. split; [constructor|]. split; [lia|]. simpl. now rewrite X. }
    apply bind_inv in H as ([] & s1 & H1 & H). unfold wait_delay, bind, getc in H1. cbn [s_ctx] in H1. rewrite HD in H1.
    apply (emit_split E W CB) in H1 as [C1 C2].
    assert (SP : same_program (s_ctx s) (s_ctx s1)) by (eapply same_changes; [exact C2|apply cb_lay]). destruct (same_q _ _ SP) as (_ & _ & QH & _).
    destruct (IH s1) as (k & K1 & K2 & K3); [now rewrite QH|auto|]. exists (S k). split; [lia|]. split.
    + econstructor; eauto. apply in_states. auto.
    + destruct w as [[]|]; [congruence|split; [lia|tauto]..].
Qed.
Lemma set_state_split x s s' : set_state x s = Ok (tt, s') -> s_tr s' = s_tr s /\ changes_only (s_ctx s) (s_ctx s') (eq LState) /\ peek (s_ctx s') LState = Some (VState x).
Proof. intros H. unfold set_state, modc in H. injection H as <-. split; auto. split; [|reflexivity]. intros l L. destruct l; simpl; auto. congruence. Qed.
Lemma panic_split s s' : panic E s = Ok (tt, s') -> calls s s' (optional (h_panic (x_h (s_ctx s))) EvPanic) /\ changes_only (s_ctx s) (s_ctx s') (W EvPanic).
Proof.
  unfold panic, bind, getc. cbn [s_ctx]. unfold optional. destruct (h_panic (x_h (s_ctx s))); intros H; [now apply (emit_split E W CB)|].
  unfold ret in H. injection H as <-. split; [reflexivity|apply changes_refl].
Qed.
Lemma ready_delay c : task_ready c -> h_delay (x_h c) = true.
Proof. intros T. destruct (tr_hooks c T) as (h & A & _ & B). simpl in A. injection A as <-. auto. Qed.
(** One iteration of the main loop. *)
Lemma loop_exit k s : peek (s_ctx s) LState = Some (VState S_EXIT_TSK) -> task_loop E k s = Ok (Ended, s).
Proof. intros H. simpl in H. injection H as H. destruct k; cbn [task_loop]; unfold bind at 1, getc at 1; rewrite H; reflexivity. Qed.
Lemma loop_step k s r s' : task_ready (s_ctx s) -> task_loop E (S k) s = Ok (r, s') ->
  ends E W s r s' \/ exists j s1 s2, waits W j s s1 /\ (j < 1000)%nat /\ peek (s_ctx s1) LState = Some (VState S_RUNNING) /\ cycle E s1 = Ok (T_continue, s2) /\ task_loop E k s2 = Ok (r, s').
Proof.
  intros TR H. cbn [task_loop] in H. unfold bind at 1, getc at 1 in H.
  destruct (lstate_eqb (x_state (s_ctx s)) S_EXIT_TSK) eqn:X.
  { apply lstate_eqb_true in X. unfold ret in H. injection H as <- <-. left. apply en_request. simpl. now rewrite X. }
  apply bind_inv in H as (w & s1 & H1 & H). destruct (wait_split max_wait_cycles s w s1 (ready_delay _ TR) H1) as (j & J1 & J2 & J3).
  unfold max_wait_cycles in *. destruct w as [[]|].
  - subst j. left. unfold wait_timeout in H. apply bind_inv in H as ([] & s4 & H4 & H). apply bind_inv in H4 as ([] & s2 & H2 & H4). apply bind_inv in H4 as ([] & s3 & H3 & H4).
    apply set_state_split in H2 as (T2 & C2 & S2). apply panic_split in H3 as (T3 & C3). apply set_state_split in H4 as (T4 & C4 & S4).
    unfold bind at 1, getc at 1 in H. pose proof S4 as S4'. simpl in S4'. injection S4' as S4'. rewrite S4' in H. simpl in H.
    rewrite loop_exit in H by auto. injection H as <- <-. destruct (waits_keep _ _ _ J2) as (SP & _). destruct (same_q _ _ SP) as (_ & _ & QH & _).
    assert (Q2 : x_h (s_ctx s2) = x_h (s_ctx s1)) by (pose proof (C2 LHooks ltac:(discriminate)) as K; simpl in K; congruence).
    rewrite Q2, QH in T3. eapply en_timeout; eauto.
    + unfold calls in *. now rewrite T4, T3, T2.
    + intros l L. rewrite C4, C3, C2; auto; intros K; apply L; auto.
  - destruct J3 as [J3 J4]. unfold wait_timeout in H. apply bind_inv in H as ([] & s4 & H4 & H). unfold ret in H4. injection H4 as <-.
    unfold bind at 1, getc at 1 in H. pose proof J4 as J4'. simpl in J4'. injection J4' as J4'. rewrite J4' in H. simpl in H.
    apply bind_inv in H as (n & s2 & H2 & H). destruct n.
    + right. exists j, s1, s2. auto.
    + left. unfold ret in H. injection H as <- <-. eapply en_fault; eauto.
  - destruct J3 as [J3 J4]. unfold ret in H. injection H as <- <-. left. eapply en_wait; eauto. split; auto.
    destruct j; [|lia]. exfalso. inversion J2; subst. simpl in J4. injection J4 as J4. rewrite J4 in X. discriminate.
Qed.

(** ** Runs *)
Lemma stats_maxcyc t si si' : scan_stats t si = Ok si' -> si_maxcyc si' = si_maxcyc si.
Proof.
  unfold scan_stats. assert (OI : forall x y : scanint, Ok x = Ok y -> x = y) by (intros x y K; congruence).
  destruct (u32 _ =? 0); intros H; [discriminate|]. apply OI in H. rewrite <- H. reflexivity.
Qed.
Lemma cycle_keeps s m s' : task_ready (s_ctx s) -> scan_ready E (during_scan W) (s_ctx s) m -> cycle E s = Ok (T_continue, s') ->
  task_ready (s_ctx s') /\ scan_ready E (during_scan W) (s_ctx s') m /\ same_program (s_ctx s) (s_ctx s') /\ remembers (s_ctx s').
Proof.
  intros TR SR H. destruct (cycle_ok s m TR SR s' H) as (a & b & t0 & t1 & si & si1 & si2 & [P1 P2 P3 P4 (_ & _ & P5) P6 (P7 & P8 & P9 & _ & P10) P11 P12 P13 P14 P15 P16 P17 P18 P19]).
  split; [eapply ready_conf; [exact TR|now apply same_conf]|]. split.
  - eapply same_ready; eauto. destruct (sr_limit _ _ _ _ SR) as (x & A & B). rewrite P7 in A. injection A as <-. exists si2. split; auto.
    rewrite (stats_maxcyc _ _ _ P9). now subst si1.
  - split; auto. intros l h SV P. apply (same_saved (s_ctx s) (s_ctx s') l P5) in SV. rewrite (P18 l h SV P). symmetry. apply P19. congruence.
Qed.
Lemma waits_ready k s m s' : task_ready (s_ctx s) -> scan_ready E (during_scan W) (s_ctx s) m -> waits W k s s' ->
  task_ready (s_ctx s') /\ scan_ready E (during_scan W) (s_ctx s') m /\ same_program (s_ctx s) (s_ctx s') /\ (remembers (s_ctx s) -> remembers (s_ctx s')).
Proof.
  intros TR SR H. destruct (waits_keep _ _ _ H) as (A & _ & _ & B).
  split; [eapply ready_conf; [exact TR|now apply same_conf]|]. split.
  - eapply same_ready; eauto. destruct (sr_limit _ _ _ _ SR) as (x & K1 & K2). exists x. rewrite B by auto. auto.
  - split; auto. intros R l h SV P. apply (same_saved (s_ctx s) (s_ctx s') l A) in SV. rewrite !B; [now apply R|left; congruence|right; left; exists l; auto].
Qed.
Lemma goes_keeps k s m s' : task_ready (s_ctx s) -> scan_ready E (during_scan W) (s_ctx s) m -> goes E W k s s' ->
  task_ready (s_ctx s') /\ scan_ready E (during_scan W) (s_ctx s') m /\ same_program (s_ctx s) (s_ctx s') /\ ((0 < k)%nat \/ remembers (s_ctx s) -> remembers (s_ctx s')).
Proof.
  intros TR SR H. revert TR SR. induction H as [s|j k s s1 s2 s3 WT J RU CY GO IH]; intros TR SR.
  - split; auto. split; auto. split; [apply same_refl|]. intros [K|K]; [lia|auto].
  - destruct (waits_ready _ _ _ _ TR SR WT) as (T1 & S1 & P1 & _). destruct (cycle_keeps _ _ _ T1 S1 CY) as (T2 & S2 & P2 & R2).
    destruct (IH T2 S2) as (T3 & S3 & P3 & R3). split; auto. split; auto. split; [eapply same_trans; [exact P1|]; eapply same_trans; eauto|]. auto.
Qed.
(** Every run of the main loop is some cycles followed by one of the ends. *)
Lemma loop_shape k s m r s' : task_ready (s_ctx s) -> scan_ready E (during_scan W) (s_ctx s) m -> task_loop E k s = Ok (r, s') ->
  exists j s1, (j <= k)%nat /\ goes E W j s s1 /\ ((r = Running /\ j = k /\ s1 = s') \/ ends E W s1 r s').
Proof.
  revert s. induction k as [|k IH]; intros s TR SR H.
  - cbn [task_loop] in H. unfold bind at 1, getc at 1 in H. exists 0%nat, s. split; auto. split; [constructor|].
    destruct (lstate_eqb (x_state (s_ctx s)) S_EXIT_TSK) eqn:X; unfold ret in H; injection H as <- <-; auto. apply lstate_eqb_true in X. right. apply en_request. simpl. now rewrite X.
  - destruct (loop_step _ _ _ _ TR H) as [K|(j & s1 & s2 & K1 & K2 & K3 & K4 & K5)].
    + exists 0%nat, s. split; [lia|]. split; [constructor|auto].
    + destruct (waits_ready _ _ _ _ TR SR K1) as (T1 & S1 & _). destruct (cycle_keeps _ _ _ T1 S1 K4) as (T2 & S2 & _).
      destruct (IH s2 T2 S2 K5) as (j' & s4 & J1 & J2 & J3). exists (S j'), s4. split; [lia|]. split; [econstructor; eauto|]. destruct J3 as [(A & B & C)|J3]; auto.
Qed.
End Run.
