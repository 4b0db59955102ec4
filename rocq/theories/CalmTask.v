(** The task of a machine with everything in place does not panic. *)
From Verif Require Export CalmFacts.
Local Open Scope m_scope.

Section Task.
Variables (c0 : ctx) (E E' : env).
Hypothesis AL : alike_but_panic c0 E E'.
Hypothesis KS : calm_calls c0 E.
Hypothesis EQ : equipped c0.
Hypothesis RM : roomy c0.
Variables (tr0 : list event) (firm : bool).
Hypothesis FM : firm = true -> firm_calls c0 E.
Hypothesis SU : firm = true -> sure c0 /\ cron_ready c0.
Notation Jf := (J c0 tr0 false firm).
Notation Jt := (J c0 tr0 true firm).
Notation agf := (agat c0 tr0 false firm).

Lemma weaken s : Jf s -> Jt s.
Proof. intros [(H1 & H2 & H3) L]. split; auto. split; [auto|]. split; [auto|]. unfold steady in *. clear - H3. destruct firm; [auto|]. destruct H3 as [H3|[? _]]; [left; auto|discriminate]. Qed.
Lemma strengthen s : Jt s -> x_state (s_ctx s) <> S_INV -> Jf s.
Proof. intros [(H1 & H2 & H3) L] N. split; auto. split; [auto|]. split; [auto|]. unfold steady in *. clear - H3 N. destruct firm; [auto|]. destruct H3 as [H3|[_ H3]]; [left; auto|contradiction]. Qed.
Lemma going_of s : Jf s -> going (s_ctx s) /\ (firm = true -> x_state (s_ctx s) = S_RUNNING).
Proof. intros [(_ & _ & H) _]. unfold steady in H. clear - H. unfold going. destruct firm; [destruct H as [H _]; rewrite H; auto|]. destruct H as [H|[? _]]; [split; [exact H|discriminate]|discriminate]. Qed.
Lemma not_inv s : firm = true -> Jt s -> x_state (s_ctx s) <> S_INV.
Proof. intros F [(_ & _ & H) _]. unfold steady in H. clear - H F. rewrite F in H. destruct H as [H _]. rewrite H. discriminate. Qed.
Lemma firm_or : firm = true \/ firm = false.
Proof. clear. destruct firm; auto. Qed.
Lemma scan_same s : Jt s -> ladder_scan E s = ladder_scan E' s /\ forall a s', ladder_scan E s = Ok (a, s') -> Jt s'.
Proof. intros H. destruct RM as (R & C & HB & HC). apply (g_scan c0 E E' AL KS EQ tr0 true firm FM R C HB HC); auto. clear - SU. destruct firm; auto. Qed.
Lemma mix {A B} (m m' : M A) (k k' : A -> M B) s (P : st -> Prop) :
  (m s = m' s /\ forall a s', m s = Ok (a, s') -> P s') -> (forall a s', P s' -> agf s' (k a) (k' a)) -> agf s (bind m k) (bind m' k').
Proof.
  intros [H1 H2] K. unfold agat, bind. rewrite <- H1. destruct (m s) as [[a s1]|u|] eqn:M1.
  - apply (K a s1). eapply H2. reflexivity.
  - split; auto. intros b s' Q. discriminate.
  - split; auto. intros b s' Q. discriminate.
Qed.
Lemma t_fault s : firm = false -> Jt s -> agf s (fault_path E) (fault_path E').
Proof.
  intros FF H. apply (mix (set_state S_EXIT_TSK) (set_state S_EXIT_TSK) (fun _ => fault_tail E) (fun _ => fault_tail E') s Jf).
  - split; auto. intros a s' K. apply strengthen; [exact (proj2 (g_exit c0 tr0 true firm s FF H) _ _ K)|]. injection K as _ <-. discriminate.
  - intros [] s1 H1. now apply (g_fault c0 E E' AL KS EQ tr0 false firm FM).
Qed.
Notation a_bind := (a_bind c0 tr0 false firm).
Notation a_getc := (a_getc c0 tr0 false firm).
Lemma a_retk {A B} (a : A) (k k' : A -> M B) s : agf s (k a) (k' a) -> agf s (bind (ret a) k) (bind (ret a) k').
Proof. intros H. exact H. Qed.
Lemma t_cycle s : Jf s -> agf s (cycle E) (cycle E').
Proof.
  intros H. unfold cycle. apply a_getc. rewrite (shape_h _ _ (proj1 (proj1 H))), (proj1 (eq_time _ EQ)).
  apply a_bind. { apply a_bind; [exact (a_millis c0 E E' AL KS EQ tr0 false firm FM s H)|]. intros t s1 H1. now apply a_modc. }
  intros [] s1 H1. apply a_bind. { apply (g_hook c0 E E' AL KS tr0 false firm FM); auto. discriminate. }
  intros [] s2 H2. apply a_getc. rewrite !(guard_in c0 EQ tr0 false firm s2) by auto. apply a_retk. cbv iota.
  apply a_bind. { apply a_updc; auto. apply e_in_hist. }
  intros [] s3 H3. apply a_bind. { exact (g_reads c0 E E' AL KS EQ tr0 false firm FM s3 H3). }
  intros [] s4 H4. apply a_getc. rewrite !(guard_out c0 EQ tr0 false firm s4) by auto. apply a_retk. cbv iota.
  apply a_bind. { apply a_updc; auto. apply e_out_hist. }
  intros [] s5 H5. apply (mix _ _ _ _ _ Jt); [apply scan_same, weaken, H5|]. intros [] s6 H6. apply a_getc.
  destruct (lstate_eqb (x_state (s_ctx s6)) S_INV) eqn:ST.
  - destruct firm_or as [FF|FF]; [exfalso; apply (not_inv _ FF H6); destruct (x_state (s_ctx s6)); discriminate || reflexivity|]. apply a_bind; [now apply t_fault|]. intros [] s7 H7. now apply a_ret.
  - assert (H6' : Jf s6) by (apply strengthen; auto; intros K; rewrite K in ST; discriminate).
    apply a_bind; [exact (g_normal c0 E E' AL KS EQ tr0 false firm FM s6 H6')|]. intros [] s7 H7. now apply a_ret.
Qed.
Lemma cycle_goes_on s r s' : firm = true -> Jf s -> cycle E s = Ok (r, s') -> r = T_continue.
Proof.
  intros FF H K. unfold cycle in K. apply b_inv in K. destruct K as (c & s0 & K0 & K). injection K0 as <- <-. rewrite (shape_h _ _ (proj1 (proj1 H))), (proj1 (eq_time _ EQ)) in K.
  apply b_inv in K. destruct K as ([] & s1 & K1 & K). assert (H1 : Jf s1).
  { refine (proj2 (a_bind _ _ _ _ s (a_millis c0 E E' AL KS EQ tr0 false firm FM s H) _) _ _ K1). intros t s2 H2. now apply a_modc. }
  apply b_inv in K. destruct K as ([] & s2 & K2 & K). assert (H2 : Jf s2) by (refine (proj2 (g_hook c0 E E' AL KS tr0 false firm FM h_before EvBefore s1 _ _ H1) _ _ K2); [discriminate|auto]).
  apply b_inv in K. destruct K as (c & s0 & K0 & K). injection K0 as <- <-. rewrite !(guard_in c0 EQ tr0 false firm s2) in K by auto. apply b_inv in K. destruct K as (g & s0 & K0 & K). injection K0 as <- <-. cbv iota in K.
  apply b_inv in K. destruct K as ([] & s3 & K3 & K). assert (H3 : Jf s3) by exact (updc_in c0 tr0 false firm _ _ _ H2 K3).
  apply b_inv in K. destruct K as ([] & s4 & K4 & K). assert (H4 : Jf s4) by exact (proj2 (g_reads c0 E E' AL KS EQ tr0 false firm FM s3 H3) _ _ K4).
  apply b_inv in K. destruct K as (c & s0 & K0 & K). injection K0 as <- <-. rewrite !(guard_out c0 EQ tr0 false firm s4) in K by auto. apply b_inv in K. destruct K as (g & s0 & K0 & K). injection K0 as <- <-. cbv iota in K.
  apply b_inv in K. destruct K as ([] & s5 & K5 & K). assert (H5 : Jf s5) by (refine (proj2 (a_updc c0 tr0 false firm _ _ _ H4) _ _ K5); apply e_out_hist).
  apply b_inv in K. destruct K as ([] & s6 & K6 & K). apply (proj2 (scan_same _ (weaken _ H5))) in K6. apply (not_inv _ FF) in K6.
  apply b_inv in K. destruct K as (c & s0 & K0 & K). injection K0 as <- <-. destruct (lstate_eqb (x_state (s_ctx s6)) S_INV) eqn:ST; [exfalso; apply K6; destruct (x_state (s_ctx s6)); discriminate || reflexivity|].
  apply b_inv in K. destruct K as ([] & s7 & _ & K). unfold ret in K. congruence.
Qed.
Lemma wait_now F n s : Jf s -> (0 < n)%nat -> wait F n s = Ok (if lstate_eqb (x_state (s_ctx s)) S_RUNNING then Some false else None, s).
Proof.
  intros H N. destruct n as [|n]; [lia|]. cbn [wait]. unfold bind, getc. destruct (going_of _ H) as [[K|K] _]; rewrite K; reflexivity.
Qed.
Lemma t_loop f : forall s, Jf s -> agf s (task_loop E f) (task_loop E' f).
Proof.
  induction f as [|f IH]; cbn [task_loop]; intros s H; apply a_getc; cbv beta; destruct (lstate_eqb (x_state (s_ctx s)) S_EXIT_TSK) eqn:X; try now apply a_ret.
  assert (RN : x_state (s_ctx s) = S_RUNNING) by (destruct (going_of _ H) as [[K|K] _]; auto; rewrite K in X; discriminate).
  assert (W : forall F, wait F max_wait_cycles s = Ok (Some false, s)) by (intros F; rewrite (wait_now F) by (auto; unfold max_wait_cycles; lia); rewrite RN; reflexivity).
  unfold agat. rewrite !(bind_ok _ _ _ _ _ (W _)). cbv beta iota. change (agf s (wait_timeout E false ;;; c1 <- getc ;; if lstate_eqb (x_state c1) S_RUNNING then n <- cycle E ;; match n with T_continue => task_loop E f | T_exit => ret Ended end else task_loop E f)
    (wait_timeout E' false ;;; c1 <- getc ;; if lstate_eqb (x_state c1) S_RUNNING then n <- cycle E' ;; match n with T_continue => task_loop E' f | T_exit => ret Ended end else task_loop E' f)).
  unfold wait_timeout. apply a_retk. apply a_getc. cbv beta. rewrite RN. cbn [lstate_eqb].
  apply a_bind; [now apply t_cycle|]. intros [|] s3 H3; [now apply IH|now apply a_ret].
Qed.
Lemma loop_goes_on f : forall s r s', firm = true -> Jf s -> task_loop E f s = Ok (r, s') -> r = Running.
Proof.
  induction f as [|f IH]; cbn [task_loop]; intros s r s' FF H K; apply b_inv in K; destruct K as (c & s0 & K0 & K); injection K0 as <- <-; rewrite (proj2 (going_of _ H) FF) in K; cbn [lstate_eqb] in K; [unfold ret in K; congruence|].
  apply b_inv in K. destruct K as (w & s1 & K1 & K). rewrite (wait_now E) in K1 by (auto; unfold max_wait_cycles; lia). rewrite (proj2 (going_of _ H) FF) in K1. cbn [lstate_eqb] in K1. injection K1 as <- <-.
  apply b_inv in K. destruct K as (u & s1 & K1 & K). cbn [wait_timeout] in K1. unfold ret in K1. injection K1 as <- <-. apply b_inv in K. destruct K as (c & s0 & K0 & K). injection K0 as <- <-. rewrite (proj2 (going_of _ H) FF) in K. cbn [lstate_eqb] in K.
  apply b_inv in K. destruct K as (n & s2 & K2 & K). pose proof (cycle_goes_on _ _ _ FF H K2) as ->. exact (IH s2 r s' FF (proj2 (t_cycle _ H) _ _ K2) K).
Qed.
Lemma t_task f s : Jf s -> ladder_task E f s = ladder_task E' f s
  /\ forall r s', ladder_task E f s = Ok (r, s') -> exists l, s_tr s' = l ++ tr0 /\ Forall (called c0) l /\ ~ In EvPanic l
       /\ (task_guard (s_ctx s) = Ok false -> going (s_ctx s') /\ (firm = true -> x_state (s_ctx s') = S_RUNNING /\ r = Running)).
Proof.
  intros H. destruct (task_guard (s_ctx s)) as [[|]| |] eqn:TG.
  - assert (T : forall F, ladder_task F f s = Ok (Returned, mk_st (set_x_state S_NULLFN (s_ctx s)) (s_tr s))) by (intros F; unfold ladder_task, bind at 1, getc, bind at 1, lift; rewrite TG; reflexivity).
    rewrite !T. split; auto. intros r s' K. injection K as <- <-. destruct H as [_ (l & L)]. exists l. cbn [s_tr]. split; [apply L|]. split; [apply L|]. split; [apply L|discriminate].
  - assert (G : agf s (r <- task_loop E f ;; match r with Ended => hook E h_end EvEnd ;;; ret Ended | _ => ret r end) (r <- task_loop E' f ;; match r with Ended => hook E' h_end EvEnd ;;; ret Ended | _ => ret r end)).
    { apply a_bind; [now apply t_loop|]. intros r s1 H1. destruct r; try now apply a_ret. apply a_bind; [apply (g_hook c0 E E' AL KS tr0 false firm FM); auto; discriminate|]. intros [] s2 H2. now apply a_ret. }
    assert (T : forall F, ladder_task F f s = (r <- task_loop F f ;; match r with Ended => hook F h_end EvEnd ;;; ret Ended | _ => ret r end) s) by (intros F; unfold ladder_task, bind at 1, getc, bind at 1, lift; rewrite TG; reflexivity).
    rewrite !T. destruct G as [G1 G2]. split; [exact G1|]. intros r s' K. pose proof K as K'. apply G2 in K. destruct (going_of _ K) as [GO RN]. destruct K as [_ (l & L)]. exists l. repeat split; try apply L; auto.
    apply b_inv in K'. destruct K' as (r1 & s1 & L1 & K'). apply loop_goes_on in L1; auto. subst r1. unfold ret in K'. congruence.
  - assert (T : forall F, ladder_task F f s = Bad u) by (intros F; unfold ladder_task, bind at 1, getc, bind at 1, lift; rewrite TG; reflexivity). rewrite !T. split; auto. discriminate.
  - assert (T : forall F, ladder_task F f s = NoFuel) by (intros F; unfold ladder_task, bind at 1, getc, bind at 1, lift; rewrite TG; reflexivity). rewrite !T. split; auto. discriminate.
Qed.
End Task.
