(** The task run on well-formed machines. *)
From Verif Require Export SafeScan Cycle.

Lemma typed_dec l z : typed_at l z \/ ~ typed_at l z.
Proof.
  assert (D : forall A B, {A} + {~ A} -> {B} + {~ B} -> (A /\ B) \/ ~ (A /\ B)) by (intros A B [?|?] [?|?]; tauto).
  unfold typed_at, fits. destruct l; try (left; exact I); try (destruct b); try (destruct k); try (left; exact I);
    apply D; auto using Z_le_dec, Z_lt_dec.
Qed.
(** Only typed numbers are stored. *)
Lemma typed_change c c' (P : loc -> Prop) : typed c -> changes_only c c' P -> (forall l z, P l -> holds c' l z -> typed_at l z) -> typed c'.
Proof.
  intros T CH H l z Z. destruct (typed_dec l z) as [|N]; auto. apply T. unfold holds in *. rewrite <- CH; auto.
Qed.
Lemma past_typed l h z : past l = Some h -> typed_at l z <-> typed_at h z.
Proof. destruct l; try discriminate; [destruct b|destruct k|destruct k]; try discriminate; intros [= <-]; reflexivity. Qed.
Lemma remembered_typed K c c' : remembered K c c' -> typed c -> typed c'.
Proof.
  intros [A B] T. eapply typed_change; eauto. intros h z (l & X & Y) Z. unfold holds in Z. rewrite (A l h) in Z by auto.
  apply (past_typed l h); auto.
Qed.
Lemma restored_typed (K : loc -> Prop) c c' : (forall l, K l -> past l <> None) -> restored K c c' -> typed c -> typed c'.
Proof.
  intros P [A B] T. eapply typed_change; eauto. intros l z X Z. destruct (past l) as [h|] eqn:Y; [|now apply P in X]. unfold holds in Z.
  rewrite (A l h) in Z by auto. apply (past_typed l h); auto.
Qed.
Lemma past_layout h : is_past h -> ~ is_layout h.
Proof. intros (l & P). destruct l; try discriminate; [destruct b|destruct k|destruct k]; try discriminate; injection P as <-; auto. Qed.
Lemma kept_outs c : modules_ok c -> outs_sized c.
Proof.
  intros [_ H]. right. intros m M. destruct (H m M) as (id & qd & qa & P & Q). exists id, qd, qa. split; auto.
  intros k. destruct (Q k) as [X|X]; [|auto]. destruct k; auto.
  - simpl. destruct (elem (x_out c) m) as [om|]; [|auto]. simpl. destruct (o_Q om); simpl; [right|auto]. eexists; split; [reflexivity|]. simpl in X. lia.
  - simpl. destruct (elem (x_out c) m) as [om|]; [|auto]. simpl. destruct (o_QW om); simpl; [right|auto]. eexists; split; [reflexivity|]. simpl in X. lia.
Qed.
Lemma kept_ins c : modules_ok c -> ins_sized c.
Proof.
  intros [H _]. right. intros m M. destruct (H m M) as (id & qd & qa & P & Q). exists id, qd, qa. split; auto.
  intros k. destruct (Q k) as [X|X]; [|auto]. destruct k; auto.
  - simpl. destruct (elem (x_in c) m) as [om|]; [|auto]. simpl. destruct (i_I om); simpl; [right|auto]. eexists; split; [reflexivity|]. simpl in X. lia.
  - simpl. destruct (elem (x_in c) m) as [om|]; [|auto]. simpl. destruct (i_IW om); simpl; [right|auto]. eexists; split; [reflexivity|]. simpl in X. lia.
Qed.

Section T.
Variables (U : ub -> Prop) (E : env) (W : event -> loc -> Prop) (c0 : ctx).
Hypothesis HB : behaved E W.
Hypothesis H0 : well_formed_ctx c0.
Hypothesis HT : tables_ok c0.
Hypothesis HX : exact_program c0 \/ forall u, arithmetic u -> U u.
Hypothesis HS : U UB_div \/ forall ev, ~ W ev LStats.

Let CB := be_callbacks E W HB.
Lemma HP : polite E (during_scan W).
Proof.
  constructor.
  - now apply cb_env.
  - intros l H. now apply (cb_during E W CB).
  - intros k ev c _. apply (be_typed E W HB).
  - apply (be_foreign E W HB).
Qed.
Definition cnt (s : st) : Z := si_count (x_si (s_ctx s)).
(** The layout and typing hold, and unless division by zero is tolerated the number of measured cycles is at most [k]. *)
Definition G (k : Z) (s : st) : Prop := L c0 s /\ (U UB_div \/ 0 <= cnt s <= k).
Lemma G_more k k' s : k <= k' -> G k s -> G k' s. Proof. intros K [A [B|B]]; split; auto. right. lia. Qed.
Lemma cnt_same s s' (P : loc -> Prop) : changes_only (s_ctx s) (s_ctx s') P -> ~ P LStats -> cnt s' = cnt s.
Proof. intros C N. specialize (C LStats N). simpl in C. unfold cnt. congruence. Qed.
Lemma G_step k s s' (P : loc -> Prop) : G k s -> changes_only (s_ctx s) (s_ctx s') P -> (forall l, P l -> ~ is_layout l) ->
  (U UB_div \/ ~ P LStats) -> typed (s_ctx s') -> G k s'.
Proof.
  intros [A B] C N D T. split; [eapply L_step; eauto|]. destruct B as [B|B]; [auto|]. destruct D as [D|D]; [auto|]. right.
  rewrite (cnt_same _ _ _ C D). auto.
Qed.
Lemma G_typed k s : G k s -> typed (s_ctx s). Proof. intros [[_ T] _]. exact T. Qed.
Lemma t_emit k ev (Q : unit -> st -> Prop) s : (forall s', G k s' -> Q tt s') -> G k s -> wp U (emit E ev) Q s.
Proof.
  intros H F. apply H. apply (G_step k s _ (W ev)); auto.
  - simpl. apply (cb_act E W CB).
  - apply (cb_layout E W CB).
  - destruct HS as [X|X]; auto.
  - simpl. apply (be_typed E W HB). eapply G_typed; eauto.
Qed.
Lemma t_hook k p ev (Q : unit -> st -> Prop) s : (forall s', G k s' -> Q tt s') -> G k s -> wp U (hook E p ev) Q s.
Proof. intros H F. unfold hook. apply wp_bind, wp_getc. destruct (p _); [now apply (t_emit k)|]. apply wp_ret; auto. Qed.
Lemma t_panic k (Q : unit -> st -> Prop) s : (forall s', G k s' -> Q tt s') -> G k s -> wp U (panic E) Q s.
Proof. intros H F. unfold panic. apply wp_bind, wp_getc. destruct (h_panic _); [now apply (t_emit k)|]. apply wp_ret; auto. Qed.
Lemma t_set_state k x (Q : unit -> st -> Prop) s : (forall s', G k s' -> Q tt s') -> G k s -> wp U (set_state x) Q s.
Proof. intros H [F1 F2]. apply wp_modc, H. split; [now apply L_state|]. destruct F2; auto. Qed.
Lemma t_si k si (Q : unit -> st -> Prop) s : (forall s', G k s' -> Q tt s') -> L c0 s -> (U UB_div \/ 0 <= si_count (si (s_ctx s)) <= k) ->
  wp U (modc (fun c => set_x_si (si c) c)) Q s.
Proof.
  intros H F B. apply wp_modc, H. split; [|exact B]. eapply L_step; [exact F| | |].
  - instantiate (1 := eq LStats). intros l K. destruct l; try reflexivity. now contradiction K.
  - now intros l <-.
  - intros l z Z. apply F. unfold holds in *. rewrite <- Z. destruct l; try reflexivity; discriminate.
Qed.
Lemma t_millis k (Q : Z -> st -> Prop) s : (forall z s', G k s' -> Q z s') -> G k s -> wp U (millis E) Q s.
Proof. intros H F. unfold millis. apply wp_bind. apply (t_emit k); auto. intros s' F'. apply wp_ret. auto. Qed.

Lemma G_wf k s : G k s -> well_formed_ctx (s_ctx s). Proof. intros [F _]. exact (W_wf c0 s H0 F). Qed.
Lemma G_io k s : G k s -> x_io (s_ctx s) = x_io c0. Proof. intros [F _]. exact (W_io c0 s F). Qed.
Lemma G_outs k s : G k s -> outs_sized (s_ctx s). Proof. intros F. apply kept_outs, wc_modules. eapply G_wf; eauto. Qed.
Lemma G_ins k s : G k s -> ins_sized (s_ctx s). Proof. intros F. apply kept_ins, wc_modules. eapply G_wf; eauto. Qed.
Lemma G_sized k s : G k s -> sized (s_ctx s). Proof. intros F. apply wc_sized. eapply G_wf; eauto. Qed.
Lemma t_upd k f (Q : unit -> st -> Prop) s : (exists c' P, f (s_ctx s) = Ok c' /\ changes_only (s_ctx s) c' P /\ (forall l, P l -> ~ is_layout l) /\ ~ P LStats
    /\ typed c') -> (forall s', G k s' -> Q tt s') -> G k s -> wp U (updc f) Q s.
Proof.
  intros (c' & P & A & B & N & D & T) H F. apply wp_updc. rewrite A. simpl. apply H. eapply (G_step k s _ P); eauto.
Qed.
Lemma t_remember k f (Q : unit -> st -> Prop) s : (exists c' K, f (s_ctx s) = Ok c' /\ remembered K (s_ctx s) c') ->
  (forall s', G k s' -> Q tt s') -> G k s -> wp U (updc f) Q s.
Proof.
  intros (c' & K & A & B) H F. eapply t_upd; eauto. exists c', is_past. split; auto. split; [eapply remembered_past; eauto|].
  split; [apply past_layout|]. split; [intros X; apply past_not_stats in X; tauto|]. eapply remembered_typed; eauto. eapply G_typed; eauto.
Qed.
Lemma t_restore k f (K : ctx -> loc -> Prop) (Q : unit -> st -> Prop) s : (exists c', f (s_ctx s) = Ok c' /\ restored (K (s_ctx s)) (s_ctx s) c') ->
  (forall c l, K c l -> past l <> None) ->
  (forall s', G k s' -> Q tt s') -> G k s -> wp U (updc f) Q s.
Proof.
  intros (c' & A & B) P H F. eapply t_upd; eauto. exists c', (K (s_ctx s)). split; auto. split; [apply B|].
  split; [|split].
  - intros l X. apply P in X. destruct l; simpl in *; try congruence; auto.
  - intros X. apply P in X. now simpl in X.
  - eapply restored_typed; eauto. eapply G_typed; eauto.
Qed.
Lemma flag_past c l : flag_place c l -> past l <> None.
Proof. intros (b & i & B & _ & ->). simpl in B. destruct B as [<-|[<-|[<-|[<-|[<-|[]]]]]]; discriminate. Qed.
Lemma output_past c l : output_place c l /\ with_digital c l -> past l <> None.
Proof. intros [(m & id & qd & qa & i & _ & _ & [(-> & _)|(-> & _)]) _]; discriminate. Qed.
Lemma zero_typed l : typed_at l 0.
Proof. unfold typed_at, fits. destruct l; try exact I; try (destruct b); try (destruct k); try exact I; lia. Qed.
Lemma t_reset k (Q : unit -> st -> Prop) s : (forall s', G k s' -> Q tt s') -> G k s -> wp U (updc reset_registers) Q s.
Proof.
  intros H F. destruct (reset_registers_ok _ (G_sized _ _ F)) as (c' & A & B & C). eapply t_upd; eauto. exists c', (reg_place (s_ctx s)).
  split; auto. split; auto. split; [|split].
  - intros l [(b & i & _ & _ & ->)|(i & _ & ->)]; auto.
  - intros [(b & i & _ & _ & X)|(i & _ & X)]; discriminate.
  - eapply typed_change; [eapply G_typed; eauto|exact C|]. intros l z X Z. unfold holds in Z. rewrite B in Z by auto. injection Z as <-. apply zero_typed.
Qed.

(** The functions of the modules. *)
Lemma G_rd k s : G k s -> covers (io_rq (x_io (s_ctx s))) (io_rd (x_io (s_ctx s))) /\ covers (io_wq (x_io (s_ctx s))) (io_wr (x_io (s_ctx s))).
Proof. intros F. rewrite (G_io _ _ F). destruct HT as (io & A & B). simpl in A. injection A as <-. exact B. Qed.
Lemma cover_get n p i : covers n p -> p <> None -> (i < n)%nat -> exists b, pget p (Z.of_nat i) = Ok b.
Proof.
  intros C N L. destruct p as [t|]; [|congruence]. specialize (C t eq_refl). destruct (nth_error t i) as [b|] eqn:X.
  - exists b. now apply pget_nat.
  - apply nth_error_None in X. lia.
Qed.
Lemma t_read f : forall k n (Q : unit -> st -> Prop) s, (n + f = io_rq (x_io c0))%nat -> io_rd (x_io c0) <> None -> (forall s', G k s' -> Q tt s') -> G k s -> wp U (read_loop E f n) Q s.
Proof.
  induction f as [|f IH]; intros k n Q s NF R H F; simpl; apply wp_bind, wp_getc; rewrite (G_io _ _ F).
  - destruct (Nat.ltb_spec n (io_rq (x_io c0))); [lia|]. apply wp_ret. auto.
  - destruct (Nat.ltb_spec n (io_rq (x_io c0))) as [L0|]; [|lia]. destruct (G_rd _ _ F) as [C _]. rewrite (G_io _ _ F) in C.
    destruct (cover_get _ _ _ C R L0) as (b & B). apply wp_bind, wp_lift. rewrite B. simpl. destruct b.
    + apply wp_bind. apply (t_emit k); auto. intros s' F'. apply (IH k); auto. lia.
    + apply wp_bind. apply (t_set_state k); auto. intros s' F'. now apply (t_panic k).
Qed.
Lemma t_reads k (Q : unit -> st -> Prop) s : (forall s', G k s' -> Q tt s') -> G k s -> wp U (read_inputs E) Q s.
Proof.
  intros H F. unfold read_inputs. apply wp_bind, wp_getc. rewrite (G_io _ _ F). destruct (is_null (io_rd (x_io c0))) eqn:N; [apply wp_ret; auto|].
  apply (t_read _ k); auto. intros X. rewrite X in N. discriminate.
Qed.
Lemma t_write f : forall k n (Q : unit -> st -> Prop) s, (n + f = io_wq (x_io c0))%nat -> io_wr (x_io c0) <> None -> (forall s', G k s' -> Q tt s') -> G k s -> wp U (write_loop E f n) Q s.
Proof.
  induction f as [|f IH]; intros k n Q s NF R H F; simpl; apply wp_bind, wp_getc; rewrite (G_io _ _ F).
  - destruct (Nat.ltb_spec n (io_wq (x_io c0))); [lia|]. apply wp_ret. auto.
  - destruct (Nat.ltb_spec n (io_wq (x_io c0))) as [L0|]; [|lia]. destruct (G_rd _ _ F) as [_ C]. rewrite (G_io _ _ F) in C.
    destruct (cover_get _ _ _ C R L0) as (b & B). apply wp_bind, wp_lift. rewrite B. simpl. destruct b.
    + apply wp_bind. apply (t_emit k); auto. intros s' F'. apply (IH k); auto. lia.
    + apply wp_bind. apply (t_set_state k); auto. intros s' F'. now apply (t_panic k).
Qed.
Lemma t_writes k (Q : unit -> st -> Prop) s : (forall s', G k s' -> Q tt s') -> G k s -> wp U (write_outputs E) Q s.
Proof.
  intros H F. unfold write_outputs. apply wp_bind, wp_getc. rewrite (G_io _ _ F). destruct (is_null (io_wr (x_io c0))) eqn:N; [apply wp_ret; auto|].
  apply (t_write _ k); auto. intros X. rewrite X in N. discriminate.
Qed.

(** Measuring. *)
Lemma t_time k (Q : unit -> st -> Prop) s : (U UB_div \/ k + 1 < 2 ^ 32) -> (forall s', G (k + 1) s' -> Q tt s') -> G k s -> wp U (scan_time E) Q s.
Proof.
  intros KK H F. unfold scan_time. apply wp_bind, wp_getc.
  assert (P : forall t s1, G k s1 -> wpr U (scan_stats t (x_si (s_ctx s1))) (fun si => U UB_div \/ 0 <= si_count si <= k + 1)).
  { intros t s1 [F1 F2]. unfold scan_stats. cbv zeta. destruct (Z.eqb_spec (u32 (si_count (x_si (s_ctx s1)) + 1)) 0) as [Z0|Z0].
    - simpl. destruct F2 as [F2|F2]; auto. destruct KK as [KK|KK]; auto. exfalso. unfold u32 in Z0. unfold cnt in F2. rewrite Z.mod_small in Z0; lia.
    - cbn [wpr si_count]. destruct F2 as [F2|F2]; auto. destruct KK as [KK|KK]; auto. right. unfold u32, cnt in *. rewrite Z.mod_small; lia. }
  destruct (h_millis _).
  - apply wp_bind. apply (t_millis k); auto. intros t s1 F1. apply wp_bind, wp_getc. apply wp_bind, wp_lift.
    eapply wpr_mono; [|apply (P t s1 F1)]. intros si B. apply wp_bind. apply (t_si (k + 1) (fun _ => si)); [|apply F1|exact B].
    intros s2 F2. destruct (_ && _); [|apply wp_ret; auto]. apply wp_bind. apply (t_set_state (k + 1)); auto. intros s3 F3. now apply (t_panic (k + 1)).
  - apply (G_more k (k + 1)) in F; [|lia]. apply wp_bind. apply (t_set_state (k + 1)); auto. intros s3 F3. now apply (t_panic (k + 1)).
Qed.

(** The parts of a cycle. *)
Lemma t_clear k (Q : unit -> st -> Prop) s : (forall s', G k s' -> Q tt s') -> G k s -> wp U (updc (upd_out out_clear)) Q s.
Proof.
  intros H F. destruct (upd_out_ok out_clear g_clear _ (G_outs _ _ F) out_clear_ok) as (c' & A & B & C & D). eapply t_upd; eauto.
  exists c', (fun l => exists m k i, l = LOut m k i). split; auto. split; [|split; [|split]].
  - intros l N. apply C. intros m k0 i ->. apply N. eauto.
  - intros l (m & k0 & i & ->). auto.
  - intros (m & k0 & i & X). discriminate.
  - pose proof (G_typed _ _ F) as T. intros l z Z.
    assert (OL : (forall m k i, l <> LOut m k i) \/ exists m k i, l = LOut m k i) by (destruct l; eauto; left; discriminate).
    destruct OL as [OL|(m & k0 & i & ->)]; [apply T; unfold holds in *; now rewrite <- C|].
    destruct (Nat.lt_ge_cases m (io_wq (x_io (s_ctx s)))) as [M|M]; [|apply T; unfold holds in *; now rewrite <- D].
    destruct (proj2 (wc_modules _ (G_wf _ _ F)) m M) as (id & qd & qa & ME & _). simpl in ME. destruct (elem (x_out (s_ctx s)) m) as [om|] eqn:HM; [|discriminate].
    unfold holds in Z. rewrite (B m om k0 i M HM) in Z. unfold g_clear in Z. destruct (_ && _).
    + simpl in Z. injection Z as <-. apply zero_typed.
    + apply T. unfold holds. simpl. rewrite HM. exact Z.
Qed.
Lemma t_save k (Q : unit -> st -> Prop) s : (forall s', G k s' -> Q tt s') -> G k s -> wp U (updc save_previous) Q s.
Proof. intros H F. apply (t_remember k); auto. destruct (save_previous_ok _ (G_sized _ _ F) (G_outs _ _ F)) as (c' & A & B). eauto. Qed.
Lemma t_fault k (Q : unit -> st -> Prop) s : (U UB_div \/ k + 1 < 2 ^ 32) -> (forall s', G (k + 1) s' -> Q tt s') -> G k s -> wp U (fault_path E) Q s.
Proof.
  intros KK H F. unfold fault_path. apply wp_bind. apply (t_set_state k); auto. clear s F. intros s F.
  apply wp_bind. apply (t_restore k _ (fun c l => output_place c l /\ with_digital c l)); auto; [apply revert_out_ok; eapply G_outs; eauto|apply output_past|]. clear s F. intros s F.
  apply wp_bind. apply (t_restore k _ flag_place); auto; [apply revert_memory_ok; eapply G_sized; eauto|apply flag_past|]. clear s F. intros s F.
  apply wp_bind. apply (t_reset k); auto. clear s F. intros s F.
  apply wp_bind. apply (t_save k); auto. clear s F. intros s F.
  apply wp_bind, wp_getc. apply wp_bind. assert (P : wp U (if x_wof (s_ctx s) then ret tt else updc (upd_out out_clear)) (fun _ s' => G k s') s).
  { destruct (x_wof _); [now apply wp_ret|now apply (t_clear k)]. }
  eapply wp_mono; [|exact P]. clear s F P. intros [] s F.
  apply wp_bind. apply (t_writes k); auto. clear s F. intros s F.
  apply wp_bind. apply (t_time k); auto. clear s F. intros s F. now apply (t_hook (k + 1)).
Qed.
Lemma t_padding k (Q : unit -> st -> Prop) s : (forall s', G k s' -> Q tt s') -> G k s -> wp U (padding E) Q s.
Proof. intros H F. unfold padding. apply wp_bind, wp_getc. cbv zeta. destruct (_ && _); [now apply (t_emit k)|]. apply wp_ret. auto. Qed.
Lemma t_normal k (Q : unit -> st -> Prop) s : (U UB_div \/ k + 1 < 2 ^ 32) -> (forall s', G (k + 1) s' -> Q tt s') -> G k s -> wp U (normal_path E) Q s.
Proof.
  intros KK H F. unfold normal_path. apply wp_bind. apply (t_save k); auto. clear s F. intros s F.
  apply wp_bind. apply (t_writes k); auto. clear s F. intros s F.
  apply wp_bind. apply (t_time k); auto. clear s F. intros s F.
  apply wp_bind. apply (t_padding (k + 1)); auto. clear s F. intros s F. now apply (t_hook (k + 1)).
Qed.
Lemma names_not_stats c i n r col : ~ names c i n r col LStats.
Proof.
  intros [(j & v & _ & _ & T)|[(_ & v & _ & _ & T)|[(_ & v & _ & _ & T)|(_ & n' & r' & c' & a & b & A & X)]]].
  - apply target_place in T. contradiction.
  - simpl in T. repeat destruct T as [T|T]; try discriminate; contradiction.
  - simpl in T. repeat destruct T as [T|T]; try discriminate; contradiction.
  - discriminate.
Qed.
Lemma scan_stats_kept c l : scan_writes c l -> l <> LStats.
Proof.
  intros [H|[H|[H|H]]] ->.
  - simpl in H. destruct H as [H|[H|[H|[H|[]]]]]; discriminate.
  - decompose [ex and] H. discriminate.
  - destruct H as (n & r & col & i & _ & H). apply names_not_stats in H. auto.
  - destruct H as (k & js & j & _ & _ & _ & _ & _ & H). discriminate.
Qed.
Lemma t_scan k (Q : unit -> st -> Prop) s : (forall s', G k s' -> Q tt s') -> G k s -> wp U (ladder_scan E) Q s.
Proof.
  intros H F. pose proof F as [F1 F2].
  pose proof (l_scan U E (during_scan W) c0 HP H0 HX (fun _ s' => L c0 s') s (be_time E W HB) F1 (fun _ X => X)) as P1.
  pose proof (scan_frame E (during_scan W) s (po_writes _ _ HP) (po_layout _ _ HP) (proj2 (wc_nets _ (G_wf _ _ F)))) as P2.
  unfold wp, wpr in *. destruct (ladder_scan E s) as [[[] s']| |] eqn:R; auto. apply H. split; auto. destruct F2 as [F2|F2]; auto. destruct HS as [X|X]; auto. right.
  erewrite cnt_same; [exact F2|exact P2|]. intros [Y|(ev & _ & Y)]; [now apply scan_stats_kept in Y|now apply X in Y].
Qed.
Lemma t_guard k n b (Q : bool -> st -> Prop) s : (forall x s', G k s' -> Q x s') -> G k s -> wp U (null_guard E n b) Q s.
Proof.
  intros H F. unfold null_guard. destruct (_ && _); [|apply wp_ret; auto]. apply wp_bind. apply (t_set_state k); auto. intros s1 F1.
  apply wp_bind. apply (t_panic k); auto. intros s2 F2. apply wp_ret. auto.
Qed.
Lemma t_cycle k (Q : tnext -> st -> Prop) s : (U UB_div \/ k + 1 < 2 ^ 32) -> (forall x s', G (k + 1) s' -> Q x s') -> G k s -> wp U (cycle E) Q s.
Proof.
  intros KK H F. unfold cycle. apply wp_bind, wp_getc. apply wp_bind.
  assert (P : wp U (if h_millis (x_h (s_ctx s)) then t <- millis E ;; modc (fun c => set_x_si (set_si_start t (x_si c)) c)
   else modc (fun c => set_x_si (set_si_start 0 (x_si c)) c) ;;; set_state S_ERROR ;;; panic E) (fun _ s' => G k s') s).
  { destruct (h_millis _).
    - apply wp_bind. apply (t_millis k); auto. intros t s1 F1. apply (t_si k (fun c => set_si_start t (x_si c))); auto; apply F1.
    - apply wp_bind. apply (t_si k (fun c => set_si_start 0 (x_si c))); [|apply F|apply F]. intros s1 F1. apply wp_bind. apply (t_set_state k); auto. intros s2 F2. now apply (t_panic k). }
  eapply wp_mono; [|exact P]. clear s F P. intros [] s F.
  assert (H' : forall x s', G k s' -> Q x s') by (intros x s' X; apply H; eapply G_more; [|exact X]; lia).
  apply wp_bind. apply (t_hook k); auto. clear s F. intros s F. apply wp_bind, wp_getc. apply wp_bind. apply (t_guard k); auto. clear s F. intros g s F.
  destruct g; [apply wp_ret; auto|]. apply wp_bind. apply (t_remember k); auto; [destruct (hist_in_ok _ (G_ins _ _ F)) as (c' & A & B); eauto|]. clear s F. intros s F.
  apply wp_bind. apply (t_reads k); auto. clear s F. intros s F. apply wp_bind, wp_getc. apply wp_bind. apply (t_guard k); auto. clear s F. intros g s F.
  destruct g; [apply wp_ret; auto|]. apply wp_bind. apply (t_remember k); auto; [destruct (hist_out_ok _ (G_outs _ _ F)) as (c' & A & B); eauto|]. clear s F. intros s F.
  apply wp_bind. apply (t_scan k); auto. clear s F. intros s F. apply wp_bind, wp_getc. destruct (lstate_eqb _ _).
  - apply wp_bind. apply (t_fault k); auto. clear s F. intros s F. apply wp_ret. auto.
  - apply wp_bind. apply (t_normal k); auto. clear s F. intros s F. apply wp_ret. auto.
Qed.

(** The loop. *)
Lemma t_wait n : forall k (Q : option bool -> st -> Prop) s, (forall x s', G k s' -> Q x s') -> G k s -> wp U (wait E n) Q s.
Proof.
  induction n as [|n IH]; intros k Q s H F; simpl; apply wp_bind, wp_getc; [apply wp_ret; auto|]. destruct (lstate_eqb _ _); [apply wp_ret; auto|].
  destruct (lstate_eqb _ _); [apply wp_ret; auto|]. apply wp_bind. unfold wait_delay. apply wp_bind, wp_getc. destruct (h_delay _).
  - apply (t_emit k); auto. intros s' F'. apply (IH k); auto.
  - apply wp_bind. apply (t_set_state k); auto. intros s1 F1. apply (t_panic k); auto. intros s2 F2. apply (IH k); auto.
Qed.
Lemma t_timeout k b (Q : unit -> st -> Prop) s : (forall s', G k s' -> Q tt s') -> G k s -> wp U (wait_timeout E b) Q s.
Proof.
  intros H F. unfold wait_timeout. destruct b; [|apply wp_ret; auto]. apply wp_bind. apply (t_set_state k); auto. intros s1 F1.
  apply wp_bind. apply (t_panic k); auto. intros s2 F2. now apply (t_set_state k).
Qed.
Lemma t_loop f : forall k (Q : tend -> st -> Prop) s, (U UB_div \/ k + Z.of_nat f < 2 ^ 32) -> (forall x s', G (k + Z.of_nat f) s' -> Q x s') -> G k s -> wp U (task_loop E f) Q s.
Proof.
  induction f as [|f IH]; intros k Q s KK H F.
  - simpl. apply wp_bind, wp_getc. rewrite Z.add_0_r in H. destruct (lstate_eqb _ _); apply wp_ret; auto.
  - assert (H' : forall x s', G k s' -> Q x s') by (intros x s' X; apply H; eapply G_more; [|exact X]; lia).
    assert (H1 : forall x s', G (k + Z.of_nat f) s' -> Q x s') by (intros x s' X; apply H; eapply G_more; [|exact X]; lia).
    assert (H2 : forall x s', G (k + 1) s' -> Q x s') by (intros x s' X; apply H; eapply G_more; [|exact X]; lia).
    cbn [task_loop]. apply wp_bind, wp_getc. destruct (lstate_eqb _ _); [apply wp_ret; auto|]. apply wp_bind. apply (t_wait _ k); auto. clear s F. intros w s F.
    destruct w as [b|]; [|apply wp_ret; auto]. apply wp_bind. apply (t_timeout k); auto. clear s F. intros s F. apply wp_bind, wp_getc.
    assert (K1 : U UB_div \/ k + 1 < 2 ^ 32) by (destruct KK as [KK|KK]; auto; right; lia).
    assert (K2 : U UB_div \/ k + Z.of_nat f < 2 ^ 32) by (destruct KK as [KK|KK]; auto; right; lia).
    destruct (lstate_eqb _ _).
    + apply wp_bind. apply (t_cycle k); auto. clear s F. intros x s F. destruct x; [|apply wp_ret; auto]. apply (IH (k + 1)); auto.
      * destruct KK as [KK|KK]; auto. right. lia.
      * intros x s' X. apply H. eapply G_more; [|exact X]. lia.
    + apply (IH k); auto.
Qed.
Lemma io_null_ok {A} n fns (m : option A) : covers n fns -> exists b, io_null n fns m = Ok b.
Proof.
  intros C. unfold io_null. destruct n as [|n]; [eauto|]. destruct (is_null fns || is_null m); [eauto|]. unfold slot0_null. destruct fns as [t|] eqn:X; [|eauto].
  destruct (cover_get (S n) (Some t) 0 C) as (b & B); [discriminate|lia|]. change 0 with (Z.of_nat 0). rewrite B. simpl. eauto.
Qed.
Lemma guard_ok c : covers (io_rq (x_io c)) (io_rd (x_io c)) -> covers (io_wq (x_io c)) (io_wr (x_io c)) -> exists b, task_guard c = Ok b.
Proof.
  intros A B. unfold task_guard. cbv zeta. destruct (_ || _); [eauto|]. destruct (io_null_ok _ _ (x_in c) A) as (a & ->). simpl. destruct a; [eauto|].
  destruct (io_null_ok _ _ (x_out c) B) as (b & ->). simpl. destruct b; eauto.
Qed.
Lemma t_task f k (Q : tend -> st -> Prop) s : (U UB_div \/ k + Z.of_nat f < 2 ^ 32) -> (forall x s', G (k + Z.of_nat f) s' -> Q x s') -> G k s -> wp U (ladder_task E f) Q s.
Proof.
  intros KK H F. unfold ladder_task. apply wp_bind, wp_getc. destruct (G_rd _ _ F) as [A B]. destruct (guard_ok _ A B) as (b & R).
  apply wp_bind, wp_lift. rewrite R. simpl. destruct b.
  - apply wp_bind. apply (t_set_state k); auto. intros s1 F1. apply wp_ret. apply H. eapply G_more; [|exact F1]. lia.
  - apply wp_bind. apply (t_loop f k); auto. intros x s1 F1. destruct x; try (apply wp_ret; auto; fail). apply wp_bind.
    apply (t_hook (k + Z.of_nat f)); auto. intros s2 F2. apply wp_ret. auto.
Qed.
End T.
