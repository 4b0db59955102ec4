(** timers (C09 to C12). *)
From Verif Require Export Demo Timers.

Lemma since_exists ph k : ph k = true -> exists j, since ph j k.
Proof.
  induction k as [|k IH]; intros H.
  - exists 0%nat. split; [lia|]. split; auto. intros m Hm. assert (m = 0%nat) by lia. subst; auto.
  - destruct (ph k) eqn:Hk.
    + destruct (IH eq_refl) as (j & H1 & H2 & H3). exists j. split; [lia|]. split; auto. intros m Hm.
      destruct (Nat.eq_dec m (S k)) as [-> |]; auto. apply H2; lia.
    + exists (S k). split; [lia|]. split; [intros m Hm; assert (m = S k) by lia; subst; auto|].
      right. simpl. rewrite Nat.sub_0_r. auto.
Qed.
Section B.
Context (E : env) (v1 : value) (f : Z) (pre : nat -> st).
Notation p := (v_raw v1).
(** Values before each execution. *)
Fixpoint before (ph : nat -> bool) (V : tv) (k : nat) : tv :=
  match k with
  | O => V
  | S k => tstep (reading E (pre k)) f p (ph k) (before ph V k)
  end.
(** *** The values *)
Lemma before_off ph V k : ph k = false -> exists ts, before ph V (S k) = mk_tv false false ts 0.
Proof. intros H. simpl. unfold tstep. rewrite H. eauto. Qed.
Lemma before_idle ph ts acc j : (j = 0%nat \/ ph (j - 1)%nat = false) -> exists ts' acc', before ph (mk_tv false false ts acc) j = mk_tv false false ts' acc'.
Proof.
  intros [-> |H]; [simpl; eauto|]. destruct j as [|j]; [simpl; eauto|]. simpl in H. rewrite Nat.sub_0_r in H.
  destruct (before_off ph (mk_tv false false ts acc) j H) as (ts' & ->). eauto.
Qed.
Lemma u64_elapsed a b : u64 (b - a) = elapsed a b. Proof. reflexivity. Qed.
Lemma before_on ph ts acc j k : since ph j k -> let W := before ph (mk_tv false false ts acc) (S k) in
  (expired E pre (u32 (p * f)) j k /\ W = mk_tv false true (stamp E pre j) (u32 p))
  \/ (~ expired E pre (u32 (p * f)) j k
      /\ W = mk_tv true false (stamp E pre j) (u16 (elapsed (stamp E pre j) (shown E pre j k) / f))).
Proof.
  intros (Hjk & Hon & Hj). destruct (before_idle ph ts acc j Hj) as (ts' & acc' & Hb).
  assert (HJ : let W := before ph (mk_tv false false ts acc) (S j) in
   (expired E pre (u32 (p * f)) j j /\ W = mk_tv false true (stamp E pre j) (u32 p))
  \/ (~ expired E pre (u32 (p * f)) j j
      /\ W = mk_tv true false (stamp E pre j) (u16 (elapsed (stamp E pre j) (shown E pre j j) / f)))).
  { cbn [before]. cbv zeta. rewrite Hb. unfold tstep. rewrite (Hon j) by lia. unfold begins, run_fn. cbn [tv_tr tv_td tv_ts tv_acc negb andb].
    rewrite !u64_elapsed. unfold shown, expired, compared, stamp. rewrite Nat.eqb_refl.
    destruct (u32 (p * f) <=? elapsed (reading E (pre j) 0) (reading E (pre j) 2)) eqn:Hd; [left|right]; split; auto.
    - exists j. split; [lia|]. rewrite Nat.eqb_refl. cbv iota. apply Z.leb_le; exact Hd.
    - intros (m & Hm & H). assert (m = j) by lia. subst. rewrite Nat.eqb_refl in H. cbv iota in H. apply Z.leb_le in H. congruence. }
  clear Hb. induction k as [|k IH]; [assert (j = 0%nat) by lia; subst; auto|].
  destruct (Nat.eq_dec j (S k)) as [-> |Hne]; [auto|].
  assert (Hk : (j <= k)%nat) by lia. specialize (IH Hk ltac:(intros; apply Hon; lia)).
  remember (before ph (mk_tv false false ts acc) (S k)) as X eqn:HX. cbn [before]. cbv zeta in *.
  change (tstep (reading E (pre k)) f p (ph k) (before ph (mk_tv false false ts acc) k))
    with (before ph (mk_tv false false ts acc) (S k)). rewrite <- HX.
  assert (HE : forall D, expired E pre D j (S k) <-> expired E pre D j k \/ D <= elapsed (stamp E pre j) (compared E pre j (S k))).
  { intros D; split.
    - intros (m & Hm & H). destruct (Nat.eq_dec m (S k)) as [-> |]; [right; auto|left; exists m; split; auto; lia].
    - intros [(m & Hm & H)|H]; [exists m; split; auto; lia|exists (S k); split; auto; lia]. }
  unfold tstep. rewrite (Hon (S k)) by lia. destruct IH as [(H1 & ->)|(H1 & ->)]; unfold begins, run_fn; cbn [tv_tr tv_td tv_ts tv_acc negb andb].
  - left. split; auto. apply HE; auto.
  - rewrite !u64_elapsed. unfold shown. replace (S k =? j)%nat with false by (symmetry; apply Nat.eqb_neq; lia).
    assert (Hcmp : compared E pre j (S k) = reading E (pre (S k)) 1).
    { unfold compared. replace (S k =? j)%nat with false by (symmetry; apply Nat.eqb_neq; lia). auto. }
    rewrite <- Hcmp. destruct (_ <=? _) eqn:Hd; [left|right]; split; auto; rewrite HE; [right; lia|intros [?|?]; [tauto|lia]].
Qed.
End B.

(** *** From executions to timer values *)
Section H.
Context (E : env) (n r col i : nat) (v1 : value) (f : Z) (pre post : nat -> st) (on : nat -> bool) (K : nat).
Hypothesis Hq : quiet_clock E.
Hypothesis Hf : basetime (v_type v1) = Some f.
Notation p := (v_raw v1).

Lemma now_reading s : forall j, now E (s_tr s) j = reading E s j. Proof. reflexivity. Qed.
Lemma cell_has c a b d : cell_exists c a b d -> has_cell c a b d.
Proof. intros (x & y & z & H). simpl in H. destruct (cell_of c a b d) eqn:Hc; [|discriminate]. eexists; eauto. Qed.
Lemma tinv_start s V : shows (s_ctx s) i V -> tinv E (s_ctx s) (s_tr s) n r col i 0 V s.
Proof. intros H. split; [|split]; auto. intros l _; auto. Qed.
Lemma row1 : (r + 1 = S r)%nat. Proof. lia. Qed.

Lemma ton_exec s V l : timer_cell (s_ctx s) n r col i v1 -> shows (s_ctx s) i V -> left_powered (s_ctx s) n r col l ->
  let V' := tstep (reading E s) f p l V in
  exists s', outcome E I_TON r col s = Some (Ok (E_OK, s')) /\ tinv E (s_ctx s) (s_tr s) n r col i (tcount l V) V' s'
  /\ outputs (s_ctx s') n r col (tv_td V') (tv_tr V').
Proof.
  intros (He & Hc & (v0 & Hv0 & Hi) & Hv1) HV Hl V'. rewrite <- row1 in Hc.
  destruct (ton_ok E (s_ctx s) (s_tr s) n r col i v0 v1 f Hq He (cell_has _ _ _ _ Hc) Hv0 Hi Hv1 Hf V s l (tinv_start _ _ HV) Hl)
    as (s' & H1 & H2 & H3 & H4).
  exists s'. split; [unfold outcome; simpl; rewrite H1; auto|]. split; auto. split; auto. rewrite <- row1; auto.
Qed.
Lemma tof_exec s V l : timer_cell (s_ctx s) n r col i v1 -> shows (s_ctx s) i V -> left_powered (s_ctx s) n r col l ->
  let V' := tstep (reading E s) f p (negb l) V in
  exists s', outcome E I_TOF r col s = Some (Ok (E_OK, s')) /\ tinv E (s_ctx s) (s_tr s) n r col i (tcount (negb l) V) V' s'
  /\ outputs (s_ctx s') n r col (l || tv_tr V') (tv_tr V').
Proof.
  intros (He & Hc & (v0 & Hv0 & Hi) & Hv1) HV Hl V'. rewrite <- row1 in Hc.
  destruct (tof_ok E (s_ctx s) (s_tr s) n r col i v0 v1 f Hq He (cell_has _ _ _ _ Hc) Hv0 Hi Hv1 Hf V s l (tinv_start _ _ HV) Hl)
    as (s' & H1 & H2 & H3 & H4).
  exists s'. split; [unfold outcome; simpl; rewrite H1; auto|]. split; auto. split; auto. rewrite <- row1; auto.
Qed.
Lemma shows_same c c' V : same_timer i c c' -> shows c i V -> shows c' i V.
Proof.
  intros H (A & B & C & D). unfold shows, holds in *. rewrite !H by (simpl; auto 6). auto.
Qed.
Lemma idle_shows c : timer_idle c i -> exists ts acc, shows c i (mk_tv false false ts acc).
Proof. intros ((a & b & ts & acc & _ & _ & H1 & H2) & H3 & H4). exists ts, acc. repeat split; auto. Qed.
Lemma exists_shows c : timer_exists c i -> exists V, shows c i V.
Proof.
  intros (a & b & ts & acc & (A & A') & (B & B') & H1 & H2). exists (mk_tv (a =? 1) (b =? 1) ts acc).
  unfold shows; cbn [tv_tr tv_td tv_ts tv_acc].
  replace (b2z (a =? 1)) with a by (destruct A' as [-> | ->]; reflexivity).
  replace (b2z (b =? 1)) with b by (destruct B' as [-> | ->]; reflexivity). auto.
Qed.

Lemma ton_hist V : timer_history E I_TON n r col i v1 pre post on K -> shows (s_ctx (pre 0)) i V ->
  forall k, (k <= K)%nat -> shows (s_ctx (post k)) i (before E v1 f pre on V (S k))
    /\ outputs (s_ctx (post k)) n r col (tv_td (before E v1 f pre on V (S k))) (tv_tr (before E v1 f pre on V (S k)))
    /\ shows (s_ctx (pre k)) i (before E v1 f pre on V k).
Proof.
  intros (H1 & H2) HV. assert (HS : forall k, (k <= K)%nat -> shows (s_ctx (pre k)) i (before E v1 f pre on V k) ->
     shows (s_ctx (post k)) i (before E v1 f pre on V (S k))
    /\ outputs (s_ctx (post k)) n r col (tv_td (before E v1 f pre on V (S k))) (tv_tr (before E v1 f pre on V (S k)))).
  { intros k Hk HS. destruct (H1 _ Hk) as (Hc & Hl & Ho). destruct (ton_exec _ _ _ Hc HS Hl) as (s' & A & B & C).
    rewrite A in Ho. inversion Ho; subst. split; auto. apply B. }
  assert (HP : forall k, (k <= K)%nat -> shows (s_ctx (pre k)) i (before E v1 f pre on V k)).
  { induction k as [|k IH]; intros Hk; auto. apply (shows_same (s_ctx (post k))); [apply H2; lia|]. apply HS; [lia|]. apply IH; lia. }
  intros k Hk. destruct (HS k Hk (HP k Hk)). auto.
Qed.
Lemma tof_hist V : timer_history E I_TOF n r col i v1 pre post on K -> shows (s_ctx (pre 0)) i V ->
  let ph k := negb (on k) in
  forall k, (k <= K)%nat -> shows (s_ctx (post k)) i (before E v1 f pre ph V (S k))
    /\ outputs (s_ctx (post k)) n r col (on k || tv_tr (before E v1 f pre ph V (S k))) (tv_tr (before E v1 f pre ph V (S k)))
    /\ shows (s_ctx (pre k)) i (before E v1 f pre ph V k).
Proof.
  intros (H1 & H2) HV ph. assert (HS : forall k, (k <= K)%nat -> shows (s_ctx (pre k)) i (before E v1 f pre ph V k) ->
     shows (s_ctx (post k)) i (before E v1 f pre ph V (S k))
    /\ outputs (s_ctx (post k)) n r col (on k || tv_tr (before E v1 f pre ph V (S k))) (tv_tr (before E v1 f pre ph V (S k)))).
  { intros k Hk HS. destruct (H1 _ Hk) as (Hc & Hl & Ho). destruct (tof_exec _ _ _ Hc HS Hl) as (s' & A & B & C).
    rewrite A in Ho. inversion Ho; subst. split; auto. apply B. }
  assert (HP : forall k, (k <= K)%nat -> shows (s_ctx (pre k)) i (before E v1 f pre ph V k)).
  { induction k as [|k IH]; intros Hk; auto. apply (shows_same (s_ctx (post k))); [apply H2; lia|]. apply HS; [lia|]. apply IH; lia. }
  intros k Hk. destruct (HS k Hk (HP k Hk)). auto.
Qed.

End H.

Lemma fits_mod D : 0 <= D < 2 ^ 32 -> u32 D = D.
Proof. intros; apply Z.mod_small; auto. Qed.
Lemma base_pos t f : basetime t = Some f -> 0 < f.
Proof. intros H. destruct (factor_ok t f H); auto. Qed.
Lemma fits_preset p f : 0 < f -> 0 <= p * f < 2 ^ 32 -> u32 p = p /\ 0 <= p.
Proof. intros Hf H. assert (0 <= p) by nia. split; auto. apply Z.mod_small. nia. Qed.
Lemma shows_is c i V : shows c i V -> timer_is c i (tv_tr V) (tv_td V) (tv_acc V).
Proof. intros (A & B & _ & D). repeat split; auto. Qed.

Ltac norm_play := repeat match goal with |- context [play ?E ?i ?on ?c ?k] =>
  let v := eval vm_compute in (play E i on c k) in let H := fresh in
  assert (H : play E i on c k = v) by (vm_compute; reflexivity); rewrite H; clear H end.
Tactic Notation "hist_case" integer(K) constr(i) := split;
  [ let k := fresh "k" in intros k ?; do K (destruct k as [|k]; [norm_play; split; [split; [decide_exec|split; [do 3 eexists; reflexivity|
      split; [exists (V R_T i); split; reflexivity|reflexivity]]]|split; vm_compute; reflexivity]|]); lia
  | let k := fresh "k" in intros k ? l Hl; do K (destruct k as [|k]; [norm_play; simpl in Hl; destruct Hl as [<-|[<-|[<-|[<-|[]]]]]; vm_compute; reflexivity|]); lia ].
Ltac idle_case := split; [exists 0, 0, 0, 0; repeat split; auto|split; reflexivity].

(** ** C09 *)
(** C09: executing TON always succeeds and changes nothing but its own timer and the power of its two cells; the only
    calls it makes are clock readings. *)
Lemma C09_frame_l : forall E s n r col i v1 f on,
  quiet_clock E -> basetime (v_type v1) = Some f -> timer_cell (s_ctx s) n r col i v1 -> timer_exists (s_ctx s) i ->
  left_powered (s_ctx s) n r col on ->
  exists s', outcome E I_TON r col s = Some (Ok (E_OK, s'))
    /\ changes_only (s_ctx s) (s_ctx s') (fun l => In l (timer_regs i) \/ l = LPow n r col \/ l = LPow n (S r) col)
    /\ exists readings, s_tr s' = map EvMillis readings ++ s_tr s.
Proof.
  intros E s n r col i v1 f on Hq Hf Hc He Hl. destruct (exists_shows i _ He) as (V & HV).
  destruct (ton_exec E n r col i v1 f Hq Hf s V on Hc HV Hl) as (s' & A & (B1 & _ & B3) & _).
  exists s'. split; auto. split.
  - intros l Hn. apply B1. unfold tpl. rewrite row1. auto.
  - eexists. rewrite B3. f_equal. rewrite <- map_rev, <- map_map with (g := EvMillis). reflexivity.
Qed.
(** C09: one execution from any state of the timer, whatever the preset: without power it is reset. With power it starts if it is
    neither running nor done; while it runs the accumulator follows the clock, until preset x basetime milliseconds (as an
    unsigned 32-bit number) have passed since the start: then it is done and the accumulator is the preset. *)
Lemma C09_any_state_l : forall E s n r col i v1 f on running done ts acc,
  quiet_clock E -> basetime (v_type v1) = Some f -> timer_cell (s_ctx s) n r col i v1 -> left_powered (s_ctx s) n r col on ->
  timer_is (s_ctx s) i running done acc -> holds (s_ctx s) (LTs i) ts ->
  let starts := on && negb running && negb done in
  let active := on && (running || starts) in
  let start := if starts then reading E s 0 else ts in
  let seen := reading E s (if starts then 1 else 0) in
  let over := (v_raw v1 * f) mod 2 ^ 32 <=? elapsed start (reading E s (if starts then 2 else 1)) in
  exists s', outcome E I_TON r col s = Some (Ok (E_OK, s'))
    /\ timer_is (s_ctx s') i (active && negb over) (on && (done || (active && over)))
         (if on then if active then if over then v_raw v1 mod 2 ^ 32 else (elapsed start seen / f) mod 2 ^ 16 else acc else 0)
    /\ holds (s_ctx s') (LTs i) start
    /\ outputs (s_ctx s') n r col (on && (done || (active && over))) (active && negb over).
Proof.
  intros E s n r col i v1 f on running done ts acc Hq Hf Hc Hl (A & B & D) Ht. cbv zeta.
  destruct (ton_exec E n r col i v1 f Hq Hf s (mk_tv running done ts acc) on Hc) as (s' & X & (_ & Y & _) & Z); [unfold shows; cbn [tv_tr tv_td tv_ts tv_acc]; auto|auto|].
  exists s'. split; [exact X|]. clear X. 
  unfold tstep, begins, run_fn, shows, timer_is, elapsed, u16, u32, u64 in *.
  destruct on, running, done; cbn [andb orb negb tv_tr tv_td tv_ts tv_acc] in *;
    repeat match goal with |- context [?a <=? ?b] => destruct (a <=? b) end; cbn [andb orb negb tv_tr tv_td tv_ts tv_acc] in *; tauto.
Qed.
(*EX
(* Running, with the preset -1, which counts as 2^32 - 10 milliseconds. *)
Example C09_any_state_case : let s := play quiet_env I_TON (fun k => true) (block I_TON [V R_T 2; V R_M (-1)]) 2 in
  quiet_clock quiet_env /\ basetime (v_type (V R_M (-1))) = Some 10 /\ timer_cell (s_ctx s) 0 0 1 2 (V R_M (-1))
  /\ left_powered (s_ctx s) 0 0 1 true /\ timer_is (s_ctx s) 2 true false 3 /\ holds (s_ctx s) (LTs 2) 0
  /\ timer_is (s_ctx (step1 quiet_env I_TON s)) 2 true false 5.
Proof.
  cbv zeta. split; [intros k t c; reflexivity|]. split; [reflexivity|]. norm_play.
  split; [split; [decide_exec|split; [do 3 eexists; reflexivity|split; [exists (V R_T 2); split; reflexivity|reflexivity]]]|].
  split; [vm_compute; reflexivity|]. split; [repeat split; vm_compute; reflexivity|]. split; [vm_compute; reflexivity|].
  repeat split; vm_compute; reflexivity.
Qed.
EX*)
(** C09: over any history of executions starting idle: an execution with the input off leaves timer and outputs reset;
    with the input on since execution [j], the timer is done (accumulator = preset) once preset x basetime
    milliseconds were seen to have passed, and running until then, the accumulator showing the elapsed units. *)
Lemma C09_on_delay_l : forall E n r col i v1 f pre post on K,
  quiet_clock E -> basetime (v_type v1) = Some f -> 0 <= v_raw v1 * f < 2 ^ 32 ->
  timer_idle (s_ctx (pre 0%nat)) i -> timer_history E I_TON n r col i v1 pre post on K ->
  forall k, (k <= K)%nat ->
    (on k = false -> timer_is (s_ctx (post k)) i false false 0 /\ outputs (s_ctx (post k)) n r col false false)
    /\ (forall j, since on j k -> expired E pre (v_raw v1 * f) j k ->
          timer_is (s_ctx (post k)) i false true (v_raw v1) /\ outputs (s_ctx (post k)) n r col true false)
    /\ (forall j, since on j k -> ~ expired E pre (v_raw v1 * f) j k ->
          timer_is (s_ctx (post k)) i true false ((elapsed (stamp E pre j) (shown E pre j k) / f) mod 2 ^ 16)
          /\ outputs (s_ctx (post k)) n r col false true).
Proof.
  intros E n r col i v1 f pre post on K Hq Hf Hp Hi HH k Hk. destruct (idle_shows i _ Hi) as (ts & acc & HV).
  destruct (ton_hist E n r col i v1 f pre post on K Hq Hf _ HH HV k Hk) as (A & B & _). apply shows_is in A.
  destruct (fits_preset _ _ (base_pos _ _ Hf) Hp) as (Hup & _). split; [|split].
  - intros Ho. destruct (before_off E v1 f pre on (mk_tv false false ts acc) k Ho) as (ts' & He). rewrite He in A, B. auto.
  - intros j Hj He. destruct (before_on E v1 f pre on ts acc j k Hj) as [(H1 & H2)|(H1 & H2)].
    + rewrite H2 in A, B. simpl in A. rewrite Hup in A. auto.
    + rewrite fits_mod in H1 by auto. tauto.
  - intros j Hj He. destruct (before_on E v1 f pre on ts acc j k Hj) as [(H1 & H2)|(H1 & H2)].
    + rewrite fits_mod in H1 by auto. tauto.
    + rewrite H2 in A, B. auto.
Qed.
(** C09: so the done output is on exactly when the input has been on without interruption for the preset time. *)
Lemma C09_done_iff_l : forall E n r col i v1 f pre post on K,
  quiet_clock E -> basetime (v_type v1) = Some f -> 0 <= v_raw v1 * f < 2 ^ 32 ->
  timer_idle (s_ctx (pre 0%nat)) i -> timer_history E I_TON n r col i v1 pre post on K ->
  forall k, (k <= K)%nat ->
    (powered (s_ctx (post k)) n r col true <-> exists j, since on j k /\ expired E pre (v_raw v1 * f) j k)
    /\ (powered (s_ctx (post k)) n (S r) col true <-> exists j, since on j k /\ ~ expired E pre (v_raw v1 * f) j k).
Proof.
  intros E n r col i v1 f pre post on K Hq Hf Hp Hi HH k Hk.
  destruct (C09_on_delay_l _ _ _ _ _ _ _ _ _ _ _ Hq Hf Hp Hi HH k Hk) as (H1 & H2 & H3). unfold outputs, powered in *.
  destruct (idle_shows i _ Hi) as (ts & acc & HV).
  assert (HD : forall j, since on j k -> expired E pre (v_raw v1 * f) j k \/ ~ expired E pre (v_raw v1 * f) j k).
  { intros j Hj. rewrite <- (fits_mod (v_raw v1 * f)) by auto. destruct (before_on E v1 f pre on ts acc j k Hj) as [(A & _)|(A & _)]; auto. }
  split; split.
  - intros HP. destruct (on k) eqn:Ho; [|destruct (H1 eq_refl) as (_ & A & _); congruence].
    destruct (since_exists on k Ho) as (j & Hj). exists j; split; auto. destruct (HD j Hj) as [|HE]; auto.
    destruct (H3 j Hj HE) as (_ & A & _). congruence.
  - intros (j & Hj & HE). apply (H2 j Hj HE).
  - intros HP. destruct (on k) eqn:Ho; [|destruct (H1 eq_refl) as (_ & _ & A); congruence].
    destruct (since_exists on k Ho) as (j & Hj). exists j; split; auto. destruct (HD j Hj) as [HE|]; auto.
    destruct (H2 j Hj HE) as (_ & _ & A). congruence.
  - intros (j & Hj & HE). apply (H3 j Hj HE).
Qed.
(** C09: when no two readings of one execution go backwards, the accumulator never exceeds the preset. *)
Lemma C09_accumulator_l : forall E n r col i v1 f pre post on K,
  quiet_clock E -> basetime (v_type v1) = Some f -> 0 <= v_raw v1 * f < 2 ^ 32 ->
  timer_idle (s_ctx (pre 0%nat)) i -> timer_history E I_TON n r col i v1 pre post on K ->
  (forall j k, since on j k -> elapsed (stamp E pre j) (shown E pre j k) <= elapsed (stamp E pre j) (compared E pre j k)) ->
  forall k, (k <= K)%nat -> exists acc, holds (s_ctx (post k)) (LAcc i) acc /\ 0 <= acc <= v_raw v1.
Proof.
  intros E n r col i v1 f pre post on K Hq Hf Hp Hi HH Hm k Hk.
  destruct (C09_on_delay_l _ _ _ _ _ _ _ _ _ _ _ Hq Hf Hp Hi HH k Hk) as (H1 & H2 & H3).
  pose proof (base_pos _ _ Hf) as Hf0. destruct (fits_preset _ _ Hf0 Hp) as (Hup & Hp0).
  destruct (idle_shows i _ Hi) as (ts & acc & HV).
  destruct (on k) eqn:Ho.
  2:{ destruct (H1 eq_refl) as ((_ & _ & A) & _). exists 0; split; auto; lia. }
  destruct (since_exists on k Ho) as (j & Hj).
  destruct (before_on E v1 f pre on ts acc j k Hj) as [(A & _)|(A & _)]; rewrite fits_mod in A by auto.
  - destruct (H2 j Hj A) as ((_ & _ & B) & _). eexists; split; eauto. lia.
  - destruct (H3 j Hj A) as ((_ & _ & B) & _). eexists; split; eauto.
    set (e := elapsed (stamp E pre j) (shown E pre j k)) in *.
    assert (e < v_raw v1 * f).
    { specialize (Hm j k Hj). fold e in Hm. destruct (Z_lt_le_dec e (v_raw v1 * f)); auto. exfalso; apply A. exists k.
      split; [split; [apply Hj|lia]|]. lia. }
    assert (0 <= e) by (unfold e, elapsed; apply Z.mod_pos_bound; lia).
    assert (0 <= e / f) by (apply Z.div_pos; lia).
    assert (e / f <= v_raw v1) by (apply Z.div_le_upper_bound; nia).
    pose proof (Z.mod_pos_bound (e / f) (2 ^ 16) ltac:(lia)). pose proof (Z.mod_le (e / f) (2 ^ 16) ltac:(lia) ltac:(lia)). lia.
Qed.
(** C09: on a clock whose elapsed time since the start never decreases, the comparison with the current execution's
    reading decides. *)
Lemma C09_monotone_l : forall E n r col i v1 f pre post on K,
  quiet_clock E -> basetime (v_type v1) = Some f -> 0 <= v_raw v1 * f < 2 ^ 32 ->
  timer_idle (s_ctx (pre 0%nat)) i -> timer_history E I_TON n r col i v1 pre post on K ->
  forall j k, (k <= K)%nat -> since on j k ->
  (forall m, (j <= m <= k)%nat -> elapsed (stamp E pre j) (compared E pre j m) <= elapsed (stamp E pre j) (compared E pre j k)) ->
  (holds (s_ctx (post k)) (LReg B_Td i) 1 <-> v_raw v1 * f <= elapsed (stamp E pre j) (compared E pre j k)).
Proof.
  intros E n r col i v1 f pre post on K Hq Hf Hp Hi HH j k Hk Hj Hm.
  destruct (C09_on_delay_l _ _ _ _ _ _ _ _ _ _ _ Hq Hf Hp Hi HH k Hk) as (_ & H2 & H3).
  assert (HE : expired E pre (v_raw v1 * f) j k <-> v_raw v1 * f <= elapsed (stamp E pre j) (compared E pre j k)).
  { split; [intros (m & A & B); specialize (Hm m A); lia|]. intros H. exists k; split; auto. destruct Hj; lia. }
  rewrite <- HE. split.
  - intros Hh. destruct (Z_le_gt_dec (v_raw v1 * f) (elapsed (stamp E pre j) (compared E pre j k))) as [Hle|Hgt]; [apply HE; auto|].
    destruct (H3 j Hj) as ((_ & A & _) & _); [rewrite HE; lia|]. unfold holds in *. simpl b2z in A. congruence.
  - intros He. apply (H2 j Hj He).
Qed.
(*EX
Definition ton_demo : ctx := block I_TON [V R_T 2; V R_M 3].
(** A 30 ms timer on a clock of 10 ms per reading, input on from execution 1 to 3, then off. *)
Definition ton_on (k : nat) : bool := (1 <=? k)%nat && (k <=? 3)%nat.
Example C09_case : let pre := play quiet_env I_TON ton_on ton_demo in
  quiet_clock quiet_env /\ basetime R_M = Some 10 /\ timer_idle (s_ctx (pre 0%nat)) 2
  /\ timer_history quiet_env I_TON 0 0 1 2 (V R_M 3) pre (fun k => step1 quiet_env I_TON (pre k)) ton_on 4
  /\ since ton_on 1 3 /\ ~ expired quiet_env pre 30 1 1 /\ expired quiet_env pre 30 1 3.
Proof.
  cbv zeta. split; [intros k t c; reflexivity|]. split; [reflexivity|]. split; [|split; [|split; [|split]]].
  - idle_case.
  - hist_case 5 2.
  - split; [lia|]. split; [intros m Hm; unfold ton_on; do 4 (destruct m as [|m]; [try lia; auto|]); lia|right; reflexivity].
  - intros (m & Hm & H). assert (m = 1%nat) by lia. subst. vm_compute in H. congruence.
  - exists 3%nat. split; [lia|]. vm_compute. congruence.
Qed.
EX*)

(** ** C10 *)
(** C10: executing TOF always succeeds and changes nothing but its own timer and the power of its two cells. *)
Lemma C10_frame_l : forall E s n r col i v1 f on,
  quiet_clock E -> basetime (v_type v1) = Some f -> timer_cell (s_ctx s) n r col i v1 -> timer_exists (s_ctx s) i ->
  left_powered (s_ctx s) n r col on ->
  exists s', outcome E I_TOF r col s = Some (Ok (E_OK, s'))
    /\ changes_only (s_ctx s) (s_ctx s') (fun l => In l (timer_regs i) \/ l = LPow n r col \/ l = LPow n (S r) col)
    /\ exists readings, s_tr s' = map EvMillis readings ++ s_tr s.
Proof.
  intros E s n r col i v1 f on Hq Hf Hc He Hl. destruct (exists_shows i _ He) as (V & HV).
  destruct (tof_exec E n r col i v1 f Hq Hf s V on Hc HV Hl) as (s' & A & (B1 & _ & B3) & _).
  exists s'. split; auto. split.
  - intros l Hn. apply B1. unfold tpl. rewrite row1. auto.
  - eexists. rewrite B3. f_equal. rewrite <- map_rev, <- map_map with (g := EvMillis). reflexivity.
Qed.
(** C10: one execution from any state of the timer, whatever the preset: with power it is reset and the output is on. Without power
    it starts if it is neither running nor done, and the output stays on while it runs. *)
Lemma C10_any_state_l : forall E s n r col i v1 f on running done ts acc,
  quiet_clock E -> basetime (v_type v1) = Some f -> timer_cell (s_ctx s) n r col i v1 -> left_powered (s_ctx s) n r col on ->
  timer_is (s_ctx s) i running done acc -> holds (s_ctx s) (LTs i) ts ->
  let starts := negb on && negb running && negb done in
  let active := negb on && (running || starts) in
  let start := if starts then reading E s 0 else ts in
  let seen := reading E s (if starts then 1 else 0) in
  let over := (v_raw v1 * f) mod 2 ^ 32 <=? elapsed start (reading E s (if starts then 2 else 1)) in
  exists s', outcome E I_TOF r col s = Some (Ok (E_OK, s'))
    /\ timer_is (s_ctx s') i (active && negb over) (negb on && (done || (active && over)))
         (if on then 0 else if active then if over then v_raw v1 mod 2 ^ 32 else (elapsed start seen / f) mod 2 ^ 16 else acc)
    /\ holds (s_ctx s') (LTs i) start
    /\ outputs (s_ctx s') n r col (on || (active && negb over)) (active && negb over).
Proof.
  intros E s n r col i v1 f on running done ts acc Hq Hf Hc Hl (A & B & D) Ht. cbv zeta.
  destruct (tof_exec E n r col i v1 f Hq Hf s (mk_tv running done ts acc) on Hc) as (s' & X & (_ & Y & _) & Z); [unfold shows; cbn [tv_tr tv_td tv_ts tv_acc]; auto|auto|].
  exists s'. split; [exact X|]. clear X. 
  unfold tstep, begins, run_fn, shows, timer_is, elapsed, u16, u32, u64 in *.
  destruct on, running, done; cbn [andb orb negb tv_tr tv_td tv_ts tv_acc] in *;
    repeat match goal with |- context [?a <=? ?b] => destruct (a <=? b) end; cbn [andb orb negb tv_tr tv_td tv_ts tv_acc] in *; tauto.
Qed.
(*EX
(* Running, with the preset -1, which counts as 2^32 - 10 milliseconds. *)
Example C10_any_state_case : let s := play quiet_env I_TOF (fun k => false) (block I_TOF [V R_T 2; V R_M (-1)]) 2 in
  quiet_clock quiet_env /\ basetime (v_type (V R_M (-1))) = Some 10 /\ timer_cell (s_ctx s) 0 0 1 2 (V R_M (-1))
  /\ left_powered (s_ctx s) 0 0 1 false /\ timer_is (s_ctx s) 2 true false 3 /\ holds (s_ctx s) (LTs 2) 0
  /\ timer_is (s_ctx (step1 quiet_env I_TOF s)) 2 true false 5.
Proof.
  cbv zeta. split; [intros k t c; reflexivity|]. split; [reflexivity|]. norm_play.
  split; [split; [decide_exec|split; [do 3 eexists; reflexivity|split; [exists (V R_T 2); split; reflexivity|reflexivity]]]|].
  split; [vm_compute; reflexivity|]. split; [repeat split; vm_compute; reflexivity|]. split; [vm_compute; reflexivity|].
  repeat split; vm_compute; reflexivity.
Qed.
EX*)
(** C10: over any history starting idle: with the input on the output is on and the timer reset; with the input off
    since execution [j] the output stays on until preset x basetime milliseconds were seen to have passed, and is off
    from then on. *)
Lemma C10_off_delay_l : forall E n r col i v1 f pre post on K,
  quiet_clock E -> basetime (v_type v1) = Some f -> 0 <= v_raw v1 * f < 2 ^ 32 ->
  timer_idle (s_ctx (pre 0%nat)) i -> timer_history E I_TOF n r col i v1 pre post on K ->
  let off k := negb (on k) in
  forall k, (k <= K)%nat ->
    (on k = true -> timer_is (s_ctx (post k)) i false false 0 /\ outputs (s_ctx (post k)) n r col true false)
    /\ (forall j, since off j k -> expired E pre (v_raw v1 * f) j k ->
          timer_is (s_ctx (post k)) i false true (v_raw v1) /\ outputs (s_ctx (post k)) n r col false false)
    /\ (forall j, since off j k -> ~ expired E pre (v_raw v1 * f) j k ->
          timer_is (s_ctx (post k)) i true false ((elapsed (stamp E pre j) (shown E pre j k) / f) mod 2 ^ 16)
          /\ outputs (s_ctx (post k)) n r col true true).
Proof.
  intros E n r col i v1 f pre post on K Hq Hf Hp Hi HH off k Hk. destruct (idle_shows i _ Hi) as (ts & acc & HV).
  destruct (tof_hist E n r col i v1 f pre post on K Hq Hf _ HH HV k Hk) as (A & B & _). apply shows_is in A. fold off in A, B.
  destruct (fits_preset _ _ (base_pos _ _ Hf) Hp) as (Hup & _). split; [|split].
  - intros Ho. destruct (before_off E v1 f pre off (mk_tv false false ts acc) k) as (ts' & He); [unfold off; rewrite Ho; auto|].
    rewrite He in A, B. rewrite Ho in B. auto.
  - intros j Hj He. assert (Ho : on k = false) by (destruct Hj as (? & Hj & _); specialize (Hj k ltac:(lia)); unfold off in Hj; destruct (on k); auto).
    rewrite Ho in B. destruct (before_on E v1 f pre off ts acc j k Hj) as [(H1 & H2)|(H1 & H2)].
    + rewrite H2 in A, B. simpl in A. rewrite Hup in A. auto.
    + rewrite fits_mod in H1 by auto. tauto.
  - intros j Hj He. assert (Ho : on k = false) by (destruct Hj as (? & Hj & _); specialize (Hj k ltac:(lia)); unfold off in Hj; destruct (on k); auto).
    rewrite Ho in B. destruct (before_on E v1 f pre off ts acc j k Hj) as [(H1 & H2)|(H1 & H2)].
    + rewrite fits_mod in H1 by auto. tauto.
    + rewrite H2 in A, B. auto.
Qed.
(** C10: the output is off exactly when the input has been off without interruption for the preset time. *)
Lemma C10_off_iff_l : forall E n r col i v1 f pre post on K,
  quiet_clock E -> basetime (v_type v1) = Some f -> 0 <= v_raw v1 * f < 2 ^ 32 ->
  timer_idle (s_ctx (pre 0%nat)) i -> timer_history E I_TOF n r col i v1 pre post on K ->
  forall k, (k <= K)%nat ->
    (powered (s_ctx (post k)) n r col false
     <-> exists j, since (fun k => negb (on k)) j k /\ expired E pre (v_raw v1 * f) j k).
Proof.
  intros E n r col i v1 f pre post on K Hq Hf Hp Hi HH k Hk.
  destruct (C10_off_delay_l _ _ _ _ _ _ _ _ _ _ _ Hq Hf Hp Hi HH k Hk) as (H1 & H2 & H3). unfold outputs, powered in *.
  destruct (idle_shows i _ Hi) as (ts & acc & HV). split.
  - intros HP. destruct (on k) eqn:Ho; [destruct (H1 eq_refl) as (_ & A & _); congruence|].
    destruct (since_exists (fun k => negb (on k)) k) as (j & Hj); [rewrite Ho; auto|]. exists j; split; auto.
    destruct (before_on E v1 f pre _ ts acc j k Hj) as [(A & _)|(A & _)]; rewrite fits_mod in A by auto; auto.
    destruct (H3 j Hj A) as (_ & B & _). congruence.
  - intros (j & Hj & HE). apply (H2 j Hj HE).
Qed.
(** C10, finding: a TOF whose input was never on starts with its output on. *)
Lemma C10_never_on_actual_l : forall E n r col i v1 f pre post on K,
  quiet_clock E -> basetime (v_type v1) = Some f -> 0 <= v_raw v1 * f < 2 ^ 32 ->
  timer_idle (s_ctx (pre 0%nat)) i -> timer_history E I_TOF n r col i v1 pre post on K ->
  on 0%nat = false -> elapsed (reading E (pre 0%nat) 0) (reading E (pre 0%nat) 2) < v_raw v1 * f ->
  powered (s_ctx (post 0%nat)) n r col true.
Proof.
  intros E n r col i v1 f pre post on K Hq Hf Hp Hi HH Ho Hc.
  destruct (C10_off_delay_l _ _ _ _ _ _ _ _ _ _ _ Hq Hf Hp Hi HH 0%nat ltac:(lia)) as (_ & _ & H3).
  apply (H3 0%nat).
  - split; [lia|]. split; auto. intros m Hm. assert (m = 0%nat) by lia. subst. rewrite Ho; auto.
  - intros (m & Hm & HE). assert (m = 0%nat) by lia. subst. unfold stamp, compared in HE. simpl in HE. lia.
Qed.
(*EX
Definition tof_demo : ctx := block I_TOF [V R_T 1; V R_M 3].
(** A 30 ms timer: input on, then off from execution 1. *)
Definition tof_on (k : nat) : bool := (k =? 0)%nat.
Example C10_case : let pre := play quiet_env I_TOF tof_on tof_demo in
  quiet_clock quiet_env /\ basetime R_M = Some 10 /\ timer_idle (s_ctx (pre 0%nat)) 1
  /\ timer_history quiet_env I_TOF 0 0 1 1 (V R_M 3) pre (fun k => step1 quiet_env I_TOF (pre k)) tof_on 3
  /\ since (fun k => negb (tof_on k)) 1 3
  /\ ~ expired quiet_env pre 30 1 1
  /\ expired quiet_env pre 30 1 3.
Proof.
  cbv zeta. split; [intros k t c; reflexivity|]. split; [reflexivity|]. split; [|split; [|split; [|split]]].
  - idle_case.
  - hist_case 4 1.
  - split; [lia|]. split; [intros m Hm; unfold tof_on; do 4 (destruct m as [|m]; [try lia; auto|]); lia|right; reflexivity].
  - intros (m & Hm & H). assert (m = 1%nat) by lia. subst. vm_compute in H. congruence.
  - exists 3%nat. split; [lia|]. vm_compute. congruence.
Qed.
EX*)

(** ** C11 *)
Section Pulse.
Context (E : env) (v1 : value) (f : Z) (pre : nat -> st) (on : nat -> bool).
Notation p := (v_raw v1).
Fixpoint pbefore (V : tv) (k : nat) : tv :=
  match k with
  | O => V
  | S k => tp_step (reading E (pre k)) f p (on k) (i32 (tv_acc (pbefore V k))) (pbefore V k)
  end.
Lemma pbefore_idle ts k : (forall m, (m < k)%nat -> on m = false) -> pbefore (mk_tv false false ts 0) k = mk_tv false false ts 0.
Proof.
  induction k as [|k IH]; intros H; auto. simpl. rewrite IH by (intros; apply H; lia). unfold tp_step, tp_begins.
  rewrite H by lia. reflexivity.
Qed.
Hypothesis Hd : u32 p = 0 -> u32 (p * f) = 0.
Hypothesis Hz : i32 (u32 p) = 0 -> u32 p = 0.
Lemma pbefore_on ts j k : (j <= k)%nat -> (forall m, (m < j)%nat -> on m = false) -> on j = true ->
  let W := pbefore (mk_tv false false ts 0) (S k) in
  (expired E pre (u32 (p * f)) j k /\ tv_tr W = false /\ tv_td W = true /\ tv_acc W = u32 p)
  \/ (~ expired E pre (u32 (p * f)) j k
      /\ W = mk_tv true false (stamp E pre j) (u16 (elapsed (stamp E pre j) (shown E pre j k) / f))).
Proof.
  intros Hjk Hoff Hon. pose proof (pbefore_idle ts j Hoff) as Hb.
  assert (HJ : let W := pbefore (mk_tv false false ts 0) (S j) in
   (expired E pre (u32 (p * f)) j j /\ tv_tr W = false /\ tv_td W = true /\ tv_acc W = u32 p)
  \/ (~ expired E pre (u32 (p * f)) j j
      /\ W = mk_tv true false (stamp E pre j) (u16 (elapsed (stamp E pre j) (shown E pre j j) / f)))).
  { cbn [pbefore]. cbv zeta. rewrite Hb. unfold tp_step, tp_begins. rewrite Hon. unfold run_fn. cbn [tv_tr tv_td tv_ts tv_acc negb andb].
    change (i32 0 =? 0) with true. cbn [andb]. cbv iota.
    rewrite !u64_elapsed. unfold shown, expired, compared, stamp. rewrite Nat.eqb_refl.
    destruct (u32 (p * f) <=? elapsed (reading E (pre j) 0) (reading E (pre j) 2)) eqn:Hdd; [left|right]; split; auto.
    - exists j. split; [lia|]. rewrite Nat.eqb_refl. cbv iota. apply Z.leb_le; exact Hdd.
    - intros (m & Hm & H). assert (m = j) by lia. subst. rewrite Nat.eqb_refl in H. cbv iota in H. apply Z.leb_le in H. congruence. }
  clear Hb. induction k as [|k IH]; [assert (j = 0%nat) by lia; subst; auto|].
  destruct (Nat.eq_dec j (S k)) as [-> |Hne]; [auto|].
  assert (Hk : (j <= k)%nat) by lia. specialize (IH Hk).
  remember (pbefore (mk_tv false false ts 0) (S k)) as X eqn:HX. cbv zeta in *.
  change (pbefore (mk_tv false false ts 0) (S (S k))) with
    (tp_step (reading E (pre (S k))) f p (on (S k)) (i32 (tv_acc (pbefore (mk_tv false false ts 0) (S k)))) (pbefore (mk_tv false false ts 0) (S k))).
  rewrite <- HX.
  assert (HE : forall D, expired E pre D j (S k) <-> expired E pre D j k \/ D <= elapsed (stamp E pre j) (compared E pre j (S k))).
  { intros D; split.
    - intros (m & Hm & H). destruct (Nat.eq_dec m (S k)) as [-> |]; [right; auto|left; exists m; split; auto; lia].
    - intros [(m & Hm & H)|H]; [exists m; split; auto; lia|exists (S k); split; auto; lia]. }
  unfold tp_step, tp_begins. destruct IH as [(H1 & A & B & C)|(H1 & ->)]; unfold run_fn; cbn [tv_tr tv_td tv_ts tv_acc negb andb].
  - left. split; [apply HE; auto|]. rewrite A, C. destruct (on (S k)); cbn [andb negb].
    + destruct (i32 (u32 p) =? 0) eqn:H0; cbn [andb negb]; cbv iota; auto.
      apply Z.eqb_eq in H0. pose proof (Hd (Hz H0)) as H2. rewrite H2. rewrite !u64_elapsed.
      replace (0 <=? _) with true by (symmetry; apply Z.leb_le; apply Z.mod_pos_bound; lia). auto.
    + auto.
  - rewrite andb_false_r. rewrite !u64_elapsed. unfold shown. replace (S k =? j)%nat with false by (symmetry; apply Nat.eqb_neq; lia).
    assert (Hcmp : compared E pre j (S k) = reading E (pre (S k)) 1).
    { unfold compared. replace (S k =? j)%nat with false by (symmetry; apply Nat.eqb_neq; lia). auto. }
    rewrite <- Hcmp. destruct (_ <=? _) eqn:Hdd; [left|right]; split; auto; rewrite HE; [right; lia|intros [?|?]; [tauto|lia]].
Qed.
End Pulse.
Section PH.
Context (E : env) (n r col i : nat) (v1 : value) (f : Z) (pre post : nat -> st) (on : nat -> bool) (K : nat).
Hypothesis Hq : quiet_clock E.
Hypothesis Hf : basetime (v_type v1) = Some f.
Notation p := (v_raw v1).
Lemma tp_exec s V l : timer_cell (s_ctx s) n r col i v1 -> pulse_cell (s_ctx s) n r col i -> shows (s_ctx s) i V ->
  left_powered (s_ctx s) n r col l ->
  let V' := tp_step (reading E s) f p l (i32 (tv_acc V)) V in
  exists s', outcome E I_TP r col s = Some (Ok (E_OK, s')) /\ tinv E (s_ctx s) (s_tr s) n r col i (tp_count l (i32 (tv_acc V)) V) V' s'
  /\ outputs (s_ctx s') n r col (tv_tr V') (tv_tr V').
Proof.
  intros (He & Hc & _ & Hv1) (v0 & Ho & Ht & Hi) HV Hl V'. rewrite <- row1 in Hc.
  assert (Hpr : prev_reads (s_ctx s) v0 (i32 (tv_acc V))).
  { unfold prev_reads. rewrite Ht. rewrite Hi. split; [lia|]. unfold ix. rewrite Nat2Z.id. eexists; split; eauto. apply HV. }
  destruct (tp_ok E (s_ctx s) (s_tr s) n r col i v0 v1 f Hq He (cell_has _ _ _ _ Hc) (proj1 Ho) Hi Hv1 Hf V s l _ (tinv_start E n r col i _ _ HV) Hl eq_refl Ho Hpr)
    as (s' & H1 & H2 & H3 & H4).
  exists s'. split; [unfold outcome; simpl; rewrite H1; auto|]. split; auto. split; auto. rewrite <- row1; auto.
Qed.
Lemma tp_hist V : timer_history E I_TP n r col i v1 pre post on K -> (forall k, (k <= K)%nat -> pulse_cell (s_ctx (pre k)) n r col i) ->
  shows (s_ctx (pre 0)) i V ->
  forall k, (k <= K)%nat -> shows (s_ctx (post k)) i (pbefore E v1 f pre on V (S k))
    /\ outputs (s_ctx (post k)) n r col (tv_tr (pbefore E v1 f pre on V (S k))) (tv_tr (pbefore E v1 f pre on V (S k))).
Proof.
  intros (H1 & H2) HC HV. assert (HS : forall k, (k <= K)%nat -> shows (s_ctx (pre k)) i (pbefore E v1 f pre on V k) ->
     shows (s_ctx (post k)) i (pbefore E v1 f pre on V (S k))
    /\ outputs (s_ctx (post k)) n r col (tv_tr (pbefore E v1 f pre on V (S k))) (tv_tr (pbefore E v1 f pre on V (S k)))).
  { intros k Hk HS. destruct (H1 _ Hk) as (Hc & Hl & Ho). destruct (tp_exec _ _ _ Hc (HC _ Hk) HS Hl) as (s' & A & B & C).
    rewrite A in Ho. inversion Ho; subst. split; auto. apply B. }
  assert (HP : forall k, (k <= K)%nat -> shows (s_ctx (pre k)) i (pbefore E v1 f pre on V k)).
  { induction k as [|k IH]; intros Hk; auto. apply (shows_same i (s_ctx (post k))); [apply H2; lia|]. apply HS; [lia|]. apply IH; lia. }
  intros k Hk. apply (HS k Hk (HP k Hk)).
Qed.
End PH.
(** C11: executing TP always succeeds and changes nothing but its own timer and the power of its two cells. *)
Lemma C11_frame_l : forall E s n r col i v1 f on,
  quiet_clock E -> basetime (v_type v1) = Some f -> timer_cell (s_ctx s) n r col i v1 -> pulse_cell (s_ctx s) n r col i ->
  timer_exists (s_ctx s) i -> left_powered (s_ctx s) n r col on ->
  exists s', outcome E I_TP r col s = Some (Ok (E_OK, s'))
    /\ changes_only (s_ctx s) (s_ctx s') (fun l => In l (timer_regs i) \/ l = LPow n r col \/ l = LPow n (S r) col)
    /\ exists readings, s_tr s' = map EvMillis readings ++ s_tr s.
Proof.
  intros E s n r col i v1 f on Hq Hf Hc Hp He Hl. destruct (exists_shows i _ He) as (V & HV).
  destruct (tp_exec E n r col i v1 f Hq Hf s V on Hc Hp HV Hl) as (s' & A & (B1 & _ & B3) & _).
  exists s'. split; auto. split.
  - intros l Hn. apply B1. unfold tpl. rewrite row1. auto.
  - eexists. rewrite B3. f_equal. rewrite <- map_rev, <- map_map with (g := EvMillis). reflexivity.
Qed.
Lemma i32_zero z : (i32 z =? 0) = (z mod 2 ^ 32 =? 0).
Proof. unfold i32. destruct (z mod 2 ^ 32 =? 0) eqn:Q; [apply Z.eqb_eq in Q|apply Z.eqb_neq in Q]; [apply Z.eqb_eq|apply Z.eqb_neq]; Z.to_euclidean_division_equations; lia. Qed.
(** C11: one execution from any state of the timer, whatever the preset: with power it starts if it is not running and the
    accumulator is 0. It is never reset: once over, the accumulator stays at the preset. *)
Lemma C11_any_state_l : forall E s n r col i v1 f on running done ts acc,
  quiet_clock E -> basetime (v_type v1) = Some f -> timer_cell (s_ctx s) n r col i v1 -> pulse_cell (s_ctx s) n r col i ->
  left_powered (s_ctx s) n r col on ->
  timer_is (s_ctx s) i running done acc -> holds (s_ctx s) (LTs i) ts ->
  let starts := on && (acc mod 2 ^ 32 =? 0) && negb running in
  let active := running || starts in
  let start := if starts then reading E s 0 else ts in
  let seen := reading E s (if starts then 1 else 0) in
  let over := (v_raw v1 * f) mod 2 ^ 32 <=? elapsed start (reading E s (if starts then 2 else 1)) in
  exists s', outcome E I_TP r col s = Some (Ok (E_OK, s'))
    /\ timer_is (s_ctx s') i (active && negb over) (done || (active && over))
         (if active then if over then v_raw v1 mod 2 ^ 32 else (elapsed start seen / f) mod 2 ^ 16 else acc)
    /\ holds (s_ctx s') (LTs i) start
    /\ outputs (s_ctx s') n r col (active && negb over) (active && negb over).
Proof.
  intros E s n r col i v1 f on running done ts acc Hq Hf Hc Hpc Hl (A & B & D) Ht. cbv zeta.
  destruct (tp_exec E n r col i v1 f Hq Hf s (mk_tv running done ts acc) on Hc) as (s' & X & (_ & Y & _) & Z); [exact Hpc|..|]; [unfold shows; cbn [tv_tr tv_td tv_ts tv_acc]; auto|auto|].
  exists s'. split; [exact X|]. clear X. assert (I0 : (i32 acc =? 0) = (acc mod 2 ^ 32 =? 0)) by apply i32_zero. cbn [tv_acc] in Y, Z.
  unfold tp_step, tp_begins, begins, run_fn, shows, timer_is, elapsed, u16, u32, u64 in *.
  destruct on, running, done; cbn [andb orb negb tv_tr tv_td tv_ts tv_acc] in *; rewrite ?I0 in *; destruct (acc mod 2 ^ 32 =? 0); cbn [andb orb negb tv_tr tv_td tv_ts tv_acc] in *;
    repeat match goal with |- context [?a <=? ?b] => destruct (a <=? b) end; cbn [andb orb negb tv_tr tv_td tv_ts tv_acc] in *; tauto.
Qed.
(*EX
(* Running, with the preset -1, which counts as 2^32 - 10 milliseconds. *)
Example C11_any_state_case : let s := play quiet_env I_TP (fun k => true) (block I_TP [V R_T 2; V R_M (-1)]) 2 in
  quiet_clock quiet_env /\ basetime (v_type (V R_M (-1))) = Some 10 /\ timer_cell (s_ctx s) 0 0 1 2 (V R_M (-1))
  /\ left_powered (s_ctx s) 0 0 1 true /\ timer_is (s_ctx s) 2 true false 3 /\ holds (s_ctx s) (LTs 2) 0
  /\ timer_is (s_ctx (step1 quiet_env I_TP s)) 2 true false 5.
Proof.
  cbv zeta. split; [intros k t c; reflexivity|]. split; [reflexivity|]. norm_play.
  split; [split; [decide_exec|split; [do 3 eexists; reflexivity|split; [exists (V R_T 2); split; reflexivity|reflexivity]]]|].
  split; [vm_compute; reflexivity|]. split; [repeat split; vm_compute; reflexivity|]. split; [vm_compute; reflexivity|].
  repeat split; vm_compute; reflexivity.
Qed.
EX*)
(** C11: over any history from an idle timer with accumulator 0: nothing until the first powered execution [j]; from
    then on the output stays on, whatever the input does, until preset x basetime milliseconds were seen to have
    passed since [j]; then it goes off. What is missing: the second pulse (see the findings below). *)
Lemma C11_pulse_partial_l : forall E n r col i v1 f pre post on K,
  quiet_clock E -> basetime (v_type v1) = Some f -> 0 <= v_raw v1 * f < 2 ^ 32 ->
  timer_idle (s_ctx (pre 0%nat)) i -> holds (s_ctx (pre 0%nat)) (LAcc i) 0 ->
  timer_history E I_TP n r col i v1 pre post on K -> (forall k, (k <= K)%nat -> pulse_cell (s_ctx (pre k)) n r col i) ->
  forall k, (k <= K)%nat ->
    ((forall m, (m <= k)%nat -> on m = false) ->
       timer_is (s_ctx (post k)) i false false 0 /\ outputs (s_ctx (post k)) n r col false false)
    /\ (forall j, (j <= k)%nat -> (forall m, (m < j)%nat -> on m = false) -> on j = true ->
         (~ expired E pre (v_raw v1 * f) j k ->
            timer_is (s_ctx (post k)) i true false ((elapsed (stamp E pre j) (shown E pre j k) / f) mod 2 ^ 16)
            /\ outputs (s_ctx (post k)) n r col true true)
         /\ (expired E pre (v_raw v1 * f) j k ->
            timer_is (s_ctx (post k)) i false true (v_raw v1) /\ outputs (s_ctx (post k)) n r col false false)).
Proof.
  intros E n r col i v1 f pre post on K Hq Hf Hp Hi Ha HH HC k Hk. destruct (idle_shows i _ Hi) as (ts & acc & HV).
  assert (acc = 0) by (destruct HV as (_ & _ & _ & A); unfold holds in *; simpl tv_acc in A; congruence). subst acc.
  destruct (tp_hist E n r col i v1 f pre post on K Hq Hf _ HH HC HV k Hk) as (A & B). apply shows_is in A.
  pose proof (base_pos _ _ Hf) as Hf0.
  destruct (fits_preset _ _ (base_pos _ _ Hf) Hp) as (Hup & Hp0). split.
  - intros Hoff. rewrite (pbefore_idle E v1 f pre on ts (S k)) in A, B by (intros; apply Hoff; lia). auto.
  - intros j Hj Hoff Hon.
    assert (Hz : i32 (u32 (v_raw v1)) = 0 -> u32 (v_raw v1) = 0).
    { rewrite Hup. unfold i32. intros H. assert (Hlt : v_raw v1 < 2 ^ 32) by nia.
      destruct (Z_lt_le_dec (v_raw v1) (2 ^ 31)); [rewrite Z.mod_small in H by lia; lia|].
      rewrite <- (Z.mod_unique (v_raw v1 + 2 ^ 31) (2 ^ 32) 1 (v_raw v1 + 2 ^ 31 - 2 ^ 32)) in H by lia. lia. }
    destruct (pbefore_on E v1 f pre on ltac:(intros H0; rewrite Hup in H0; rewrite H0; reflexivity) Hz ts j k Hj Hoff Hon) as [(H1 & H2 & H3 & H4)|(H1 & H2)];
      rewrite fits_mod in H1 by auto; split; intros H; try tauto.
    + rewrite H2, H3, H4 in A. rewrite H2 in B. rewrite Hup in A. auto.
    + rewrite H2 in A, B. auto.
Qed.
(** C11, finding: so after the first pulse there is never a second one, whatever the input does. *)
Lemma C11_no_second_pulse_actual_l : forall E n r col i v1 f pre post on K,
  quiet_clock E -> basetime (v_type v1) = Some f -> 0 <= v_raw v1 * f < 2 ^ 32 ->
  timer_idle (s_ctx (pre 0%nat)) i -> holds (s_ctx (pre 0%nat)) (LAcc i) 0 ->
  timer_history E I_TP n r col i v1 pre post on K -> (forall k, (k <= K)%nat -> pulse_cell (s_ctx (pre k)) n r col i) ->
  forall m k, (m <= k <= K)%nat -> (exists j, (j <= m)%nat /\ (forall q, (q < j)%nat -> on q = false) /\ on j = true
    /\ expired E pre (v_raw v1 * f) j m) -> powered (s_ctx (post k)) n r col false.
Proof.
  intros E n r col i v1 f pre post on K Hq Hf Hp Hi Ha HH HC m k Hk (j & Hj & Hoff & Hon & q & Hm & HE).
  destruct (C11_pulse_partial_l _ _ _ _ _ _ _ _ _ _ _ Hq Hf Hp Hi Ha HH HC k ltac:(lia)) as (_ & H).
  destruct (H j ltac:(lia) Hoff Hon) as (_ & H2). apply H2. exists q; split; auto; lia.
Qed.
(** C11, finding: "a rising input after the pulse ended starts a new pulse" is false. *)
Lemma C11_retrigger_refuted_l : exists E n r col i v1 f pre post on K,
  quiet_clock E /\ basetime (v_type v1) = Some f /\ 0 < v_raw v1 * f < 2 ^ 32
  /\ timer_idle (s_ctx (pre 0%nat)) i /\ holds (s_ctx (pre 0%nat)) (LAcc i) 0
  /\ timer_history E I_TP n r col i v1 pre post on K /\ (forall k, (k <= K)%nat -> pulse_cell (s_ctx (pre k)) n r col i)
  /\ exists k, (0 < k <= K)%nat /\ powered (s_ctx (post (k - 1)%nat)) n r col false /\ on (k - 1)%nat = false /\ on k = true
  /\ powered (s_ctx (post k)) n r col false.
Proof.
  set (I := fun k => negb (k =? 3)%nat). set (c := block I_TP [V R_T 2; V R_M 4]).
  exists quiet_env, 0%nat, 0%nat, 1%nat, 2%nat, (V R_M 4), 10, (play quiet_env I_TP I c),
    (fun k => step1 quiet_env I_TP (play quiet_env I_TP I c k)), I, 4%nat.
  split; [intros k t x; reflexivity|]. split; [reflexivity|]. split; [simpl; lia|]. split; [idle_case|]. split; [reflexivity|].
  split; [hist_case 5 2|]. split.
  { intros k Hk. do 5 (destruct k as [|k]; [norm_play; exists (V R_T 2); split; [decide_op|split; reflexivity]|]). lia. }
  exists 4%nat. split; [lia|]. repeat split; vm_compute; reflexivity.
Qed.
(*EX
(** The clock of [quiet_env] advances 10 ms per reading; the pulse of 40 ms started at execution 1 is over at 2. *)
Example C11_case : let c := block I_TP [V R_T 2; V R_M 4] in let on k := (k =? 1)%nat in
  let pre := play quiet_env I_TP on c in
  quiet_clock quiet_env /\ basetime R_M = Some 10 /\ timer_idle (s_ctx (pre 0%nat)) 2 /\ holds (s_ctx (pre 0%nat)) (LAcc 2) 0
  /\ timer_history quiet_env I_TP 0 0 1 2 (V R_M 4) pre (fun k => step1 quiet_env I_TP (pre k)) on 3
  /\ (forall k, (k <= 3)%nat -> pulse_cell (s_ctx (pre k)) 0 0 1 2)
  /\ ~ expired quiet_env pre 40 1 1 /\ expired quiet_env pre 40 1 3.
Proof.
  cbv zeta. split; [intros k t c; reflexivity|]. split; [reflexivity|]. split; [idle_case|]. split; [reflexivity|].
  split; [hist_case 4 2|]. split.
  { intros k Hk. do 4 (destruct k as [|k]; [norm_play; exists (V R_T 2); split; [decide_op|split; reflexivity]|]). lia. }
  split.
  - intros (m & Hm & H). assert (m = 1%nat) by lia. subst. vm_compute in H. congruence.
  - exists 3%nat. split; [lia|]. vm_compute. congruence.
Qed.
EX*)

(** ** C12 *)
(** C12, finding: for a preset of any size (any sign) TON times preset x basetime modulo 2^32 milliseconds, and shows
    the elapsed units modulo 2^16 meanwhile. *)
Lemma C12_wrapped_actual_l : forall E n r col i v1 f pre post on K,
  quiet_clock E -> basetime (v_type v1) = Some f ->
  timer_idle (s_ctx (pre 0%nat)) i -> timer_history E I_TON n r col i v1 pre post on K ->
  forall j k, (k <= K)%nat -> since on j k ->
    (expired E pre ((v_raw v1 * f) mod 2 ^ 32) j k -> timer_is (s_ctx (post k)) i false true (v_raw v1 mod 2 ^ 32))
    /\ (~ expired E pre ((v_raw v1 * f) mod 2 ^ 32) j k ->
        timer_is (s_ctx (post k)) i true false ((elapsed (stamp E pre j) (shown E pre j k) / f) mod 2 ^ 16)).
Proof.
  intros E n r col i v1 f pre post on K Hq Hf Hi HH j k Hk Hj. destruct (idle_shows i _ Hi) as (ts & acc & HV).
  destruct (ton_hist E n r col i v1 f pre post on K Hq Hf _ HH HV k Hk) as (A & _). apply shows_is in A.
  destruct (before_on E v1 f pre on ts acc j k Hj) as [(H1 & H2)|(H1 & H2)]; rewrite H2 in A; unfold u32 in *; split; intros H; auto; tauto.
Qed.
(** C12, finding: the same for TOF. *)
Lemma C12_wrapped_off_actual_l : forall E n r col i v1 f pre post on K,
  quiet_clock E -> basetime (v_type v1) = Some f ->
  timer_idle (s_ctx (pre 0%nat)) i -> timer_history E I_TOF n r col i v1 pre post on K ->
  forall j k, (k <= K)%nat -> since (fun k => negb (on k)) j k ->
    (expired E pre ((v_raw v1 * f) mod 2 ^ 32) j k -> timer_is (s_ctx (post k)) i false true (v_raw v1 mod 2 ^ 32))
    /\ (~ expired E pre ((v_raw v1 * f) mod 2 ^ 32) j k ->
        timer_is (s_ctx (post k)) i true false ((elapsed (stamp E pre j) (shown E pre j k) / f) mod 2 ^ 16)).
Proof.
  intros E n r col i v1 f pre post on K Hq Hf Hi HH j k Hk Hj. destruct (idle_shows i _ Hi) as (ts & acc & HV).
  destruct (tof_hist E n r col i v1 f pre post on K Hq Hf _ HH HV k Hk) as (A & _). apply shows_is in A.
  destruct (before_on E v1 f pre _ ts acc j k Hj) as [(H1 & H2)|(H1 & H2)]; rewrite H2 in A; unfold u32 in *; split; intros H; auto; tauto.
Qed.
(** C12, finding: a timer of 71583 minutes reports done after 12.704 seconds. *)
Lemma C12_early_refuted_l : exists E n r col i v1 f pre post on K j k,
  quiet_clock E /\ basetime (v_type v1) = Some f /\ fits (v_raw v1) /\ 2 ^ 32 <= v_raw v1 * f
  /\ timer_idle (s_ctx (pre 0%nat)) i /\ timer_history E I_TON n r col i v1 pre post on K
  /\ (k <= K)%nat /\ since on j k /\ ~ expired E pre (v_raw v1 * f) j k
  /\ timer_is (s_ctx (post k)) i false true (v_raw v1).
Proof.
  set (E := timed_env (fun k => if (k <? 3)%nat then 0 else 12704)). set (I := fun _ : nat => true).
  set (c := block I_TON [V R_T 2; V R_Cd 71583]).
  exists E, 0%nat, 0%nat, 1%nat, 2%nat, (V R_Cd 71583), 60000, (play E I_TON I c), (fun k => step1 E I_TON (play E I_TON I c k)), I, 1%nat, 0%nat, 1%nat.
  split; [intros k t x; reflexivity|]. split; [reflexivity|]. split; [unfold fits; simpl; lia|]. split; [simpl; lia|].
  split; [idle_case|]. split; [hist_case 2 2|]. split; [lia|]. split; [split; [lia|split; auto]|]. split.
  - intros (m & Hm & H). assert (Hc : m = 0%nat \/ m = 1%nat) by lia. destruct Hc as [-> | ->]; vm_compute in H; congruence.
  - repeat split; vm_compute; reflexivity.
Qed.
(** C12, finding: the accumulator of a running timer can decrease while the elapsed time increases. *)
Lemma C12_backwards_refuted_l : exists E n r col i v1 f pre post on K a b,
  quiet_clock E /\ basetime (v_type v1) = Some f /\ 0 < v_raw v1 * f < 2 ^ 32
  /\ timer_idle (s_ctx (pre 0%nat)) i /\ timer_history E I_TON n r col i v1 pre post on K /\ (2 <= K)%nat
  /\ since on 0 2
  /\ elapsed (stamp E pre 0) (shown E pre 0 1) < elapsed (stamp E pre 0) (shown E pre 0 2)
  /\ timer_is (s_ctx (post 1%nat)) i true false a /\ timer_is (s_ctx (post 2%nat)) i true false b /\ b < a.
Proof.
  set (E := timed_env (fun k => if (k <? 3)%nat then 0 else if (k <? 5)%nat then 65535 else 65540)). set (I := fun _ : nat => true).
  set (c := block I_TON [V R_T 2; V R_NONE 100000]).
  exists E, 0%nat, 0%nat, 1%nat, 2%nat, (V R_NONE 100000), 1, (play E I_TON I c), (fun k => step1 E I_TON (play E I_TON I c k)), I, 2%nat, 65535, 4.
  split; [intros k t x; reflexivity|]. split; [reflexivity|]. split; [simpl; lia|].
  split; [idle_case|]. split; [hist_case 3 2|]. split; [lia|]. split; [split; [lia|split; auto]|].
  split; [vm_compute; reflexivity|]. repeat split; vm_compute; reflexivity.
Qed.
(*EX
Example C12_case : let c := block I_TON [V R_T 2; V R_Cd 71583] in
  let pre := play quiet_env I_TON (fun _ => true) c in
  basetime R_Cd = Some 60000 /\ timer_idle (s_ctx (pre 0%nat)) 2
  /\ timer_history quiet_env I_TON 0 0 1 2 (V R_Cd 71583) pre (fun k => step1 quiet_env I_TON (pre k)) (fun _ => true) 3
  /\ since (fun _ => true) 0 3.
Proof.
  cbv zeta. split; [reflexivity|]. split; [idle_case|]. split; [hist_case 4 2|]. split; [lia|]. split; auto.
Qed.
EX*)
