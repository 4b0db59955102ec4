(** The plan of networks without bars, or made of complete groups, in terms of cells. *)
From Verif Require Export Rung.

Lemma evaluates_app P Q l1 l2 c c1 c2 : evaluates P Q l1 c c1 -> evaluates P Q l2 c1 c2 -> evaluates P Q (l1 ++ l2) c c2.
Proof. induction 1 as [c|n r col l c ca cb H1 H2 IH]; intros H; simpl; [auto|]. econstructor; eauto. Qed.
Lemma evaluates_ext P Q P' Q' l c c' :
  (forall n r col, In (n, r, col) l -> left_of (P n) r col = left_of (P' n) r col /\ Q n r col = Q' n r col) ->
  evaluates P Q l c c' -> evaluates P' Q' l c c'.
Proof.
  intros H D. induction D as [c|n r col l c c1 c2 A D IH]; [constructor|].
  destruct (H n r col) as [H1 H2]; [simpl; auto|]. econstructor; [rewrite <- H1, <- H2; exact A|]. apply IH. intros; apply H; simpl; auto.
Qed.
Lemma steps_ticks n k l c pw c' pw' : steps_do n (repeat Tick k ++ l) c pw c' pw' -> steps_do n l c pw c' pw'.
Proof. induction k as [|k IH]; simpl; auto. intros H. inversion H; subst. auto. Qed.
Lemma steps_app n a b c pw c' pw' : steps_do n (a ++ b) c pw c' pw' -> exists c1 pw1, steps_do n a c pw c1 pw1 /\ steps_do n b c1 pw1 c' pw'.
Proof.
  revert c pw. induction a as [|x a IH]; intros c pw H; simpl in H; [exists c, pw; split; [constructor|auto]|].
  inversion H; subst; match goal with K : steps_do n (a ++ b) _ _ _ _ |- _ => destruct (IH _ _ K) as (c1' & pw1' & A & B) end;
    exists c1', pw1'; split; auto; econstructor; eauto.
Qed.

(** A column of cells, all with the power they started with. *)
Lemma cells_evaluate n col pw rs c qs c' : cells_do n col pw rs c qs c' -> (forall r, In r rs -> pw r col = false) ->
  forall made, (forall i r q, nth_error rs i = Some r -> nth_error qs i = Some q -> made r col = q) ->
  evaluates (fun _ => pw) (fun _ => made) (map (fun r => (n, r, col)) rs) c c'.
Proof.
  induction 1 as [c|r rs c c1 c2 q qs CD D IH]; intros OFF made HM; simpl; [constructor|].
  econstructor.
  - rewrite (HM 0%nat r q) by reflexivity. rewrite <- (OFF r) by (simpl; auto). exact CD.
  - apply IH; [intros; apply OFF; simpl; auto|]. intros i r' q' H1 H2. apply (HM (S i)); auto.
Qed.
Lemma cells_length n col pw rs c qs c' : cells_do n col pw rs c qs c' -> length qs = length rs.
Proof. induction 1; simpl; auto. Qed.

Lemma existsb_ext {A} (f g : A -> bool) l : (forall x, In x l -> f x = g x) -> existsb f l = existsb g l.
Proof. induction l as [|a l IH]; intros H; simpl; auto. rewrite H by (simpl; auto). f_equal. apply IH. intros; apply H; simpl; auto. Qed.
Lemma ltb_false a b : (b <= a)%nat -> (a <? b)%nat = false. Proof. intros; now apply Nat.ltb_ge. Qed.
Lemma ltb_true a b : (a < b)%nat -> (a <? b)%nat = true. Proof. intros; now apply Nat.ltb_lt. Qed.
Lemma in_seqb r g h : existsb (Nat.eqb r) (seq g h) = ((g <=? r)%nat && (r <? g + h)%nat).
Proof.
  destruct (existsb (Nat.eqb r) (seq g h)) eqn:X.
  - apply existsb_exists in X as (y & Y1 & Y2). apply Nat.eqb_eq in Y2 as <-. apply in_seq in Y1. symmetry. apply andb_true_iff.
    split; [apply Nat.leb_le|apply Nat.ltb_lt]; lia.
  - symmetry. apply andb_false_iff. destruct (Nat.le_gt_cases g r) as [L|L]; [|left; apply Nat.leb_gt; lia].
    destruct (Nat.le_gt_cases (g + h) r) as [L2|L2]; [right; apply Nat.ltb_ge; lia|].
    assert (T : existsb (Nat.eqb r) (seq g h) = true) by (apply existsb_exists; exists r; split; [apply in_seq; lia|apply Nat.eqb_refl]). congruence.
Qed.

Section G.
Variables (n rows cols : nat) (code : nat -> nat -> ins) (bar : nat -> nat -> bool).
(** Segments: 0 stands for a row starting with a continuation mark, h > 0 for a group of h rows. *)
Definition adv (h : nat) : nat := Nat.max 1 h.
Fixpoint segs (g : nat) (hs : list nat) : Prop :=
  match hs with
  | [] => g = rows
  | h :: t => (forall col, (col < cols)%nat -> bar g col = false /\ forall i, (0 < i < h)%nat -> bar (g + i)%nat col = true)
      /\ multi (code g 0%nat) = (h =? 0)%nat /\ segs (g + adv h) t
  end.
Fixpoint seg_cells (g : nat) (hs : list nat) : list (nat * nat * nat) :=
  match hs with
  | [] => []
  | h :: t => flat_map (fun col => map (fun r => (n, r, col)) (seq g h)) (seq 0 cols) ++ seg_cells (g + adv h) t
  end.
Fixpoint seg_ors (pw made : power) (g : nat) (hs : list nat) : Prop :=
  match hs with
  | [] => True
  | h :: t => (forall col i, (col < cols)%nat -> (i < h)%nat -> pw (g + i)%nat col = existsb (fun r => made r col) (seq g h))
              /\ seg_ors pw made (g + adv h) t
  end.
Lemma segs_bound g hs : segs g hs -> (g <= rows)%nat /\ (g = rows \/ forall col, (col < cols)%nat -> bar g col = false).
Proof.
  revert g. induction hs as [|h t IH]; intros g H; simpl in H; [lia|]. destruct H as (H1 & H2 & H3). destruct (IH _ H3) as [H4 _].
  unfold adv in H4. split; [lia|]. right. intros col C. apply H1; auto.
Qed.
Lemma joined_seg h : forall g k col, (forall i, (0 < i < h)%nat -> bar (g + i)%nat col = true) -> (0 < h)%nat ->
  (g + h <= g + S k)%nat -> (h = S k \/ bar (g + h)%nat col = false) -> joined bar k g col = (h - 1)%nat.
Proof.
  induction h as [|h IH]; intros g k col HB H0 HK HE; [lia|]. destruct h as [|h].
  - destruct k as [|k]; simpl; auto. destruct HE as [?|HE]; [lia|]. replace (g + 1)%nat with (S g) in HE by lia. now rewrite HE.
  - destruct k as [|k]; [lia|]. cbn [joined]. specialize (HB 1%nat ltac:(lia)) as B1. replace (g + 1)%nat with (S g) in B1 by lia. rewrite B1.
    rewrite (IH (S g) k col); [lia| |lia|lia|].
    + intros i I0. specialize (HB (S i) ltac:(lia)). now replace (S g + i)%nat with (g + S i)%nat by lia.
    + destruct HE as [HE|HE]; [left; lia|right]. now replace (S g + S h)%nat with (g + S (S h))%nat by lia.
Qed.
Lemma branch_seg g : (forall col, (col < cols)%nat -> bar g col = false) -> branch rows cols code bar g = false.
Proof.
  intros H. unfold branch. apply Bool.not_true_is_false. intros X. apply existsb_exists in X as (col & C & X). apply in_seq in C.
  rewrite (H col) in X by lia. discriminate.
Qed.
Lemma group_seg g h col : (0 < h)%nat -> (forall i, (0 < i < h)%nat -> bar (g + i)%nat col = true) ->
  (g + h <= rows)%nat -> ((g + h)%nat = rows \/ bar (g + h)%nat col = false) -> group rows bar g col = seq g h.
Proof.
  intros H0 HB HR HE. unfold group. rewrite (joined_seg h); auto; try lia. f_equal. lia.
Qed.

(** The columns of one group. *)
Lemma columns_evaluate g h L c2 pw2 : (0 < h)%nat -> (g + h <= rows)%nat ->
  (forall col, (col < cols)%nat -> bar g col = false /\ forall i, (0 < i < h)%nat -> bar (g + i)%nat col = true) ->
  ((g + h)%nat = rows \/ forall col, (col < cols)%nat -> bar (g + h)%nat col = false) ->
  forall f col c pw, (col + f = cols)%nat ->
  steps_do n (flat_map (column_steps rows cols code bar g) (seq col f) ++ L) c pw c2 pw2 ->
  (forall i k, (i < h)%nat -> (col <= k)%nat -> pw (g + i)%nat k = false) ->
  exists c1 pw1 made, steps_do n L c1 pw1 c2 pw2
    /\ evaluates (fun _ => pw1) (fun _ => made) (flat_map (fun k => map (fun r => (n, r, k)) (seq g h)) (seq col f)) c c1
    /\ (forall r k, ~ ((g <= r < g + h)%nat /\ (col <= k)%nat) -> pw1 r k = pw r k)
    /\ (forall k i, (col <= k < cols)%nat -> (i < h)%nat -> pw1 (g + i)%nat k = existsb (fun r => made r k) (seq g h)).
Proof.
  intros H0 HR HB HE. induction f as [|f IH]; intros col c pw Hf SD OFF.
  - simpl in SD. exists c, pw, all_off. split; [auto|]. split; [constructor|]. split; [auto|]. intros; lia.
  - cbn [seq flat_map] in SD. rewrite <- app_assoc in SD. unfold column_steps at 1 in SD.
    rewrite branch_seg in SD by (intros; apply HB; auto). simpl negb in SD. simpl orb in SD. rewrite <- app_assoc in SD. apply steps_ticks in SD.
    rewrite (group_seg g h col) in SD; auto; [| intros; apply HB; auto; lia|destruct HE as [?|HE]; [auto|right; apply HE; lia]].
    simpl app in SD. inversion SD as [| | |col' rs l ca cb cc pwa pwb qs CD SD2]; subst.
    destruct (IH (S col) cb _ ltac:(lia) SD2) as (c1 & pw1 & made & SD3 & EV & FR & OR).
    { intros i k I0 K0. unfold joins. replace (k =? col)%nat with false by (symmetry; apply Nat.eqb_neq; lia). simpl. apply OFF; lia. }
    set (made' := fun r k => if (k =? col)%nat then nth (r - g) qs false else made r k).
    exists c1, pw1, made'. pose proof (cells_length _ _ _ _ _ _ _ CD) as LQ. rewrite seq_length in LQ.
    assert (EQ1 : forall r k, ~ ((g <= r < g + h)%nat /\ (col <= k)%nat) -> pw1 r k = pw r k).
    { intros r k D. rewrite FR by lia. unfold joins. rewrite in_seqb. destruct (k =? col)%nat eqn:KC; simpl; auto.
      apply Nat.eqb_eq in KC. replace ((g <=? r)%nat && (r <? g + h)%nat) with false; auto. symmetry. apply andb_false_iff.
      destruct (Nat.le_gt_cases g r); [right; apply Nat.ltb_ge; lia|left; apply Nat.leb_gt; lia]. }
    split; [auto|]. split; [|split; [exact EQ1|]].
    + cbn [seq flat_map]. eapply evaluates_app.
      * eapply evaluates_ext; [|eapply (cells_evaluate n col pw (seq g h) c qs cb CD)].
        -- intros n' r k Hin. apply in_map_iff in Hin as (r' & E & Hr). injection E as <- <- <-. split; [|reflexivity].
           destruct col as [|k0]; [reflexivity|]. simpl. symmetry. apply EQ1. lia.
        -- intros r Hr. apply in_seq in Hr. replace r with (g + (r - g))%nat by lia. apply OFF; lia.
        -- intros i r q H1 H2. unfold made'. rewrite Nat.eqb_refl. pose proof (nth_some_lt _ _ _ H1) as LT. rewrite seq_length in LT.
           assert (RR : r = (g + i)%nat).
           { pose proof (nth_error_nth _ _ 0%nat H1) as K. rewrite seq_nth in K by auto. lia. }
           subst r. replace (g + i - g)%nat with i by lia. apply nth_error_nth with (d := false) in H2. auto.
      * eapply evaluates_ext; [|exact EV]. intros n' r k Hin. apply in_flat_map in Hin as (k' & K & Hin). apply in_seq in K.
        apply in_map_iff in Hin as (r' & E & Hr). injection E as <- <- <-. split; [reflexivity|]. unfold made'.
        replace (k' =? col)%nat with false; auto. symmetry. apply Nat.eqb_neq. lia.
    + intros k i K0 I0. destruct (Nat.eq_dec k col) as [->|D].
      * rewrite FR by lia. unfold joins. rewrite Nat.eqb_refl, in_seqb. replace ((g <=? g + i)%nat && (g + i <? g + h)%nat) with true.
        2:{ symmetry. apply andb_true_iff. split; [apply Nat.leb_le; lia|apply Nat.ltb_lt; lia]. }
        simpl. unfold made'. rewrite Nat.eqb_refl.
        clear -LQ. revert g h LQ. induction qs as [|q qs IHq]; intros g h LQ; destruct h as [|h]; simpl in *; try lia; auto.
        unfold id at 1. rewrite Nat.sub_diag. f_equal. injection LQ as LQ. rewrite (IHq (S g) h LQ).
        apply existsb_ext. intros x Hx. apply in_seq in Hx. replace (x - g)%nat with (S (x - S g)) by lia. reflexivity.
      * rewrite OR by lia. apply existsb_ext. intros x _. unfold made'. replace (k =? col)%nat with false; auto.
        symmetry. now apply Nat.eqb_neq.
Qed.

(** All groups. *)
Lemma groups_evaluate hs : forall f g c pw c2 pw2, (0 < cols)%nat -> segs g hs -> (rows <= g + f)%nat ->
  steps_do n (net_steps rows cols code bar f g) c pw c2 pw2 -> (forall r k, (g <= r)%nat -> pw r k = false) ->
  exists made, evaluates (fun _ => pw2) (fun _ => made) (seg_cells g hs) c c2 /\ seg_ors pw2 made g hs
    /\ (forall r k, (r < g)%nat -> pw2 r k = pw r k).
Proof.
  induction hs as [|h t IH]; intros f g c pw c2 pw2 C0 SG Hf SD OFF.
  - simpl in SG. subst g. exists all_off.
    assert (Z : net_steps rows cols code bar f rows = []) by (destruct f; simpl; auto; now rewrite Nat.ltb_irrefl).
    rewrite Z in SD. inversion SD; subst. split; [constructor|]. simpl. auto.
  - pose proof (segs_bound _ _ SG) as [LE _]. cbn [segs] in SG. destruct SG as (HB & MU & SG).
    pose proof (segs_bound _ _ SG) as [LE2 NX]. destruct f as [|f]; [unfold adv in *; lia|].
    cbn [net_steps] in SD. rewrite ltb_true in SD by (unfold adv in *; lia).
    unfold rung_steps in SD. destruct h as [|h].
    + (* continuation row *)
      simpl in MU. rewrite MU in SD. simpl app in SD. inversion SD; subst.
      unfold next_rung in *. rewrite MU in *. change (adv 0) with 1%nat in *. replace (g + 1)%nat with (S g) in * by lia.
      destruct (IH f (S g) c pw c2 pw2 C0 SG ltac:(lia) ltac:(assumption)) as (made & EV & OR & FR); [intros; apply OFF; lia|].
      exists made. cbn [seg_cells seg_ors]. change (adv 0) with 1%nat. replace (g + 1)%nat with (S g) by lia.
      split; [|split; [split; [intros; lia|exact OR]|intros; apply FR; lia]].
      replace (flat_map (fun col => map (fun r : nat => (n, r, col)) (seq g 0)) (seq 0 cols)) with (@nil (nat * nat * nat)); [exact EV|].
      induction (seq 0 cols); simpl; auto.
    + change (S h =? 0)%nat with false in MU. rewrite MU in SD. change (adv (S h)) with (S h) in *.
      assert (NB : (g + S h)%nat = rows \/ forall col, (col < cols)%nat -> bar (g + S h)%nat col = false) by exact NX.
      simpl app in SD. inversion SD as [|l ca pwa cb pwb SD2| |]; subst. rewrite <- app_assoc in SD2.
      destruct (columns_evaluate g (S h) _ c2 pw2 ltac:(lia) LE2 HB NB cols 0 c pw ltac:(lia) SD2) as (c1 & pw1 & made & SD3 & EV & FR & OR).
      { intros; apply OFF; lia. }
      simpl app in SD3. inversion SD3 as [| |l ca pwa cb pwb SD4|]; subst.
      assert (NR : next_rung rows code bar g = (g + S h)%nat).
      { unfold next_rung. rewrite MU. rewrite (group_seg g (S h) 0); auto; [now rewrite seq_length|lia|intros; apply HB; auto|].
        destruct NB as [?|NB]; [auto|right; apply NB; auto]. }
      rewrite NR in SD4.
      destruct (IH f (g + S h)%nat c1 pw1 c2 pw2 C0 SG ltac:(lia) SD4) as (made2 & EV2 & OR2 & FR2).
      { intros r k Hr. rewrite FR by lia. apply OFF. lia. }
      set (made' := fun r k => if (r <? g + S h)%nat then made r k else made2 r k).
      exists made'. cbn [seg_cells seg_ors]. change (adv (S h)) with (S h). split; [|split; [split|]].
      * eapply evaluates_app.
        -- eapply evaluates_ext; [|exact EV]. intros n' r k Hin. apply in_flat_map in Hin as (k' & K & Hin). apply in_seq in K.
           apply in_map_iff in Hin as (r' & E & Hr). injection E as <- <- <-. apply in_seq in Hr. split.
           ++ destruct k' as [|k0]; [reflexivity|]. simpl. symmetry. apply FR2. lia.
           ++ unfold made'. now rewrite ltb_true by lia.
        -- eapply evaluates_ext; [|exact EV2]. intros n' r k Hin. split; [reflexivity|]. unfold made'. rewrite ltb_false; auto.
           clear -Hin. revert Hin. generalize (g + S h)%nat as g0. clear. induction t as [|h t IH]; intros g0 Hin; simpl in Hin; [contradiction|].
           apply in_app_iff in Hin as [Hin|Hin].
           ++ apply in_flat_map in Hin as (k' & K & Hin). apply in_map_iff in Hin as (r' & E & Hr). injection E as <- <- <-. apply in_seq in Hr. lia.
           ++ apply IH in Hin. lia.
      * intros col i C I0. rewrite FR2 by lia. rewrite OR by lia. apply existsb_ext. intros x Hx. apply in_seq in Hx. unfold made'. now rewrite ltb_true by lia.
      * assert (GE : forall t g0, (g + S h <= g0)%nat -> seg_ors pw2 made2 g0 t -> seg_ors pw2 made' g0 t).
        { clear. induction t as [|h2 t IH]; intros g0 L H; simpl in *; auto. destruct H as [H1 H2]. split; [|apply IH; [lia|auto]].
          intros col i C I0. rewrite H1 by auto. apply existsb_ext. intros x Hx. apply in_seq in Hx. unfold made'. now rewrite ltb_false by lia. }
        apply GE; auto.
      * intros r k Hr. rewrite FR2 by lia. apply FR. lia.
Qed.
End G.

Lemma seg_cells_none n hs g : seg_cells n 0 g hs = [].
Proof. revert g. induction hs as [|h t IH]; intros g; simpl; auto. Qed.
Lemma seg_cells_net n cols hs g n' r col : In (n', r, col) (seg_cells n cols g hs) -> n' = n.
Proof.
  revert g. induction hs as [|h t IH]; intros g H; simpl in H; [contradiction|]. apply in_app_iff in H as [H|H]; [|eauto].
  apply in_flat_map in H as (k & _ & H). apply in_map_iff in H as (r' & E & _). congruence.
Qed.
(** All networks. *)
Lemma nets_evaluate prog P HS l c c' : nets_do prog P l c c' -> NoDup l ->
  (forall n rows cols, In n l -> peek prog (LNet n) = Some (VNet true rows cols) ->
     (0 < cols)%nat /\ segs rows cols (code_at prog n) (bar_at prog n) 0 (HS n)) ->
  exists Q, evaluates P Q (flat_map (fun n => seg_cells n (snd (size_of prog n)) 0 (HS n)) l) c c'
    /\ forall n rows cols, In n l -> peek prog (LNet n) = Some (VNet true rows cols) -> seg_ors cols (P n) (Q n) 0 (HS n).
Proof.
  induction 1 as [c|n l c c1 c2 pw SD EQ ND IH]; intros DUP HYP.
  - exists (fun _ => all_off). split; [constructor|]. intros n rows cols [].
  - inversion DUP as [|? ? NI DUP']; subst.
    destruct IH as (Q & EV & OR); auto. { intros; eapply HYP; simpl; eauto. }
    assert (NW : exists made, evaluates P (fun _ => made) (seg_cells n (snd (size_of prog n)) 0 (HS n)) c c1
       /\ forall rows cols, peek prog (LNet n) = Some (VNet true rows cols) -> seg_ors cols (P n) made 0 (HS n)).
    { unfold plan in SD. unfold size_of. destruct (peek prog (LNet n)) as [[| | | | | |[|] rows cols| | | | | | | | | | ]|] eqn:N;
        try (inversion SD; subst; exists all_off; simpl snd; rewrite seg_cells_none; split; [constructor|intros; discriminate]).
      destruct (HYP n rows cols ltac:(simpl; auto) N) as [C0 SG].
      destruct (groups_evaluate n rows cols (code_at prog n) (bar_at prog n) (HS n) rows 0 c all_off c1 pw C0 SG ltac:(lia) SD) as (made & EV1 & OR1 & _).
      { reflexivity. }
      exists made. simpl snd. split.
      - eapply evaluates_ext; [|exact EV1]. intros n' r col Hin. apply seg_cells_net in Hin. subst n'. split; [|reflexivity].
        destruct col as [|k]; simpl; auto.
      - intros rows' cols' K. injection K as <- <-. clear -EQ OR1. revert OR1. generalize 0%nat. induction (HS n) as [|h t IH]; intros g OR1; simpl in *; auto.
        destruct OR1 as [H1 H2]. split; auto. intros col i C I0. rewrite EQ. auto. }
    destruct NW as (made & EV1 & OR1).
    exists (fun k => if (k =? n)%nat then made else Q k). split.
    + simpl. eapply evaluates_app.
      * eapply evaluates_ext; [|exact EV1]. intros n' r col Hin. apply seg_cells_net in Hin. subst n'. now rewrite Nat.eqb_refl.
      * eapply evaluates_ext; [|exact EV]. intros n' r col Hin. apply in_flat_map in Hin as (k & K & Hin). apply seg_cells_net in Hin. subst n'.
        replace (k =? n)%nat with false; auto. symmetry. apply Nat.eqb_neq. congruence.
    + intros k rows cols [<-|K] N; [rewrite Nat.eqb_refl; eauto|].
      replace (k =? n)%nat with false; [eauto|]. symmetry. apply Nat.eqb_neq. congruence.
Qed.

Lemma groups_segs c n cols hs : forall g rows, groups_from c n cols g hs -> (g + total hs = rows)%nat ->
  segs rows cols (code_at c n) (bar_at c n) g hs.
Proof.
  induction hs as [|h t IH]; intros g rows G T; simpl in *; [lia|]. destruct G as (H0 & HB & MU & G). split; [auto|]. split.
  - rewrite MU. symmetry. apply Nat.eqb_neq. lia.
  - unfold adv. replace (Nat.max 1 h) with h by lia. apply IH; auto. lia.
Qed.
Lemma group_seg_cells n cols hs : forall g, (forall h, In h hs -> (0 < h)%nat) -> seg_cells n cols g hs = group_cells n cols g hs.
Proof.
  induction hs as [|h t IH]; intros g H; simpl; auto. f_equal. unfold adv. replace (Nat.max 1 h) with h by (specialize (H h); simpl in H; lia).
  apply IH. intros; apply H; simpl; auto.
Qed.
Lemma seg_ors_ors cols pw made hs : forall g, (forall h, In h hs -> (0 < h)%nat) -> seg_ors cols pw made g hs -> ors cols pw made g hs.
Proof.
  induction hs as [|h t IH]; intros g H O; simpl in *; auto. destruct O as [O1 O2]. split; auto.
  unfold adv in O2. replace (Nat.max 1 h) with h in O2 by (specialize (H h); lia). apply IH; auto.
Qed.
Lemma groups_pos c n cols hs : forall g, groups_from c n cols g hs -> forall h, In h hs -> (0 < h)%nat.
Proof.
  induction hs as [|a t IH]; intros g G h H; [contradiction|]. simpl in G. destruct H as [<-|H]; [apply G|]. eapply IH; [apply G|auto].
Qed.

(** Rows one by one. *)
Definition single (c : ctx) (n r : nat) : nat := if multi (code_at c n r 0) then 0%nat else 1%nat.
Lemma adv_single c n r : adv (single c n r) = 1%nat. Proof. unfold single. now destruct (multi _). Qed.
Lemma single_segs c n rows cols : forall k g, (g + k = rows)%nat ->
  (forall r col, (r < rows)%nat -> (col < cols)%nat -> bar_at c n r col = false) ->
  segs rows cols (code_at c n) (bar_at c n) g (map (single c n) (seq g k)).
Proof.
  induction k as [|k IH]; intros g E NB; simpl; [lia|]. rewrite adv_single. split; [|split].
  - intros col C. split; [apply NB; lia|]. unfold single. destruct (multi _); intros; lia.
  - unfold single. now destruct (multi _).
  - replace (g + 1)%nat with (S g) by lia. apply IH; auto. lia.
Qed.
Lemma single_cells c n : forall k g, seg_cells n (snd (size_of c n)) g (map (single c n) (seq g k)) = flat_map (row_cells c n) (seq g k).
Proof.
  induction k as [|k IH]; intros g; simpl; auto. rewrite adv_single. replace (g + 1)%nat with (S g) by lia. rewrite IH. f_equal.
  unfold row_cells, single. destruct (multi _).
  - induction (seq 0 (snd (size_of c n))); simpl; auto.
  - simpl. induction (seq 0 (snd (size_of c n))) as [|x l IHl]; simpl; [reflexivity|]. now rewrite <- IHl.
Qed.
Lemma single_ors c n cols pw made : forall k g, seg_ors cols pw made g (map (single c n) (seq g k)) ->
  forall r col, (g <= r < g + k)%nat -> (col < cols)%nat -> multi (code_at c n r 0) = false -> pw r col = made r col.
Proof.
  induction k as [|k IH]; intros g O r col R C M; [lia|]. simpl in O. rewrite adv_single in O. destruct O as [O1 O2].
  replace (g + 1)%nat with (S g) in O2 by lia. destruct (Nat.eq_dec r g) as [->|D]; [|apply (IH (S g)); auto; lia].
  specialize (O1 col 0%nat C). unfold single in O1. rewrite M in O1. specialize (O1 ltac:(lia)). simpl in O1. rewrite orb_false_r in O1.
  now rewrite Nat.add_0_r in O1.
Qed.
