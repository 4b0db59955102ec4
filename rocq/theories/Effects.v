(** Frames of the explicit context updates, in the vocabulary of SpecRun. *)
From Verif Require Export InstrLemmas SpecRun.

Lemma effect_pow c n r col b : effect c (put_pow n r col b c) [(n, r, col)] None [].
Proof.
  split.
  - intros l Hl. apply put_pow_frame. intros ->. apply Hl. left. exists n, r, col; simpl; auto.
  - intros (v & [] & _).
Qed.
Lemma effect_mark c v : effect c (mark c v) [] None [v].
Proof.
  split.
  - intros l Hl. destruct (bad_b c v) eqn:Hb.
    + apply mark_frame. intros ->. apply Hl. right; right. split; auto. exists v; simpl; split; auto. apply bad_b_spec; auto.
    + unfold mark; rewrite Hb; auto.
  - intros (w & [<-|[]] & Hb). rewrite (mark_bad _ _ Hb). auto.
Qed.
Lemma effect_wr c v w : effect c (wr v w c) [] (Some v) [].
Proof. split; [|intros (u & [] & _)]. intros l Hl. apply wr_frame. intros H; apply Hl. right; left; eauto. Qed.
Lemma effect_refl c : effect c c [] None [].
Proof. split; [apply changes_refl|intros (u & [] & _)]. Qed.

(** Steps compose as long as the first one leaves the stores alone and the second one does not unmark. *)
Definition keeps_mark (c c' : ctx) : Prop := peek c LErr = Some (VErr E_OUTOFRANGE) -> peek c' LErr = Some (VErr E_OUTOFRANGE).
Lemma effect_seq a b c k1 k2 u1 u2 d :
  same_store a b -> keeps_mark b c -> effect a b k1 None u1 -> effect b c k2 d u2 -> effect a c (k1 ++ k2) d (u1 ++ u2).
Proof.
  intros Hs Hk (F1 & M1) (F2 & M2). split.
  - intros l Hl. rewrite F2, F1; auto.
    + intros [(n & r & col & H1 & H2)|[(v & H1 & H2)|(H1 & v & H2 & H3)]]; apply Hl.
      * left. exists n, r, col; split; auto. apply in_or_app; auto.
      * discriminate.
      * right; right; split; auto. exists v; split; auto. apply in_or_app; auto.
    + intros [(n & r & col & H1 & H2)|[(v & H1 & H2)|(H1 & v & H2 & H3)]]; apply Hl.
      * left. exists n, r, col; split; auto. apply in_or_app; auto.
      * right; left. exists v; split; auto. rewrite <- (target_same a b); auto.
      * right; right; split; auto. exists v; split; [apply in_or_app; auto|]. rewrite <- (bad_index_same a b); auto.
  - intros (v & Hv & Hb). apply in_app_or in Hv as [Hv|Hv].
    + apply Hk, M1; eauto.
    + apply M2. exists v; split; auto. rewrite (bad_index_same a b); auto.
Qed.
Lemma effect_incl a b k k' d u u' : (forall x, In x k -> In x k') -> (forall v, In v u <-> In v u') ->
  effect a b k d u -> effect a b k' d u'.
Proof.
  intros H1 H2 (F & Mk). split.
  - intros l Hl. apply F. intros [(n & r & col & A & B)|[A|(A & v & B & D)]]; apply Hl; [left|right; left|right; right]; auto.
    + exists n, r, col; auto.
    + split; auto. exists v; split; auto. apply H2; auto.
  - intros (v & Hv & Hb). apply Mk. exists v; split; auto. apply H2; auto.
Qed.
Lemma keeps_pow n r col b c : keeps_mark c (put_pow n r col b c).
Proof. unfold keeps_mark. rewrite put_pow_frame by discriminate; auto. Qed.
Lemma keeps_mk c v : keeps_mark c (mark c v).
Proof. unfold keeps_mark, mark. destruct (bad_b c v); auto. Qed.
Lemma keeps_wr c v w : keeps_mark c (wr v w c).
Proof.
  unfold keeps_mark. rewrite wr_frame; auto. intros H. apply target_shape in H. destruct H.
Qed.
Lemma keeps_trans a b c : keeps_mark a b -> keeps_mark b c -> keeps_mark a c.
Proof. unfold keeps_mark; auto. Qed.

(** The composite updates produced by the instructions. *)
Lemma effect_two c v0 v1 : effect c (two c v0 v1) [] None [v0; v1].
Proof. unfold two. apply (effect_seq c (mark c v0) _ [] [] [v0] [v1]); auto using store_mark, keeps_mk, effect_mark. Qed.
Lemma store_two c v0 v1 : same_store c (two c v0 v1).
Proof. eapply store_trans; apply store_mark. Qed.
Lemma keeps_two c v0 v1 : keeps_mark c (two c v0 v1).
Proof. eapply keeps_trans; apply keeps_mk. Qed.

Lemma stores_wr c0 c v w : same_store c0 c -> stores_ok c -> stores c0 v w (wr v w c).
Proof. intros H1 H2 l Hl. apply wr_here; auto. rewrite (target_same c0 c); auto. Qed.
Lemma powered_wr c v w n r col b : powered c n r col b -> powered (wr v w c) n r col b.
Proof.
  unfold powered. intros H. rewrite wr_frame; auto. intros Ht. apply target_shape in Ht. destruct Ht.
Qed.
Lemma powered_mark c v n r col b : powered c n r col b -> powered (mark c v) n r col b.
Proof. unfold powered. rewrite mark_frame by discriminate; auto. Qed.
Lemma powered_two c v0 v1 n r col b : powered c n r col b -> powered (two c v0 v1) n r col b.
Proof. intros; apply powered_mark, powered_mark; auto. Qed.
Lemma runs_intro E i f r col s e c' : ladder_function E i = Some f -> f col r s = Ok (e, inc s c') -> runs E i r col s e c'.
Proof. unfold runs, outcome. intros -> H; simpl. rewrite H; auto. Qed.
Lemma undef_intro E i f r col s u : ladder_function E i = Some f -> f col r s = Bad u -> undefined E i r col s u.
Proof. unfold undefined, outcome. intros -> H; simpl. rewrite H; auto. Qed.

(** A last step that only changes the power of cells. *)
Lemma effect_then_pow a b n r col q k d u : effect a b k d u -> effect a (put_pow n r col q b) (k ++ [(n, r, col)]) d u.
Proof.
  intros (F & Mk). split.
  - intros l Hl. rewrite put_pow_frame.
    + apply F. intros [(n' & r' & col' & A & B)|A]; apply Hl; [left|right]; auto.
      exists n', r', col'; split; auto. apply in_or_app; auto.
    + intros ->. apply Hl. left. exists n, r, col; split; auto. apply in_or_app; simpl; auto.
  - intros H. apply keeps_pow; auto.
Qed.
Lemma effect_marked_pow c v n r col q : effect c (put_pow n r col q (mark c v)) [(n, r, col)] None [v].
Proof. apply (effect_then_pow c (mark c v) n r col q [] None [v]), effect_mark. Qed.
Lemma effect_two_pow c v0 v1 n r col q : effect c (put_pow n r col q (two c v0 v1)) [(n, r, col)] None [v0; v1].
Proof. apply (effect_then_pow c (two c v0 v1) n r col q [] None [v0; v1]), effect_two. Qed.
Lemma effect_pow_wr c n r col q v w : effect c (wr v w (put_pow n r col q c)) [(n, r, col)] (Some v) [].
Proof.
  apply (effect_seq c (put_pow n r col q c) _ [(n, r, col)] [] [] [] (Some v)).
  - apply store_pow. - apply keeps_wr. - apply effect_pow. - apply effect_wr.
Qed.
Lemma effect_pow_mark c n r col q v : effect c (mark (put_pow n r col q c) v) [(n, r, col)] None [v].
Proof.
  apply (effect_seq c (put_pow n r col q c) _ [(n, r, col)] [] [] [v] None).
  - apply store_pow. - apply keeps_mk. - apply effect_pow. - apply effect_mark.
Qed.
Lemma effect_pow_two c n r col q v0 v1 : effect c (two (put_pow n r col q c) v0 v1) [(n, r, col)] None [v0; v1].
Proof.
  apply (effect_seq c (put_pow n r col q c) _ [(n, r, col)] [] [] [v0; v1] None).
  - apply store_pow. - apply keeps_two. - apply effect_pow. - apply effect_two.
Qed.
Lemma effect_then_wr a b k u v w : same_store a b -> effect a b k None u -> effect a (wr v w b) k (Some v) u.
Proof.
  intros Hs H. replace k with (k ++ []) by apply app_nil_r. replace u with (u ++ []) by apply app_nil_r.
  apply (effect_seq a b); auto using keeps_wr, effect_wr.
Qed.
