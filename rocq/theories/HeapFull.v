(** Calls between ladder_ctx_init and ladder_ctx_deinit; what the machine owns. *)
From Coq Require Import Permutation.
From Verif Require Export HeapInit SpecHeap.
From Coq Require Import Lia List.
Import ListNotations.
Open Scope nat_scope.

Lemma full_upd a l m R s l' m' s' : full a l m R s -> g_net (s_g s') = g_net (s_g s) -> g_nets (s_g s') = g_nets (s_g s) ->
  g_m (s_g s') = g_m (s_g s) -> g_c (s_g s') = g_c (s_g s) -> g_t (s_g s') = g_t (s_g s) -> length l' = length l -> Forall net_ok l' ->
  v_reg m' = v_reg m -> rep m' (s_g s') -> whole_m m' -> good s' (nets a l' ++ own m' ++ R) -> full a l' m' R s'.
Proof.
  intros (A1 & A2 & A3 & A4 & A5 & A6 & A7 & A8) E1 E2 E3 E4 E5 LL OK ER RP CR K. unfold full. rewrite E1, E2, E3, E4, E5, ER, LL.
  auto 20.
Qed.
Lemma full_nets a l m R s l' s' : full a l m R s -> s_g s' = s_g s -> length l' = length l -> Forall net_ok l' -> good s' (nets a l' ++ own m ++ R) -> full a l' m R s'.
Proof.
  intros F E LL OK K. eapply full_upd; [exact F|..]; try (rewrite E; reflexivity); auto; [rewrite E; apply F|apply F].
Qed.

Section Grant.
Variable G : nat -> bool.
(** calls that cannot damage the machine *)
Definition fine (k : hcall) : Prop := frugal k \/ (harmless k /\ forall j, G j = true).

Lemma call_ok a l m R s k : full a l m R s -> spanned k ->
  wp (h_call G k) (fun _ s' => exists l' m', full a l' m' R s' /\ (Exists hollow_t l' -> Exists hollow_t l \/ ~ fine k))
     (fun u => u = H_null /\ (Exists hollow_t l \/ ~ fine k)) s.
Proof.
  intros F SP. pose proof F as (A1 & A2 & A3 & A4 & A5 & A6 & A7 & A8). pose proof A7 as [VC VF]. pose proof A4 as (LR & ER & EF & EFQ & R1 & R2 & R3 & IR & W1 & W2 & W3 & IW & EC).
  destruct k as [ini|ini|q|q|nt row c i cells dq| |doc]; simpl h_call.
  - rewrite add_read_io. apply wp_bind, wp_getg. rewrite R1, R2, R3.
    eapply wp_mono; [eapply wp_add_io with (i := v_rd m) (R := nets a l ++ own_regs (v_reg m) ++ own_for (v_for m) ++ own_io (v_wr m) ++ own_cr (v_cr m) ++ R)
      (B := fun _ => False); [reflexivity|reflexivity| |exact IR|]| |intros u Z; destruct Z].
    { rewrite <- R1, <- R2, <- R3. destruct (s_g s); reflexivity. }
    { eapply good_perm; [exact A8|]. unfold own. perm. }
    intros b s' (i' & q & E' & OK' & K'). exists l, (mk_mach (v_reg m) (v_for m) i' (v_wr m) (v_cr m)). split; [|auto].
    eapply full_upd; [exact F|..]; try (rewrite E'; reflexivity); auto.
    + rewrite E'. unfold rep. simpl. auto 20.
    + eapply good_perm; [exact K'|]. unfold own. simpl. perm.
  - rewrite add_write_io. apply wp_bind, wp_getg. rewrite W1, W2, W3.
    eapply wp_mono; [eapply wp_add_io with (i := v_wr m) (R := nets a l ++ own_regs (v_reg m) ++ own_for (v_for m) ++ own_io (v_rd m) ++ own_cr (v_cr m) ++ R)
      (B := fun _ => False); [reflexivity|reflexivity| |exact IW|]| |intros u Z; destruct Z].
    { rewrite <- W1, <- W2, <- W3. destruct (s_g s); reflexivity. }
    { eapply good_perm; [exact A8|]. unfold own. perm. }
    intros b s' (i' & q & E' & OK' & K'). exists l, (mk_mach (v_reg m) (v_for m) (v_rd m) i' (v_cr m)). split; [|auto].
    eapply full_upd; [exact F|..]; try (rewrite E'; reflexivity); auto.
    + rewrite E'. unfold rep. simpl. auto 20.
    + eapply good_perm; [exact K'|]. unfold own. simpl. perm.
  - unfold h_add_foreign. apply wp_bind, wp_getg.
    assert (SAME : forall s', s_g s' = s_g s -> good s' (nets a l ++ own m ++ R) -> exists l' m', full a l' m' R s' /\ (Exists hollow_t l' -> Exists hollow_t l \/ ~ fine (K_foreign q))).
    { intros s' E' K'. exists l, m. split; [eapply full_nets; eauto|auto]. }
    destruct ((q =? 0) || (100 <? g_fq (s_g s) + q)). { apply wp_ret. auto. }
    set (RR := nets a l ++ own_regs (v_reg m) ++ own_io (v_rd m) ++ own_io (v_wr m) ++ own_cr (v_cr m) ++ R).
    assert (KF : good s (ob B_fors (v_for m) ++ flat_map optr (ol (v_for m)) ++ RR)).
    { eapply good_perm; [exact A8|]. unfold own, own_for, RR. perm. }
    assert (STEP : forall d s1, s_g s1 = s_g s -> good s1 (ob B_fors (v_for m) ++ optr d ++ flat_map optr (ol (v_for m)) ++ RR) ->
      wp (do! t <- (if g_fq (s_g s) =? 0 then h_alloc G (B_fors [d]) else h_grow G (g_fn (s_g s)) (grow_fors d));
          if is_nil t then run! h_free d; hret false else run! modg (set_gfor (S (g_fq (s_g s))) t); hret true)
         (fun _ s' => exists l' m', full a l' m' R s' /\ (Exists hollow_t l' -> Exists hollow_t l \/ ~ fine (K_foreign q)))
         (fun u => u = H_null /\ (Exists hollow_t l \/ ~ fine (K_foreign q))) s1).
    { intros d s1 E1 K1. apply wp_bind.
      apply wp_mono with (Q := fun t s2 => s_g s2 = s_g s /\ match t with
           | Some b => good s2 ((b, B_fors (ol (v_for m) ++ [d])) :: optr d ++ flat_map optr (ol (v_for m)) ++ RR)
           | None => good s2 (ob B_fors (v_for m) ++ optr d ++ flat_map optr (ol (v_for m)) ++ RR) end) (B := fun _ => False); [| |intros u []].
      - rewrite EF, EFQ. destruct (v_for m) as [[fa fl]|] eqn:EV; simpl ol in *.
        + destruct (length fl =? 0) eqn:EL.
          * apply Nat.eqb_eq in EL. destruct fl; [|discriminate]. discriminate (VF eq_refl).
          * eapply wp_grow with (f := B_fors) (o := Some (fa, fl)); [exact K1| |]; intros; (split; [congruence|]); auto.
        + simpl. eapply wp_alloc; [exact K1| |]; intros; (split; [congruence|]); auto.
      - intros t s2 (E2 & K2). destruct t as [b|]; simpl is_nil; cbv iota.
        + apply wp_bind, wp_modg, wp_ret. exists l, (mk_mach (v_reg m) (Some (b, ol (v_for m) ++ [d])) (v_rd m) (v_wr m) (v_cr m)). split; [|auto].
          assert (WH : whole_m (mk_mach (v_reg m) (Some (b, ol (v_for m) ++ [d])) (v_rd m) (v_wr m) (v_cr m))).
          { split; simpl; auto. destruct (ol (v_for m)); discriminate. }
          eapply full_upd; [exact F|..]; try (simpl; rewrite E2; reflexivity); auto.
          * simpl s_g. rewrite E2. unfold rep. simpl. rewrite app_length. simpl. rewrite EFQ. repeat (split; [auto; lia|]). auto.
          * apply good_g. eapply good_perm; [destruct s2; exact K2|]. unfold own, own_for, RR. simpl. perm.
        + apply wp_bind. eapply wp_free_opt with (L := nets a l ++ own m ++ R); [eapply good_perm; [exact K2|]; unfold own, own_for, RR; perm|].
          intros s3 E3 _ K3. apply wp_ret. apply SAME; [congruence|auto]. }
    apply wp_bind. eapply wp_alloc; [exact KF| |]; intros s1 E1 _ _ K1; apply STEP; auto.
    eapply good_perm; [exact K1|]. simpl. perm.
  - unfold h_cron_init. apply wp_bind, wp_getg. rewrite EC. destruct (v_cr m) as [[cr j]|] eqn:EV; [|congruence]. simpl op. apply wp_bind.
    assert (KC : good s ((cr, B_cron j) :: optr j ++ nets a l ++ own_regs (v_reg m) ++ own_for (v_for m) ++ own_io (v_rd m) ++ own_io (v_wr m) ++ R)).
    { eapply good_perm; [exact A8|]. unfold own. rewrite EV. simpl. perm. }
    eapply wp_load; [exact KC|left; reflexivity|]. apply wp_bind, wp_ret. destruct j as [j|]; simpl is_nil; simpl negb; cbv iota.
    { apply wp_ret. exists l, m. auto. }
    simpl in KC. apply wp_bind.
    assert (DONE : forall p s', s_g s' = s_g s ->
      good s' ((cr, B_cron p) :: optr p ++ nets a l ++ own_regs (v_reg m) ++ own_for (v_for m) ++ own_io (v_rd m) ++ own_io (v_wr m) ++ R) ->
      exists l' m', full a l' m' R s' /\ (Exists hollow_t l' -> Exists hollow_t l \/ ~ fine (K_cron q))).
    { intros p s' E' K'. exists l, (mk_mach (v_reg m) (v_for m) (v_rd m) (v_wr m) (Some (cr, p))). split; [|auto].
      eapply full_upd; [exact F|..]; try (rewrite E'; reflexivity); auto.
      - rewrite E'. unfold rep. simpl. auto 20.
      - split; simpl; [discriminate|auto].
      - eapply good_perm; [exact K'|]. unfold own. simpl. perm. }
    eapply wp_alloc; [exact KC| |]; intros s1 E1 _ GG K1; simpl is_nil; apply wp_bind.
    + eapply wp_store with (b := B_cron None); [eapply good_perm; [exact K1|apply perm_swap]|]. intros s2 E2 _ K2. rewrite Bool.andb_false_r. apply wp_ret.
      eapply DONE; [congruence|exact K2].
    + eapply wp_store; [exact K1|]. intros s2 E2 _ K2. destruct (0 <? q) eqn:LQ; simpl andb; cbv iota.
      * apply wp_bad. split; auto. right. intros [Z|[_ Z]]; [simpl in Z; subst q; discriminate|rewrite Z in GG; discriminate].
      * apply wp_ret. apply DONE with (p := None); [congruence|exact K2].
  - simpl in SP. eapply wp_mono; [eapply wp_fn_cell; eauto| |].
    + intros b s' (E' & l' & LL & OK' & K' & HO). exists l', m. split; [eapply full_nets; eauto|auto].
    + intros u [Z1 Z2]. auto.
  - apply wp_bind. eapply wp_mono; [eapply clear_ok; eauto| |].
    + intros u s' (E' & K'). apply wp_ret. exists (map clr_net l), m. split.
      * eapply full_nets; eauto; [apply map_length|]. apply Forall_forall. intros x I. apply in_map_iff in I as (y & <- & I). rewrite Forall_forall in A3. apply net_ok_clr. auto.
      * intro Z. left. apply Exists_exists in Z as (x & I & Hx). apply in_map_iff in I as (y & <- & I). apply (proj1 (hollow_clr y)) in Hx. apply Exists_exists. exists y. auto.
    + intros u [Z1 Z2]. auto.
  - destruct doc as [doc|]; [|apply wp_ret; exists l, m; auto].
    assert (PF : ~ plenty_doc G doc -> ~ fine (K_load (Some doc))).
    { intros N [[]|[Z1 Z2]]. apply N. split; auto. }
    eapply wp_mono; [eapply wp_load_json; eauto| |].
    + intros b s' (E' & l' & LL & OK' & K' & HO). exists l', m. split; [eapply full_nets; eauto|]. intro Z. apply HO in Z. tauto.
    + intros u [Z1 Z2]. split; auto. tauto.
Qed.
Lemma calls_ok a R ks : forall l m s, full a l m R s -> Forall spanned ks ->
  wp (h_calls G ks) (fun _ s' => exists l' m', full a l' m' R s' /\ (Exists hollow_t l' -> Exists hollow_t l \/ ~ Forall fine ks))
     (fun u => u = H_null /\ (Exists hollow_t l \/ ~ Forall fine ks)) s.
Proof.
  induction ks as [|k ks IH]; intros l m s F SP; simpl.
  - apply wp_ret. exists l, m. auto.
  - inversion SP as [|? ? SK SS]; subst. apply wp_bind. eapply wp_mono; [eapply call_ok; eauto| |].
    + intros b s1 (l1 & m1 & F1 & H1). eapply wp_mono; [eapply IH; eauto| |].
      * intros u s2 (l2 & m2 & F2 & H2). exists l2, m2. split; auto. intro Z. apply H2 in Z as [Z|Z].
        -- apply H1 in Z as [Z|Z]; auto. right. intro Y. inversion Y; auto.
        -- right. intro Y. inversion Y; auto.
      * intros u [Z1 Z2]. split; auto. destruct Z2 as [Z|Z].
        -- apply H1 in Z as [Z|Z]; auto. right. intro Y. inversion Y; auto.
        -- right. intro Y. inversion Y; auto.
    + intros u [Z1 [Z|Z]]; split; auto. right. intro Y. inversion Y; auto.
Qed.
End Grant.

(** ** Trees and pointers *)
Lemma hollow_full a l m R s : full a l m R s -> (hollow s <-> Exists hollow_t l).
Proof.
  intros (A1 & A2 & A3 & A4 & A5 & A6 & A7 & A8). destruct A8 as [KY P].
  assert (FB : find_block (s_heap s) a = Some (B_nets (map hn l))).
  { eapply find_in; [exact KY|]. eapply Permutation_in; [apply Permutation_sym; exact P|]. left. reflexivity. }
  split.
  - intros (a' & l' & nt & w & E1 & E2 & LT & E3 & HR & HC). rewrite A1 in E1. injection E1 as <-. rewrite FB in E2. injection E2 as <-.
    rewrite nth_error_map in E3. destruct (nth_error l nt) as [n|] eqn:EN; [|discriminate]. simpl in E3. injection E3 as <-.
    apply Exists_exists. exists n. split; [eapply nth_error_In; eauto|]. simpl in HR, HC. split; auto. destruct (z_cells n); [discriminate|auto].
  - intro Z. apply Exists_exists in Z as (n & I & HR & HC). apply In_nth_error in I as (nt & EN).
    exists a, (map hn l), nt, (hn n). rewrite nth_error_map, EN. split; auto. split; auto.
    split; [rewrite A2; apply nth_error_Some; congruence|]. split; auto. split; auto. simpl. rewrite HC. reflexivity.
Qed.
Lemma live_in h a : live h a <-> In a (map fst h).
Proof.
  unfold live, find_block. induction h as [|[x b] h IH]; simpl; [tauto|]. destruct (x =? a) eqn:E.
  - apply Nat.eqb_eq in E. split; [auto|discriminate].
  - apply Nat.eqb_neq in E. rewrite IH. intuition.
Qed.

Section Reach.
Variables (h : list (nat * block)) (g : hctx).
Notation RC x := (reach h g x).
Definition allr (T : list (nat * block)) : Prop := forall x b, In (x, b) T -> RC x.
Definition allf (T : list (nat * block)) : Prop := forall x b, In (x, b) T -> find_block h x = Some b.
Lemma allr_nil : allr []. Proof. intros x b []. Qed.
Lemma allr_cons x b T : RC x -> allr T -> allr ((x, b) :: T).
Proof. intros A B y c [E|I]; [injection E as <- <-; auto|eauto]. Qed.
Lemma allr_app T U : allr T -> allr U -> allr (T ++ U).
Proof. intros A B y c I. apply in_app_iff in I as [I|I]; eauto. Qed.
Lemma allr_flat X (f : X -> list (nat * block)) l : (forall x, In x l -> allr (f x)) -> allr (flat_map f l).
Proof. intros A y c I. apply in_flat_map in I as (x & I1 & I2). eapply A; eauto. Qed.
Lemma allf_app T U : allf (T ++ U) -> allf T /\ allf U.
Proof. intro A. split; intros y c I; apply A; apply in_app_iff; auto. Qed.
Lemma allf_cons x b T : allf ((x, b) :: T) -> find_block h x = Some b /\ allf T.
Proof. intro A. split; [apply A; left; auto|intros y c I; apply A; right; auto]. Qed.
Lemma allf_flat X (f : X -> list (nat * block)) l x : allf (flat_map f l) -> In x l -> allf (f x).
Proof. intros A I y c J. apply A. apply in_flat_map. eauto. Qed.
Lemma allr_optr p : (forall x, p = Some x -> RC x) -> allr (optr p).
Proof. intros A. destruct p; simpl; [apply allr_cons; auto; apply allr_nil|apply allr_nil]. Qed.
Lemma step x b c : RC x -> find_block h x = Some b -> In (Some c) (pointers b) -> RC c.
Proof. intros A B C. eapply reach_next; eauto. Qed.

Lemma r_cell c : allf (own_cell c) -> (forall p, k_data (hc c) = Some p -> RC p) -> allr (own_cell c).
Proof.
  unfold own_cell. simpl. destruct (y_data c) as [[a l]|]; [|intros; apply allr_nil]. intros AF AR. apply allf_cons in AF as [F1 F2].
  apply allr_cons; [apply AR; reflexivity|]. apply allr_flat. intros v I. destruct v as [|p]; simpl; [apply allr_nil|]. apply allr_optr. intros x ->.
  eapply step; [apply AR; reflexivity|exact F1|]. simpl. apply in_map_iff. exists (V_str (Some x)). auto.
Qed.
Lemma r_row r : allf (own_row r) -> (forall p, hr r = Some p -> RC p) -> allr (own_row r).
Proof.
  unfold own_row. destruct r as [[a l]|]; [|intros; apply allr_nil]. intros AF AR. apply allf_cons in AF as [F1 F2].
  apply allr_cons; [apply AR; reflexivity|]. apply allr_flat. intros c I. apply r_cell; [eapply allf_flat; eauto|]. intros p E.
  eapply step; [apply AR; reflexivity|exact F1|]. simpl. rewrite map_map. apply in_map_iff. exists c. auto.
Qed.
Lemma r_net n : allf (own_net n) -> (forall p, w_cells (hn n) = Some p -> RC p) -> allr (own_net n).
Proof.
  unfold own_net. simpl. destruct (z_cells n) as [[a l]|]; [|intros; apply allr_nil]. intros AF AR. apply allf_cons in AF as [F1 F2].
  apply allr_cons; [apply AR; reflexivity|]. apply allr_flat. intros c I. apply r_row; [eapply allf_flat; eauto|]. intros p E.
  eapply step; [apply AR; reflexivity|exact F1|]. simpl. apply in_map_iff. exists c. auto.
Qed.
Lemma r_nets a l : g_net g = Some a -> allf (nets a l) -> allr (nets a l).
Proof.
  intros E AF. apply allf_cons in AF as [F1 F2]. assert (RC a) by (apply reach_root; unfold roots; left; auto).
  apply allr_cons; auto. apply allr_flat. intros n I. apply r_net; [eapply allf_flat; eauto|]. intros p EP. eapply step; [eauto|exact F1|].
  simpl. rewrite map_map. apply in_map_iff. exists n. auto.
Qed.
Lemma r_io i : (forall p, op (e_fn i) = Some p -> RC p) -> (forall p, op (e_ini i) = Some p -> RC p) -> (forall p, op (e_mod i) = Some p -> RC p) ->
  allf (own_io i) -> allr (own_io i).
Proof.
  unfold own_io. intros A1 A2 A3 AF. apply allr_app. { destruct (e_fn i) as [[? ?]|]; simpl; [apply allr_cons; [apply A1; reflexivity|]|]; apply allr_nil. }
  apply allr_app. { destruct (e_ini i) as [[? ?]|]; simpl; [apply allr_cons; [apply A2; reflexivity|]|]; apply allr_nil. }
  apply allf_app in AF as [_ AF]. apply allf_app in AF as [_ AF]. apply allf_app in AF as [AF _].
  destruct (e_mod i) as [[a l]|]; simpl in *; [|apply allr_nil]. apply allf_cons in AF as [AF _]. apply allr_cons; [apply A3; reflexivity|].
  apply allr_flat. intros m I. assert (ST : forall p, In (Some p) [d_1 m; d_2 m; d_3 m] -> RC p).
  { intros p J. eapply step; [apply A3; reflexivity|exact AF|]. simpl. apply in_flat_map. eauto. }
  unfold own_mod. repeat apply allr_app; apply allr_optr; intros x E; apply ST; rewrite <- E; simpl; auto.
Qed.
Lemma r_mach m : rep m g -> allf (own m) -> allr (own m).
Proof.
  intros (LR & ER & EF & EFQ & R1 & R2 & R3 & IR & W1 & W2 & W3 & IW & EC) AF. unfold own in *.
  assert (RT : forall p, In p [g_fn g; g_rd g; g_ird g; g_in g; g_wr g; g_iwr g; g_out g; g_cron g] -> forall x, p = Some x -> RC x).
  { intros p I x ->. apply reach_root. unfold roots. right. apply in_or_app. auto. }
  apply allf_app in AF as [_ AF]. apply allf_app in AF as [F1 AF]. apply allf_app in AF as [F2 AF]. apply allf_app in AF as [F3 F4].
  apply allr_app; [|apply allr_app; [|apply allr_app; [|apply allr_app]]].
  - apply allr_flat. intros [[x y]|] I; [|apply allr_nil]. apply allr_cons; [|apply allr_nil]. apply reach_root. unfold roots. right. apply in_or_app. left.
    rewrite ER. apply in_map_iff. exists (Some (x, y)). auto.
  - unfold own_for in *. apply allf_app in F1 as [F1 _]. destruct (v_for m) as [[a l]|]; simpl in *; [|apply allr_nil]. apply allf_cons in F1 as [F1 _].
    assert (RA : RC a) by (apply (RT (g_fn g)); auto). apply allr_cons; auto. apply allr_flat. intros p I. apply allr_optr. intros x ->.
    eapply step; [exact RA|exact F1|]. exact I.
  - apply r_io; auto; intros p E; [apply (RT (g_rd g))|apply (RT (g_ird g))|apply (RT (g_in g))]; simpl; auto 10; congruence.
  - apply r_io; auto; intros p E; [apply (RT (g_wr g))|apply (RT (g_iwr g))|apply (RT (g_out g))]; simpl; auto 10; congruence.
  - unfold own_cr in *. destruct (v_cr m) as [[a j]|]; simpl in *; [|apply allr_nil]. apply allf_cons in F4 as [F4 _].
    assert (RA : RC a) by (apply (RT (g_cron g)); simpl; auto 10). apply allr_cons; auto. apply allr_optr. intros x ->.
    eapply step; [exact RA|exact F4|]. left. reflexivity.
Qed.
End Reach.

(** Pointers of owned blocks lead to owned blocks. *)
Definition inb (T : list (nat * block)) (x : nat) : Prop := exists b, In (x, b) T.
Lemma inb_app T U x : inb (T ++ U) x <-> inb T x \/ inb U x.
Proof.
  unfold inb. split; [intros (b & I); apply in_app_iff in I as [I|I]; eauto|]. intros [(b & I)|(b & I)]; exists b; apply in_app_iff; auto.
Qed.
Lemma inb_flat X (f : X -> list (nat * block)) l x : inb (flat_map f l) x <-> exists y, In y l /\ inb (f y) x.
Proof.
  unfold inb. split; [intros (b & I); apply in_flat_map in I as (y & I1 & I2); eauto|]. intros (y & I & b & J). exists b. apply in_flat_map. eauto.
Qed.
Lemma inb_cons y b T x : inb ((y, b) :: T) x <-> x = y \/ inb T x.
Proof.
  unfold inb. split; [intros (c & [I|I]); [injection I as -> _; auto|eauto]|]. intros [->|(c & I)]; [exists b; left; auto|exists c; right; auto].
Qed.
Definition shut (T : list (nat * block)) (V : list (nat * block)) : Prop := forall x b c, In (x, b) T -> In (Some c) (pointers b) -> inb V c.
Lemma shut_nil V : shut [] V. Proof. intros x b c []. Qed.
Lemma shut_cons x b T V : (forall c, In (Some c) (pointers b) -> inb V c) -> shut T V -> shut ((x, b) :: T) V.
Proof. intros A B y d c [E|I] J; [injection E as <- <-; auto|eauto]. Qed.
Lemma shut_app T U V : shut T V -> shut U V -> shut (T ++ U) V.
Proof. intros A B y d c I J. apply in_app_iff in I as [I|I]; eauto. Qed.
Lemma shut_flat X (f : X -> list (nat * block)) l V : (forall x, In x l -> shut (f x) V) -> shut (flat_map f l) V.
Proof. intros A y d c I J. apply in_flat_map in I as (x & I1 & I2). eapply A; eauto. Qed.
Lemma shut_mono T V V' : shut T V -> (forall x, inb V x -> inb V' x) -> shut T V'.
Proof. intros A B y d c I J. eauto. Qed.
Lemma shut_optr p V : shut (optr p) V.
Proof. destruct p; simpl; [apply shut_cons; [intros c []|apply shut_nil]|apply shut_nil]. Qed.
Lemma optr_inb c : inb (optr (Some c)) c. Proof. exists B_any. left. reflexivity. Qed.

Lemma s_cell t : shut (own_cell t) (own_cell t).
Proof.
  unfold own_cell. destruct (y_data t) as [[a l]|]; [|apply shut_nil]. apply shut_cons.
  - intros c I. simpl in I. apply in_map_iff in I as (v & E & I). apply inb_cons. right. apply inb_flat. exists v. split; auto. destruct v; simpl in *; [discriminate|]. subst p. apply optr_inb.
  - apply shut_flat. intros [|p] _; [apply shut_nil|apply shut_optr].
Qed.
Lemma s_row r : shut (own_row r) (own_row r).
Proof.
  unfold own_row. destruct r as [[a l]|]; [|apply shut_nil]. apply shut_cons.
  - intros c I. simpl in I. rewrite map_map in I. apply in_map_iff in I as (t & E & I). apply inb_cons. right. apply inb_flat. exists t. split; auto.
    simpl in E. unfold own_cell. destruct (y_data t) as [[x y]|]; [|discriminate]. injection E as ->. apply inb_cons. auto.
  - apply shut_flat. intros t I. eapply shut_mono; [apply s_cell|]. intros x J. apply inb_cons. right. apply inb_flat. eauto.
Qed.
Lemma s_net n : shut (own_net n) (own_net n).
Proof.
  unfold own_net. destruct (z_cells n) as [[a l]|]; [|apply shut_nil]. apply shut_cons.
  - intros c I. simpl in I. apply in_map_iff in I as (t & E & I). apply inb_cons. right. apply inb_flat. exists t. split; auto.
    destruct t as [[x y]|]; [|discriminate]. injection E as ->. apply inb_cons. auto.
  - apply shut_flat. intros t I. eapply shut_mono; [apply s_row|]. intros x J. apply inb_cons. right. apply inb_flat. eauto.
Qed.
Lemma s_nets a l : shut (nets a l) (nets a l).
Proof.
  unfold nets. apply shut_cons.
  - intros c I. simpl in I. rewrite map_map in I. apply in_map_iff in I as (t & E & I). apply inb_cons. right. apply inb_flat. exists t. split; auto.
    simpl in E. unfold own_net. destruct (z_cells t) as [[x y]|]; [|discriminate]. injection E as ->. apply inb_cons. auto.
  - apply shut_flat. intros t I. eapply shut_mono; [apply s_net|]. intros x J. apply inb_cons. right. apply inb_flat. eauto.
Qed.
Lemma shut_fns o V : shut (ob B_fns o) V.
Proof. destruct o as [[a l]|]; [apply shut_cons; [intros c []|]|]; apply shut_nil. Qed.
Lemma s_io i : shut (own_io i) (own_io i).
Proof.
  unfold own_io. repeat apply shut_app; try apply shut_fns.
  - destruct (e_mod i) as [[a l]|]; [|apply shut_nil]. apply shut_cons; [|apply shut_nil]. intros c I. simpl in I. apply in_flat_map in I as (m & I & J).
    rewrite !inb_app. right. right. right. apply inb_flat. exists m. split; auto. unfold own_mod. rewrite !inb_app.
    destruct J as [J|[J|[J|[]]]]; rewrite J; pose proof (optr_inb c); auto.
  - apply shut_flat. intros m _. unfold own_mod. repeat apply shut_app; apply shut_optr.
Qed.
Lemma s_mach m : shut (own m) (own m).
Proof.
  unfold own. apply shut_app; [|apply shut_app; [|apply shut_app; [|apply shut_app]]].
  - apply shut_flat. intros [[x y]|] _; [apply shut_cons; [intros c []|]|]; apply shut_nil.
  - apply shut_mono with (V := own_for (v_for m)); [|intros x J; rewrite !inb_app; auto]. unfold own_for. apply shut_app.
    + destruct (v_for m) as [[a l]|]; [|apply shut_nil]. apply shut_cons; [|apply shut_nil]. intros c I. simpl in I.
      rewrite inb_app. right. apply inb_flat. exists (Some c). split; auto. apply optr_inb.
    + apply shut_flat. intros p _. apply shut_optr.
  - eapply shut_mono; [apply s_io|]. intros x J. rewrite !inb_app. auto.
  - eapply shut_mono; [apply s_io|]. intros x J. rewrite !inb_app. auto 10.
  - apply shut_mono with (V := own_cr (v_cr m)); [|intros x J; rewrite !inb_app; auto 10]. unfold own_cr. destruct (v_cr m) as [[a j]|]; [|apply shut_nil].
    apply shut_cons; [|apply shut_optr]. intros c [J|[]]. rewrite J. apply inb_cons. right. apply optr_inb.
Qed.
Lemma op_inb X (f : X -> block) o x : op o = Some x -> inb (ob f o) x.
Proof. destruct o as [[a y]|]; simpl; [|discriminate]. intro E. injection E as ->. exists (f y). left. reflexivity. Qed.
Lemma roots_inb a l m g x : g_net g = Some a -> rep m g -> In (Some x) (roots g) -> inb (nets a l ++ own m) x.
Proof.
  intros E0 (LR & ER & EF & EFQ & R1 & R2 & R3 & IR & W1 & W2 & W3 & IW & EC) I. unfold roots in I. destruct I as [I|I].
  { rewrite E0 in I. injection I as ->. apply inb_app. left. apply inb_cons. auto. }
  apply inb_app. right. unfold own. rewrite !inb_app. apply in_app_iff in I as [I|I].
  { left. rewrite ER in I. apply in_map_iff in I as (t & E & I). apply inb_flat. exists t. split; auto. apply op_inb. auto. }
  simpl in I. unfold own_for, own_io. rewrite !inb_app.
  destruct I as [I|[I|[I|[I|[I|[I|[I|[I|[]]]]]]]]].
  - rewrite EF in I. apply (op_inb _ B_fors) in I. auto 20.
  - rewrite R1 in I. apply (op_inb _ B_fns) in I. auto 20.
  - rewrite R2 in I. apply (op_inb _ B_fns) in I. auto 20.
  - rewrite R3 in I. apply (op_inb _ B_mods) in I. auto 20.
  - rewrite W1 in I. apply (op_inb _ B_fns) in I. auto 20.
  - rewrite W2 in I. apply (op_inb _ B_fns) in I. auto 20.
  - rewrite W3 in I. apply (op_inb _ B_mods) in I. auto 20.
  - rewrite EC in I. right. right. right. right. unfold own_cr. destruct (v_cr m) as [[z j]|]; [|discriminate]. injection I as ->. apply inb_cons. auto.
Qed.

(** A full machine owns its memory. *)
Lemma full_owned a l m R s : full a l m R s -> owned R (s_heap s) (s_g s).
Proof.
  intros (A1 & A2 & A3 & A4 & A5 & A6 & A7 & KY & P). rewrite app_assoc in P. set (T := nets a l ++ own m) in *.
  pose proof (keyed_perm _ _ _ KY P) as KY2. destruct KY2 as [ND _]. rewrite map_app in ND.
  assert (DIS : forall x, inb T x -> ~ In x (map fst R)).
  { intros x (b & I) J. clear - ND I J. induction T as [|[y c] U IH]; [destruct I|]. simpl in ND. apply NoDup_cons_iff in ND as [N1 N2]. destruct I as [I|I]; auto.
    injection I as -> ->. apply N1. apply in_app_iff. auto. }
  assert (FD : forall x b, In (x, b) (T ++ R) -> find_block (s_heap s) x = Some b).
  { intros x b I. eapply find_in; [exact KY|]. eapply Permutation_in; [apply Permutation_sym; exact P|exact I]. }
  assert (RI : forall x, reach (s_heap s) (s_g s) x -> inb T x).
  { intros x RX. induction RX as [x I|x b c RX IH F I]; [eapply roots_inb; eauto|].
    assert (IT : In (x, b) T).
    { apply HeapFacts.find_some in F. eapply Permutation_in in F; [|exact P]. apply in_app_iff in F as [F|F]; auto. exfalso. apply (DIS x IH). apply (in_map fst) in F. exact F. }
    assert (SH : shut T T).
    { apply shut_app; [eapply shut_mono; [apply s_nets|]|eapply shut_mono; [apply s_mach|]]; intros z J; unfold T; apply inb_app; auto. }
    eapply SH; eauto. }
  assert (IR : forall x b, In (x, b) T -> reach (s_heap s) (s_g s) x).
  { assert (AF : allf (s_heap s) T) by (intros x b I; apply FD; apply in_app_iff; auto). apply allf_app in AF as [F1 F2].
    apply allr_app; [apply r_nets; auto|apply r_mach; auto]. }
  split.
  - intros x LX. apply live_in in LX. split.
    + apply in_map_iff in LX as ([y b] & E & I). simpl in E. subst y. rewrite (FD x b) by (apply in_app_iff; auto).
      symmetry. eapply find_in with (n := s_n s); [|exact I]. pose proof (keyed_perm _ _ _ KY P) as [N F]. split.
      * rewrite map_app in N. clear - N. induction T as [|y T IH]; auto. simpl in N. apply NoDup_cons_iff in N as [_ N]. auto.
      * apply Forall_app in F as [_ F]. exact F.
    + intro RX. apply (DIS x); auto.
  - intro x. rewrite !live_in. split.
    + intro I. apply in_map_iff in I as ([y b] & E & I). simpl in E. subst y. eapply Permutation_in in I; [|exact P]. apply in_app_iff in I as [I|I]; [right; eauto|left]. apply (in_map fst) in I. exact I.
    + intros [I|RX].
      * eapply Permutation_in; [apply Permutation_map; apply Permutation_sym; exact P|]. rewrite map_app. apply in_app_iff. auto.
      * apply RI in RX as (b & I). apply in_map_iff. exists (x, b). split; auto. eapply Permutation_in; [apply Permutation_sym; exact P|]. apply in_app_iff. auto.
Qed.
Lemma good_same s R R0 n : keyed R0 n -> Permutation R0 R -> good s R -> same_memory R0 (s_heap s).
Proof.
  intros K0 PR [KY P] x. destruct (find_block R0 x) as [b|] eqn:E.
  - apply HeapFacts.find_some in E. eapply find_in; [exact KY|]. eapply Permutation_in; [apply Permutation_sym; exact P|]. eapply Permutation_in; [exact PR|exact E].
  - destruct (find_block (s_heap s) x) as [b|] eqn:E2; auto. apply HeapFacts.find_some in E2. eapply Permutation_in in E2; [|exact P].
    eapply Permutation_in in E2; [|apply Permutation_sym; exact PR]. eapply find_in in E2; [|exact K0]. congruence.
Qed.
Lemma sane_good s : sane s <-> good s (s_heap s).
Proof.
  unfold sane, good, keyed. split.
  - intros [A B]. split; [split; auto|apply Permutation_refl]. apply Forall_forall. intros [x b] I. simpl. apply B. apply live_in. apply (in_map fst) in I. exact I.
  - intros [[A B] _]. split; auto. intros x L. apply live_in in L. apply in_map_iff in L as ([y b] & <- & I). rewrite Forall_forall in B. apply (B _ I).
Qed.
