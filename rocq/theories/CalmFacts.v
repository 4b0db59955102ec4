(** A machine with everything in place does not panic. *)
From Verif Require Export SpecCalm CallFacts.

(** ** Updates keep the state of the machine and the cycle limit too *)

Local Open Scope m_scope.
Definition kept (c c' : ctx) : Prop := shape c' = shape c /\ x_state c' = x_state c /\ si_maxcyc (x_si c') = si_maxcyc (x_si c) /\ x_cron c' = x_cron c.
Definition keep (f : ctx -> res ctx) : Prop := forall c c', f c = Ok c' -> kept c c'.
Definition quiet (f : ctx -> res ctx) : Prop := forall c c', f c = Ok c' -> x_state c' = x_state c /\ x_si c' = x_si c /\ x_cron c' = x_cron c.
Lemma keep_of f : keeping f -> quiet f -> keep f.
Proof. intros F Q c c' K. destruct (Q _ _ K) as (Q1 & Q2 & Q3). split; [now apply F|]. repeat split; congruence. Qed.
Ltac qu K := repeat match type of K with
  | rbind ?m _ = Ok _ => let x := fresh "x" in let P := fresh "P" in destruct m as [x| |] eqn:P; cbn [rbind] in K; try discriminate K
  | (if ?b then _ else _) = Ok _ => destruct b end; try discriminate K.
Lemma q_bank b i v : quiet (bk_put b i v).
Proof. intros c c' K. unfold bk_put in K. qu K. injection K as <-. destruct b; repeat split; reflexivity. Qed.
Lemma q_in k m p v : quiet (in_put k m p v).
Proof. intros c c' K. unfold in_put in K. qu K. injection K as <-. repeat split; reflexivity. Qed.
Lemma q_out k m p v : quiet (out_put k m p v).
Proof. intros c c' K. unfold out_put in K. qu K. injection K as <-. repeat split; reflexivity. Qed.
Lemma q_tm i f : quiet (tm_put i f).
Proof. intros c c' K. unfold tm_put in K. qu K. injection K as <-. repeat split; reflexivity. Qed.
Lemma q_cell n r col f : quiet (upd_cell n r col f).
Proof. intros c c' K. unfold upd_cell in K. qu K. destruct (x_net c); [|discriminate]. injection K as <-. repeat split; reflexivity. Qed.
Lemma q_put col row b : quiet (put_state col row b).
Proof. intros c c' K. unfold put_state in K. destruct (x_exec c); [|discriminate]. eapply q_cell; exact K. Qed.
Lemma q_set_table net pos z c e c' : set_table net pos z c = Ok (e, c') -> x_state c' = x_state c /\ x_si c' = x_si c /\ x_cron c' = x_cron c.
Proof.
  unfold set_table. intros K. bind1 K s P. destruct s as [e'|[[r cl] v]]; [injection K as <- <-; auto|]. bind1 K c1 P1. injection K as <- <-. eapply q_cell; exact P1.
Qed.
Lemma q_write_table zs : forall net pos c e c', write_table zs net pos c = Ok (e, c') -> x_state c' = x_state c /\ x_si c' = x_si c /\ x_cron c' = x_cron c.
Proof.
  induction zs as [|z t IH]; intros net pos c e c' K; cbn [write_table] in K; [injection K as <- <-; auto|]. bind1 K x P. destruct x as [e1 c1]. apply q_set_table in P. destruct P as (P1 & P2 & P3).
  destruct (is_ok e1); [apply IH in K; destruct K as (? & ? & ?); repeat split; congruence|injection K as <- <-; auto].
Qed.
Lemma q_clear net : quiet (upd_net net clear_states).
Proof. intros c c' K. unfold upd_net in K. qu K. destruct (x_net c); [|discriminate]. injection K as <-. repeat split; reflexivity. Qed.
Lemma q_cron_clear js f : forall n, quiet (cron_clear f n js).
Proof.
  induction f as [|f IH]; intros n c c' K; cbn [cron_clear] in K; [injection K as <-; auto|]. bind1 K j P1. bind1 K c1 P2. apply IH in K. destruct K as (K1 & K2 & K3). rewrite K1, K2, K3.
  destruct (j_en j && j_auto j); [now apply q_bank in P2|injection P2 as <-; auto].
Qed.
Lemma q_cron_eval js t f : forall n, quiet (cron_jobs_eval f n t js).
Proof.
  induction f as [|f IH]; intros n c c' K; cbn [cron_jobs_eval] in K; [injection K as <-; auto|]. bind1 K j P1. bind1 K c1 P2. apply IH in K. destruct K as (K1 & K2 & K3). rewrite K1, K2, K3.
  destruct (j_en j); [|injection P2 as <-; auto]. bind1 P2 v P3. destruct v; [|injection P2 as <-; auto]. bind1 P2 b P4. now apply q_bank in P2.
Qed.
Lemma q_upd_in f : quiet (upd_in f).
Proof. intros c c' K. unfold upd_in in K. qu K; injection K as <-; repeat split; reflexivity. Qed.
Lemma q_upd_out f : quiet (upd_out f).
Proof. intros c c' K. unfold upd_out in K. qu K; injection K as <-; repeat split; reflexivity. Qed.
Lemma q_save : quiet save_previous.
Proof. intros c c' K. unfold save_previous in K. cbv zeta in K. bind1 K a P1. bind1 K d P2. bind1 K r P3. bind1 K td P4. bind1 K tr P5. bind1 K o P6. injection K as <-. repeat split; reflexivity. Qed.
Lemma q_revert : quiet revert_memory.
Proof. intros c c' K. unfold revert_memory in K. cbv zeta in K. qu K. injection K as <-. repeat split; reflexivity. Qed.
Lemma q_reset : quiet reset_registers.
Proof. intros c c' K. unfold reset_registers in K. cbv zeta in K. bind1 K a P1. bind1 K t P2. bind1 K d P3. bind1 K r P4. injection K as <-. repeat split; reflexivity. Qed.
Lemma q_set_data_value r col i w c e c' : set_data_value r col i w c = Ok (e, c') -> x_state c' = x_state c /\ x_si c' = x_si c /\ x_cron c' = x_cron c.
Proof.
  unfold set_data_value. intros K. bind1 K v P.
  destruct (v_type v); try (injection K as <- <-; repeat split; reflexivity);
    repeat first [ match type of K with (if ?b then _ else _) = Ok _ => destruct b end
                 | match type of K with rbind ?m _ = Ok _ => let x := fresh "x" in let P1 := fresh "P" in destruct m as [x| |] eqn:P1; cbn [rbind] in K; try discriminate K end ];
    try discriminate K; injection K as <- <-; auto;
    match goal with H : bk_put _ _ _ _ = Ok _ |- _ => now apply q_bank in H | H : in_put _ _ _ _ _ = Ok _ |- _ => now apply q_in in H | H : out_put _ _ _ _ _ = Ok _ |- _ => now apply q_out in H end.
Qed.
Create HintDb kep.
Lemma e_bank b i v : keep (bk_put b i v). Proof. apply keep_of; [apply k_bank|apply q_bank]. Qed.
Lemma e_in k m p v : keep (in_put k m p v). Proof. apply keep_of; [apply k_in|apply q_in]. Qed.
Lemma e_out k m p v : keep (out_put k m p v). Proof. apply keep_of; [apply k_out|apply q_out]. Qed.
Lemma e_tm i f : keep (tm_put i f). Proof. apply keep_of; [apply k_tm|apply q_tm]. Qed.
Lemma e_put col row b : keep (put_state col row b). Proof. apply keep_of; [apply k_put|apply q_put]. Qed.
Lemma e_clear net : keep (upd_net net clear_states). Proof. apply keep_of; [apply k_clear|apply q_clear]. Qed.
Lemma e_cron_clear js f n : keep (cron_clear f n js). Proof. apply keep_of; [apply k_cron_clear|apply q_cron_clear]. Qed.
Lemma e_cron_eval js t f n : keep (cron_jobs_eval f n t js). Proof. apply keep_of; [apply k_cron_eval|apply q_cron_eval]. Qed.
Lemma e_save : keep save_previous. Proof. apply keep_of; [apply k_save|apply q_save]. Qed.
Lemma e_revert : keep revert_memory. Proof. apply keep_of; [apply k_revert|apply q_revert]. Qed.
Lemma e_reset : keep reset_registers. Proof. apply keep_of; [apply k_reset|apply q_reset]. Qed.
Lemma e_out_revert : keep (upd_out out_revert). Proof. apply keep_of; [apply k_out_revert|apply q_upd_out]. Qed.
Lemma e_out_clear : keep (upd_out out_clear). Proof. apply keep_of; [apply k_out_clear|apply q_upd_out]. Qed.
Lemma e_out_hist : keep (upd_out out_hist). Proof. apply keep_of; [apply k_out_hist|apply q_upd_out]. Qed.
Lemma e_in_hist : keep (upd_in in_hist). Proof. apply keep_of; [apply k_in_hist|apply q_upd_in]. Qed.
#[export] Hint Resolve e_bank e_in e_out e_tm e_put e_clear e_cron_clear e_cron_eval e_save e_revert e_reset e_out_revert e_out_clear e_out_hist e_in_hist : kep.

(** ** Presence depends on the shape *)

Lemma null_len {A} (p p' : option (list A)) : len p = len p' -> is_null p = is_null p'.
Proof. destruct p, p'; simpl; congruence || auto. Qed.
Lemma not_null {A} (p : option A) : p <> None -> is_null p = false.
Proof. destruct p; simpl; congruence. Qed.
Lemma len_there {A} (p p' : option (list A)) : len p = len p' -> p' <> None -> is_null p = false.
Proof. intros H K. rewrite (null_len _ _ H). now apply not_null. Qed.
Lemma map_there {A B} (g : A -> B) (p p' : option (list A)) : option_map (map g) p = option_map (map g) p' -> p' <> None -> is_null p = false.
Proof. intros H. apply len_there. now apply option_map_len in H. Qed.
Lemma safe_index_there c0 c t raw : equipped c0 -> shape c = shape c0 ->
  match t with R_M | R_Cd | R_Cr | R_Td | R_Tr | R_C | R_T | R_D | R_R => True | _ => False end ->
  err_eqb (safe_index t raw c) E_FAIL || err_eqb (safe_index t raw c) E_TYPEMISMATCH = false.
Proof.
  intros Q H T. unfold safe_index. destruct (raw <? 0); [reflexivity|].
  assert (HM : mem_shape (x_mem c) = mem_shape (x_mem c0)) by (unfold shape in H; congruence). assert (HR : regs_shape (x_regs c) = regs_shape (x_regs c0)) by (unfold shape in H; congruence).
  assert (HT : len (x_tm c) = len (x_tm c0)) by (unfold shape in H; congruence). unfold mem_shape in HM. unfold regs_shape in HR.
  destruct Q as [(B1 & B2 & B3 & B4 & B5) (R1 & R2 & R3 & R4)  _ _ _ _ _ _].
  assert (is_null (m_M (x_mem c)) = false) by (eapply len_there; [|exact B1]; congruence).
  assert (is_null (m_Cr (x_mem c)) = false) by (eapply len_there; [|exact B2]; congruence).
  assert (is_null (m_Cd (x_mem c)) = false) by (eapply len_there; [|exact B3]; congruence).
  assert (is_null (m_Tr (x_mem c)) = false) by (eapply len_there; [|exact B4]; congruence).
  assert (is_null (m_Td (x_mem c)) = false) by (eapply len_there; [|exact B5]; congruence).
  assert (is_null (r_C (x_regs c)) = false) by (eapply len_there; [|exact R1]; congruence).
  assert (is_null (r_D (x_regs c)) = false) by (eapply len_there; [|exact R2]; congruence).
  assert (is_null (r_R (x_regs c)) = false) by (eapply len_there; [|exact R3]; congruence).
  assert (is_null (x_tm c) = false) by (eapply len_there; [|exact R4]; congruence).
  destruct t; try contradiction; cbn [reg_bank arr_of];
    match goal with K : is_null ?a = false |- context [is_null ?a] => rewrite K end; destruct (_ <=? raw); reflexivity.
Qed.
Lemma net_there c0 c n nt : shape c = shape c0 -> elem (x_net c) n = Some nt -> exists nt0, elem (x_net c0) n = Some nt0 /\ net_shape nt = net_shape nt0.
Proof.
  intros H K. assert (N : option_map (map net_shape) (x_net c) = option_map (map net_shape) (x_net c0)) by (unfold shape in H; congruence). unfold elem in *.
  destruct (x_net c) as [l|], (x_net c0) as [l0|]; try discriminate. cbn [option_map obind] in *. injection N as N. apply (f_equal (fun l => nth_error l n)) in N. rewrite !nth_error_map, K in N.
  destruct (nth_error l0 n) as [nt0|]; [|discriminate]. exists nt0. split; [reflexivity|]. cbn in N. congruence.
Qed.

(** ** Two environments alike but for the panic hook *)

Section Calm.
Variables (c0 : ctx) (E E' : env).
Hypothesis AL : alike_but_panic c0 E E'.
Hypothesis KS : calm_calls c0 E.
Hypothesis EQ : equipped c0.
(** [inv]: whether the state may be "instruction invalid"; [firm]: no instruction fails and no call asks for the end, so that the
    state is always "running" *)
Variables (tr0 : list event) (inv firm : bool).
Hypothesis FM : firm = true -> firm_calls c0 E.
Definition steady (c : ctx) : Prop :=
  if firm then x_state c = S_RUNNING /\ x_cron c = x_cron c0 else going c \/ (inv = true /\ x_state c = S_INV).
Definition Jc (c : ctx) : Prop := shape c = shape c0 /\ si_maxcyc (x_si c) = si_maxcyc (x_si c0) /\ steady c.
Definition J (s : st) : Prop := Jc (s_ctx s) /\ exists l, s_tr s = l ++ tr0 /\ Forall (called c0) l /\ ~ In EvPanic l.
Lemma j_ctx s c : J s -> Jc c -> J (mk_st c (s_tr s)).
Proof. intros [_ H] K. split; auto. Qed.
Lemma j_call s ev c : J s -> ev <> EvPanic -> due (s_ctx s) ev -> Jc c -> J (mk_st c (ev :: s_tr s)).
Proof.
  intros [H (l & L1 & L2 & L3)] NP D K. split; auto. exists (ev :: l). cbn [s_tr app]. rewrite L1. split; auto. split; [constructor; auto; exists (s_ctx s); split; auto; apply H|]. intros [K1|K1]; congruence || auto.
Qed.
Lemma jc_kept c c' : kept c c' -> Jc c -> Jc c'.
Proof. intros (K1 & K2 & K3 & K4) (H1 & H2 & H3). split; [congruence|]. split; [congruence|]. unfold steady, going in *. now rewrite K2, K4. Qed.
Lemma jc_asks c c' : shape c' = shape c0 -> asks_at_most c c' -> (firm = true -> holds_on c c') -> Jc c -> Jc c'.
Proof.
  intros K1 [K2 K3] F (H1 & H2 & H3). split; [auto|]. split; [congruence|]. unfold steady, going in *. destruct firm; [destruct F as [F1 F2]; [auto|]; destruct H3; split; congruence|].
  destruct K2 as [K2|K2]; rewrite ?K2 in *; auto.
Qed.
Definition agat {A} (s : st) (m m' : M A) : Prop := m s = m' s /\ forall a s', m s = Ok (a, s') -> J s'.

Lemma a_ret {A} (a : A) s : J s -> agat s (ret a) (ret a).
Proof. intros H. split; auto. intros b s' K. injection K as <- <-. auto. Qed.
Lemma a_bad {A} u s : agat s (@bad A u) (bad u).
Proof. split; auto. intros a s' K. discriminate. Qed.
Lemma a_nofuel {A} s : agat s (@nofuel A) nofuel.
Proof. split; auto. intros a s' K. discriminate. Qed.
Lemma a_bind {A B} (m m' : M A) (k k' : A -> M B) s : agat s m m' -> (forall a s', J s' -> agat s' (k a) (k' a)) -> agat s (bind m k) (bind m' k').
Proof.
  intros [H1 H2] K. unfold agat, bind. rewrite <- H1. destruct (m s) as [[a s1]|u|] eqn:M1.
  - apply (K a s1). eapply H2. reflexivity.
  - split; auto. intros b s' Q. discriminate.
  - split; auto. intros b s' Q. discriminate.
Qed.
Lemma a_bindk {A B} (m m' : M A) (k k' : A -> M B) s : agat s m m' -> (forall a s', m s = Ok (a, s') -> J s' -> agat s' (k a) (k' a)) -> agat s (bind m k) (bind m' k').
Proof.
  intros [H1 H2] K. unfold agat, bind. rewrite <- H1. destruct (m s) as [[a s1]|u|] eqn:M1.
  - apply (K a s1); auto. eapply H2. reflexivity.
  - split; auto. intros b s' Q. discriminate.
  - split; auto. intros b s' Q. discriminate.
Qed.
Lemma a_getc {B} (k k' : ctx -> M B) s : agat s (k (s_ctx s)) (k' (s_ctx s)) -> agat s (bind getc k) (bind getc k').
Proof. intros H. exact H. Qed.
Lemma a_lift {A B} (r : res A) (k k' : A -> M B) s : (forall a, r = Ok a -> agat s (k a) (k' a)) -> agat s (bind (lift r) k) (bind (lift r) k').
Proof. intros H. unfold agat, bind, lift. destruct r as [a|u|]; [now apply (H a)| |]; split; auto; intros a s' K; discriminate. Qed.
Lemma a_lift1 {A} (r : res A) s : J s -> agat s (lift r) (lift r).
Proof. intros H. split; auto. intros a s' K. unfold lift in K. destruct r; try discriminate. injection K as <- <-. auto. Qed.
Lemma a_getc1 s : J s -> agat s getc getc.
Proof. intros H. split; auto. intros a s' K. injection K as <- <-. auto. Qed.
Lemma a_modc f s : J s -> (Jc (s_ctx s) -> Jc (f (s_ctx s))) -> agat s (modc f) (modc f).
Proof. intros H K. split; auto. intros a s' Q. injection Q as <- <-. apply j_ctx; auto. apply K, H. Qed.
Lemma a_updc f s : keep f -> J s -> agat s (updc f) (updc f).
Proof. intros F H. split; auto. intros a s' Q. unfold updc in Q. destruct (f (s_ctx s)) as [c| |] eqn:FC; try discriminate. injection Q as <- <-. apply j_ctx; auto. apply F in FC. eapply jc_kept; [exact FC|apply H]. Qed.
Lemma a_emit ev s : J s -> ev <> EvPanic -> due (s_ctx s) ev -> agat s (emit E ev) (emit E' ev).
Proof.
  intros H NP D. pose proof (proj1 H) as HC. unfold agat, emit. rewrite <- (ab_act _ _ _ AL _ _ _ NP (proj1 HC) D). split; auto. intros a s' Q. injection Q as <- <-. apply j_call; auto.
  destruct (cc_act _ _ KS (length (s_tr s)) ev (s_ctx s) NP (proj1 HC) D) as [K1 K2]. eapply jc_asks; eauto. intros FT. apply (fc_act _ _ (FM FT)); auto. apply HC.
Qed.
Lemma a_millis s : J s -> agat s (millis E) (millis E').
Proof.
  intros H. unfold agat, millis. cbv zeta. rewrite <- (ab_clock _ _ _ AL). apply (a_bind (emit E _) (emit E' _)).
  - apply a_emit; auto; [discriminate|]. simpl. rewrite (shape_h _ _ (proj1 (proj1 H))). apply EQ.
  - intros [] s' H'. now apply a_ret.
Qed.
Lemma a_localtime s : J s -> agat s (localtime E) (localtime E').
Proof. intros H. unfold agat, localtime. rewrite <- (ab_time _ _ _ AL). split; auto. intros a s' Q. injection Q as <- <-. apply j_call; auto; [discriminate|exact I|apply H]. Qed.
Lemma a_foreign id col row s : J s -> due (s_ctx s) (EvForeign id col row) -> agat s (call_foreign E id col row) (call_foreign E' id col row).
Proof.
  intros H D. pose proof (proj1 H) as HC. unfold agat, call_foreign. destruct (cc_foreign _ _ KS (length (s_tr s)) _ _ _ _ (proj1 HC) D) as [K1 K2]. rewrite <- (ab_foreign _ _ _ AL _ _ _ _ _ (proj1 HC) D).
  assert (K3 : firm = true -> holds_on (s_ctx s) (snd (fexec E (length (s_tr s)) id col row (s_ctx s)))) by (intros FT; apply (fc_foreign _ _ (FM FT)); auto; apply HC).
  destruct (fexec E (length (s_tr s)) id col row (s_ctx s)) as [e c]. split; auto. intros a s' Q. injection Q as <- <-. apply j_call; auto; [discriminate|]. cbn [snd] in *. eapply jc_asks; eauto.
Qed.
Lemma a_set_data r col i w s : J s -> agat s (set_data r col i w) (set_data r col i w).
Proof.
  intros H. split; auto. intros a s' Q. unfold set_data in Q. destruct (set_data_value r col i w (s_ctx s)) as [[e c]| |] eqn:K; try discriminate. injection Q as <- <-.
  pose proof (q_set_data_value _ _ _ _ _ _ _ K) as (K1 & K2 & K3). apply k_set_data_value in K. apply j_ctx; auto. eapply jc_kept; [|apply H]. split; [auto|]. repeat split; congruence.
Qed.
Lemma a_err e s : J s -> agat s (set_err e) (set_err e).
Proof. intros H. now apply a_modc. Qed.

Ltac ag1 := first
  [ apply a_ret; assumption | apply a_bad | apply a_nofuel | apply a_millis; assumption | apply a_localtime; assumption
  | apply a_set_data; assumption | apply a_err; assumption | apply a_lift1; assumption | apply a_getc1; assumption
  | apply a_updc; [solve [eauto with kep]|assumption] | apply a_modc; [assumption|solve [intros; assumption]]
  | apply a_getc | apply a_lift; intros ? ? | apply a_bind; [|intros ? ? ?] ].
Ltac ags := repeat (cbv beta; cbv zeta; first
  [ ag1
  | match goal with
    | H : forall _, _ |- agat _ _ _ => solve [apply H; assumption]
    | |- agat _ (if ?b then _ else _) _ => destruct b eqn:?
    | |- agat _ (match ?b with _ => _ end) _ => destruct b eqn:?
    | |- agat _ (let (_, _) := ?b in _) _ => destruct b eqn:? end ]).

Ltac agw L := intros; repeat (cbv beta; cbv zeta; first [ solve [L] | ag1
  | match goal with
    | H : forall _, _ |- agat _ _ _ => solve [apply H; assumption]
    | |- agat _ (if ?b then _ else _) _ => destruct b eqn:?
    | |- agat _ (match ?b with _ => _ end) _ => destruct b eqn:?
    | |- agat _ (let (_, _) := ?b in _) _ => destruct b eqn:? end ]).
(** Reading an operand when the registers exist. *)
Definition gdv0 (r col i : nat) : M Z :=
  c <- getc ;; ov <- lift (operand r col i c) ;;
  match ov with
  | None => ret 0
  | Some v =>
      match v_type v with
      | R_NONE => ret (v_raw v)
      | R_M | R_Cd | R_Cr | R_Td | R_Tr | R_C | R_T | R_D | R_R =>
          let e := safe_index (v_type v) (v_raw v) c in if is_ok e then lift (reg_value (v_type v) (v_raw v) c) else set_err e ;;; ret 0
      | R_Q => if Z.of_nat (io_wq (x_io c)) <=? v_module v then ret 0 else lift (out_get K_Q (v_module v) (v_port v) c)
      | R_I => if Z.of_nat (io_rq (x_io c)) <=? v_module v then ret 0 else lift (in_get K_I (v_module v) (v_port v) c)
      | R_IW => if Z.of_nat (io_rq (x_io c)) <=? v_module v then ret 0 else lift (in_get K_IW (v_module v) (v_port v) c)
      | R_QW => if Z.of_nat (io_wq (x_io c)) <=? v_module v then ret 0 else lift (out_get K_QW (v_module v) (v_port v) c)
      | R_S | R_INV | R_OTHER _ => ret 0
      end
  end.
Lemma gdv_eq F r col i s : shape (s_ctx s) = shape c0 -> get_data_value F r col i s = gdv0 r col i s.
Proof.
  intros HS. unfold get_data_value, gdv0. cbv beta iota zeta delta [bind getc lift]. destruct (operand r col i (s_ctx s)) as [[v|]| |]; auto.
  pose proof (safe_index_there c0 (s_ctx s) (v_type v) (v_raw v) EQ HS) as SI.
  destruct (v_type v); auto; specialize (SI Logic.I); rewrite SI; reflexivity.
Qed.
Lemma g_gdv0 r col i s : J s -> agat s (gdv0 r col i) (gdv0 r col i).
Proof. intros H. unfold gdv0. ags. Qed.
Lemma g_gdv r col i s : J s -> agat s (get_data_value E r col i) (get_data_value E' r col i).
Proof. intros H. unfold agat. rewrite !gdv_eq by apply H. now apply g_gdv0. Qed.
Ltac agi := agw ltac:(apply g_gdv; assumption).
Lemma g_left col row s : J s -> agat s (mleft col row) (mleft col row).
Proof. unfold mleft. agi. Qed.
Lemma g_state col row s : J s -> agat s (mstate col row) (mstate col row).
Proof. unfold mstate. agi. Qed.
Lemma g_put col row b s : J s -> agat s (mput col row b) (mput col row b).
Proof. unfold mput. agi. Qed.
Lemma g_prev col row i s : J s -> agat s (mprev col row i) (mprev col row i).
Proof. unfold mprev. agi. Qed.
Lemma g_idx col row s : J s -> agat s (midx col row) (midx col row).
Proof. unfold midx. agi. Qed.
Lemma g_preset col row s : J s -> agat s (mpreset col row) (mpreset col row).
Proof. unfold mpreset. agi. Qed.
Lemma g_factor col row s : J s -> agat s (mfactor col row) (mfactor col row).
Proof. unfold mfactor. agi. Qed.
Ltac agjs := first [apply g_gdv; assumption | apply g_left; assumption | apply g_state; assumption | apply g_put; assumption | apply g_prev; assumption
  | apply g_idx; assumption | apply g_preset; assumption | apply g_factor; assumption ].
Ltac agj := agw ltac:(agjs).
Lemma g_flag b col row s : J s -> agat s (mflag b col row) (mflag b col row).
Proof. unfold mflag. agj. Qed.
Lemma g_flag_set b col row v s : J s -> agat s (mflag_set b col row v) (mflag_set b col row v).
Proof. unfold mflag_set. agj. Qed.
Lemma g_count col row s : J s -> agat s (mcount col row) (mcount col row).
Proof. unfold mcount. agj. Qed.
Lemma g_count_set col row v s : J s -> agat s (mcount_set col row v) (mcount_set col row v).
Proof. unfold mcount_set. agj. Qed.
Lemma g_ts col row s : J s -> agat s (mts col row) (mts col row).
Proof. unfold mts. agj. Qed.
Lemma g_ts_set col row v s : J s -> agat s (mts_set col row v) (mts_set col row v).
Proof. unfold mts_set. agj. Qed.
Lemma g_acc_set col row v s : J s -> agat s (macc_set col row v) (macc_set col row v).
Proof. unfold macc_set. agj. Qed.
Ltac agks := first [apply g_gdv; assumption | apply g_left; assumption | apply g_state; assumption | apply g_put; assumption | apply g_prev; assumption
  | apply g_idx; assumption | apply g_preset; assumption | apply g_factor; assumption | apply g_flag; assumption | apply g_flag_set; assumption | apply g_count; assumption
  | apply g_count_set; assumption | apply g_ts; assumption | apply g_ts_set; assumption | apply g_acc_set; assumption ].
Ltac agk := agw ltac:(agks).
Lemma g_reset col row s : J s -> agat s (timer_reset col row) (timer_reset col row).
Proof. unfold timer_reset. agk. Qed.
Lemma g_start col row s : J s -> agat s (timer_start E col row) (timer_start E' col row).
Proof. unfold timer_start. agk. Qed.
Lemma g_elapsed col row s : J s -> agat s (timer_elapsed E col row) (timer_elapsed E' col row).
Proof. unfold timer_elapsed. agk. Qed.
Lemma g_run col row s : J s -> agat s (timer_run E col row) (timer_run E' col row).
Proof. unfold timer_run. agw ltac:(first [agks | apply g_elapsed; assumption]). Qed.
Ltac agl := agw ltac:(first [agks | apply g_run; assumption | apply g_start; assumption | apply g_reset; assumption]).
Lemma g_chk z s : J s -> agat s (chk z) (chk z).
Proof. unfold chk. agk. Qed.
Lemma g_binop op col row : (forall a b s, J s -> agat s (op a b) (op a b)) -> forall s, J s -> agat s (binop E op col row) (binop E' op col row).
Proof. intros F. unfold binop. agk. Qed.
Lemma g_shiftop op col row s : J s -> agat s (shiftop E op col row) (shiftop E' op col row).
Proof. unfold shiftop. agk. Qed.
Lemma g_cmpop op col row s : J s -> agat s (cmpop E op col row) (cmpop E' op col row).
Proof. unfold cmpop. agk. Qed.
Lemma g_cond col row s : J s -> agat s (counter_reset_cond col row) (counter_reset_cond col row).
Proof. unfold counter_reset_cond. agk. Qed.
Lemma g_creset col row z s : J s -> agat s (counter_reset col row z) (counter_reset col row z).
Proof. unfold counter_reset. agk. Qed.
Lemma g_ccount col row z s : J s -> agat s (counter_count col row z) (counter_count col row z).
Proof. unfold counter_count. agk. Qed.
Ltac agc := agw ltac:(first [agks | apply g_cond; assumption | apply g_creset; assumption | apply g_ccount; assumption]).
Lemma g_move col row s : J s -> agat s (fn_MOVE E col row) (fn_MOVE E' col row).
Proof. unfold fn_MOVE, move_src. agk. Qed.
Lemma cell_there n nt r col (x : cell) c : net_at n c = Ok nt -> cell_in nt r col = Ok x -> cell_of c n r col = Some x.
Proof.
  unfold net_at, cell_in, cell_of, row_of, net_of, nth_res, elem. destruct (x_net c) as [l|]; [|discriminate]. cbn [obind]. destruct (nth_error l n) as [nt'|]; [|discriminate]. intros K. injection K as ->. cbn [obind].
  destruct (n_cells nt) as [rows|]; [|discriminate]. cbn [obind]. destruct (nth_error rows r) as [rw|]; [|discriminate]. cbn [rbind obind]. destruct (nth_error rw col); [|discriminate]. congruence.
Qed.
Definition at_cell (row col : nat) (n : nat) (c : ctx) : Prop := peek c LExec = Some (VExec (Some n)) /\ peek c (LCell n row col) <> None.
Lemma at_cell_keeps row col n c c' : shape c' = shape c -> peek c' LExec = peek c LExec -> at_cell row col n c -> at_cell row col n c'.
Proof. intros H X [H1 H2]. split; [now rewrite X|]. now rewrite (shape_cell _ _ n row col H). Qed.
Definition kx {A} (m : M A) : Prop := forall s a s', J s -> m s = Ok (a, s') -> J s' /\ peek (s_ctx s') LExec = peek (s_ctx s) LExec.
Lemma kx_ret {A} (a : A) : kx (ret a).
Proof. intros s b s' H K. injection K as <- <-. auto. Qed.
Lemma kx_lift {A} (r : res A) : kx (lift r).
Proof. intros s b s' H K. unfold lift in K. destruct r; try discriminate. injection K as <- <-. auto. Qed.
Lemma kx_getc : kx getc.
Proof. intros s b s' H K. injection K as <- <-. auto. Qed.
Lemma kx_err e : kx (set_err e).
Proof. intros s b s' H K. injection K as <- <-. split; [apply j_ctx; [auto|apply H]|auto]. Qed.
Lemma kx_bind {A B} (m : M A) (k : A -> M B) : kx m -> (forall a, kx (k a)) -> kx (bind m k).
Proof.
  intros M1 K1 s b s' H K. unfold bind in K. destruct (m s) as [[a s1]| |] eqn:MS; try discriminate. destruct (M1 _ _ _ H MS) as [H1 X1]. destruct (K1 a _ _ _ H1 K) as [H2 X2]. split; auto. congruence.
Qed.
Lemma kx_gdv r col i : kx (get_data_value E r col i).
Proof.
  intros s a s' H. rewrite gdv_eq by apply H. revert s a s' H. change (kx (gdv0 r col i)). unfold gdv0. repeat (cbv zeta; first [apply kx_ret|apply kx_lift|apply kx_getc|apply kx_err|apply kx_bind; [|intros ?]
    | match goal with |- kx (if ?b then _ else _) => destruct b | |- kx (match ?b with _ => _ end) => destruct b end]).
Qed.
Lemma gdv_at row col n i s z s' : J s -> at_cell row col n (s_ctx s) -> get_data_value E row col i s = Ok (z, s') -> at_cell row col n (s_ctx s').
Proof.
  intros H A K. pose proof (g_gdv row col i s H) as [_ G]. apply G in K as H'. apply (at_cell_keeps row col n (s_ctx s)); auto; [rewrite (proj1 (proj1 H)); apply H'|].
  apply (kx_gdv row col i) in K; auto. apply K.
Qed.
Lemma g_foreign col row n s : at_cell row col n (s_ctx s) -> J s -> agat s (fn_FOREIGN E col row) (fn_FOREIGN E' col row).
Proof.
  intros A H. unfold fn_FOREIGN. apply a_bindk; [now apply g_gdv|]. intros v s1 G1 H1. apply a_getc. cbv beta. destruct (_ <=? _); [now apply a_ret|]. apply a_bindk; [now apply g_gdv|].
  intros v2 s2 G2 H2. apply a_getc. apply a_lift. intros u P. apply a_foreign; auto. cbn [due]. apply pget_at in P. split; [congruence|]. exists n.
  eapply gdv_at; [exact H1| |exact G2]. eapply gdv_at; [exact H| |exact G1]. exact A.
Qed.
Lemma g_tmove col row s : J s -> agat s (fn_TMOVE E col row) (fn_TMOVE E' col row).
Proof.
  intros H. unfold fn_TMOVE. cbv zeta. do 5 (apply a_bind; [now apply g_gdv|]; intros; cbv beta). match goal with |- agat _ (if ?b then _ else _) _ => destruct b end; [agk|].
  apply a_getc. match goal with HS : J ?s |- agat ?s _ _ => assert (JS : Jc (s_ctx s)) by apply HS; remember (s_ctx s) as c eqn:EC in JS |- *; clear EC end. agk.
  match goal with W : write_table _ _ _ _ = Ok (_, _), J1 : Jc c |- _ => pose proof (q_write_table _ _ _ _ _ _ W) as (W1 & W2 & W3); apply k_write_table in W; assert (JN : Jc c1) by (eapply jc_kept; [|exact J1]; split; [auto|repeat split; congruence]) end. apply a_modc; auto.
Qed.
Lemma g_function i f f' col row n s : ladder_function E i = Some f -> ladder_function E' i = Some f' -> at_cell row col n (s_ctx s) -> J s -> agat s (f col row) (f' col row).
Proof.
  intros F F' AC H. destruct i; try discriminate F; cbn [ladder_function] in F, F'; injection F as <-; injection F' as <-;
    first [ now apply g_move | now apply (g_foreign col row n) | now apply g_tmove | now apply g_shiftop | now apply g_cmpop
          | apply g_binop; [intros; first [now apply g_chk | agk]|assumption]
          | unfold fn_NOP, fn_CONN, fn_NEG, fn_NO, fn_NC, fn_RE, fn_FE, fn_COIL, fn_COILL, fn_COILU, fn_SUB, fn_DIV, fn_NOT; agw ltac:(first [agks | apply g_chk; assumption]); fail
          | unfold fn_TON, fn_TOF, fn_TP; agl; fail | unfold fn_CTU, fn_CTD; agc; fail | idtac ].
Qed.

Lemma g_cell row col s : J s -> agat s (mcell row col) (mcell row col).
Proof. unfold mcell. agk. Qed.
Lemma g_rows s : J s -> agat s mrows mrows.
Proof. unfold mrows. agk. Qed.
Lemma g_cols s : J s -> agat s mcols mcols.
Proof. unfold mcols. agk. Qed.

(** ** The scan: the state may become "invalid instruction" *)

Variables (R C : nat).
Hypothesis HB : forall n nt, elem (x_net c0) n = Some nt -> (n_rows nt <= R)%nat /\ (n_cols nt <= C)%nat.
Hypothesis HC : 5 * (Z.of_nat R * (1 + Z.of_nat C * Z.of_nat R)) <= 4 * si_maxcyc (x_si c0).
Hypothesis INV : if firm then sure c0 /\ cron_ready c0 else inv = true.
Definition room (z : Z) : Prop := 0 <= z /\ z <= Z.of_nat R * (1 + Z.of_nat C * Z.of_nat R).
Lemma a_inv s : firm = false -> J s -> agat s (set_state S_INV) (set_state S_INV).
Proof. intros FF H. apply a_modc; auto. intros (H1 & H2 & H3). split; [exact H1|]. split; [exact H2|]. unfold steady. rewrite FF in INV |- *. right. auto. Qed.
Lemma b_inv {A B} (m : M A) (k : A -> M B) s b s' : bind m k s = Ok (b, s') -> exists a s1, m s = Ok (a, s1) /\ k a s1 = Ok (b, s').
Proof. unfold bind. destruct (m s) as [[a s1]| |]; try discriminate. eauto. Qed.
Lemma cycles_ok F cc s : J s -> room cc -> check_cycles F cc s = Ok (true, s).
Proof.
  intros H [R1 R2]. unfold check_cycles. cbv beta iota zeta delta [bind getc]. rewrite (proj1 (proj2 (proj1 H))).
  destruct (Z.ltb_spec (4 * si_maxcyc (x_si c0)) (5 * cc)); [lia|]. cbv beta iota delta [ret]. rewrite (proj1 (proj2 (proj1 H))).
  destruct (Z.ltb_spec (si_maxcyc (x_si c0)) cc); [lia|]. reflexivity.
Qed.
Lemma g_cycles cc s : J s -> room cc -> agat s (check_cycles E cc) (check_cycles E' cc).
Proof. intros H K. unfold agat. rewrite !cycles_ok by auto. split; auto. intros a s' Q. injection Q as <- <-. auto. Qed.
Lemma count_skip F rows col : forall cc s cc' b s', skip_loop F rows col cc s = Ok (Some (cc', b), s') -> cc <= cc' <= cc + Z.of_nat (length rows).
Proof.
  induction rows as [|gr t IH]; intros cc s cc' b s' K; cbn [skip_loop] in K; [unfold ret in K; injection K as <- _ _; cbn [length]; lia|].
  apply b_inv in K. destruct K as (go & s1 & K1 & K). destruct go; [|discriminate]. apply b_inv in K. destruct K as (x & s2 & K2 & K).
  cbn [length]. destruct (is_multi (c_code x)); [unfold ret in K; injection K as <- _ _; lia|]. apply b_inv in K. destruct K as (y & s3 & K3 & K).
  destruct y; [unfold ret in K; injection K as <- _ _; lia|]. apply IH in K. lia.
Qed.
Lemma g_skip rows col : forall cc s, J s -> 0 <= cc -> room (cc + Z.of_nat (length rows)) -> agat s (skip_loop E rows col cc) (skip_loop E' rows col cc).
Proof.
  induction rows as [|gr t IH]; cbn [skip_loop length]; intros cc s H P0 P; [agk|]. unfold room in *. apply a_bind; [apply g_cycles; auto; unfold room; lia|]. intros go s1 H1.
  destruct go; [|now apply a_ret]. apply a_bind; [now apply g_cell|]. intros x s2 H2. destruct (is_multi (c_code x)); [now apply a_ret|]. apply a_lift. intros b B. destruct b; [now apply a_ret|]. apply IH; auto; lia.
Qed.
Lemma functions_alike i : match ladder_function E i, ladder_function E' i with Some _, Some _ => True | None, None => True | _, _ => False end.
Proof. destruct i; exact I. Qed.
Lemma firm_cases : firm = true \/ firm = false.
Proof. clear. destruct firm; auto. Qed.
(** instructions that cannot fail *)
Definition oks (m : M err) : Prop := forall s a s', m s = Ok (a, s') -> a = E_OK.
Lemma oks_ret : oks (ret E_OK).
Proof. intros s a s' K. unfold ret in K. congruence. Qed.
Lemma oks_bind {A} (m : M A) k : (forall a, oks (k a)) -> oks (bind m k).
Proof. intros H s a s' K. apply b_inv in K. destruct K as (b & s1 & _ & K). exact (H b s1 a s' K). Qed.
Lemma sure_ok i f col row : cannot_fail i = true -> ladder_function E i = Some f -> oks (f col row).
Proof.
  intros S F. destruct i; try discriminate S; cbn [ladder_function] in F; injection F as <-;
    unfold fn_NOP, fn_CONN, fn_NEG, fn_NO, fn_NC, fn_RE, fn_FE, fn_COIL, fn_COILL, fn_COILU, fn_SUB, fn_DIV, fn_NOT, fn_TON, fn_TOF, fn_TP, fn_CTU, fn_CTD, binop, cmpop;
    repeat (cbv zeta; first [apply oks_ret|apply oks_bind; intros ?|match goal with |- oks (if ?b then _ else _) => destruct b | |- oks (match ?b with _ => _ end) => destruct b end]).
Qed.
Lemma firm_code row col s x s1 : firm = true -> J s -> mcell row col s = Ok (x, s1) -> is_multi (c_code x) = false -> cannot_fail (c_code x) = true.
Proof.
  intros FT H K1 MU. unfold mcell, bind, getc, lift in K1. destruct (ex_cell row col (s_ctx s)) as [y| |] eqn:X; try discriminate. injection K1 as -> <-.
  unfold ex_cell in X. destruct (x_exec (s_ctx s)) as [n|] eqn:EX; [|discriminate]. destruct (net_at n (s_ctx s)) as [nt| |] eqn:NT; cbn [rbind] in X; try discriminate.
  pose proof (cell_there _ _ _ _ _ _ NT X) as CT. assert (P : peek c0 (LCell n row col) = Some (VCell (c_bar x) (c_code x) (c_dq x))).
  { rewrite <- (shape_cell _ _ n row col (proj1 (proj1 H))). cbn [peek]. rewrite CT. reflexivity. }
  rewrite FT in INV. destruct (proj1 INV _ _ _ _ _ _ P) as [Q|Q]; auto. rewrite Q in MU. discriminate.
Qed.
Lemma has_function F i : cannot_fail i = true -> ladder_function F i <> None.
Proof. destruct i; discriminate. Qed.
Lemma firm_exec net col row s b s' : firm = true -> J s -> exec_cell E net col row s = Ok (b, s') -> b = true.
Proof.
  intros FT H K. unfold exec_cell in K. apply b_inv in K. destruct K as (x & s1 & K1 & K). apply b_inv in K. destruct K as (u & s2 & _ & K).
  destruct (is_multi (c_code x)) eqn:MU; [unfold ret in K; congruence|]. pose proof (firm_code _ _ _ _ _ FT H K1 MU) as CF.
  destruct (ladder_function E (c_code x)) as [f|] eqn:F; [|now apply has_function in F].
  apply b_inv in K. destruct K as (e & s3 & K2 & K). apply (sure_ok _ _ col row CF F) in K2. subst e. apply b_inv in K. destruct K as (u2 & s4 & _ & K). cbn [is_ok] in K.
  apply b_inv in K. destruct K as (c & s5 & _ & K). apply b_inv in K. destruct K as (u3 & s6 & _ & K). unfold ret in K. congruence.
Qed.
Lemma g_exec net col row s : J s -> agat s (exec_cell E net col row) (exec_cell E' net col row).
Proof.
  intros H. unfold exec_cell. apply a_bindk; [now apply g_cell|]. intros x s1 G1 H1. apply a_bindk; [apply a_modc; auto|]. intros [] s2 G2 H2. destruct (is_multi (c_code x)) eqn:MU; [now apply a_ret|].
  assert (AC : exists n, at_cell row col n (s_ctx s2)).
  { unfold modc in G2. injection G2 as <-. unfold mcell, bind, getc, lift in G1. destruct (ex_cell row col (s_ctx s)) as [y| |] eqn:X; try discriminate. injection G1 as -> <-.
    unfold ex_cell in X. destruct (x_exec (s_ctx s)) as [n|] eqn:EX; [|discriminate]. destruct (net_at n (s_ctx s)) as [nt| |] eqn:NT; cbn [rbind] in X; try discriminate. exists n.
    split; cbn [peek s_ctx set_x_last x_exec]; [now rewrite EX|]. change (cell_of (set_x_last (mk_lastinfo (u8 (ins_code (c_code x))) net col row E_OK) (s_ctx s)) n row col) with (cell_of (s_ctx s) n row col).
    rewrite (cell_there _ _ _ _ _ _ NT X). discriminate. }
  destruct AC as [n AC].
  pose proof (functions_alike (c_code x)) as FA. destruct (ladder_function E (c_code x)) as [f|] eqn:F; destruct (ladder_function E' (c_code x)) as [f'|] eqn:F'; try contradiction;
    [|destruct firm_cases as [FF|FF]; [exfalso; exact (has_function _ _ (firm_code _ _ _ _ _ FF H G1 MU) F)|agw ltac:(apply a_inv; assumption)]].
  apply a_bind; [eapply g_function; eauto|]. intros e s3 H3. apply a_bind; [now apply a_err|]. intros [] s4 H4. destruct (is_ok e); [|now apply a_ret]. apply a_getc. apply a_bind; [|intros; now apply a_ret].
  destruct (h_instr (x_h (s_ctx s4))) eqn:P; [apply a_emit; auto; discriminate|now apply a_ret].
Qed.
Lemma g_exec_rows net col rows : forall s, J s -> agat s (exec_rows E net col rows) (exec_rows E' net col rows).
Proof. induction rows as [|gr t IH]; cbn [exec_rows]; [agk|]. intros s H. agw ltac:(apply g_exec; assumption). Qed.
Lemma firm_rows net col rows : forall s b s', firm = true -> J s -> exec_rows E net col rows s = Ok (b, s') -> b = true.
Proof.
  induction rows as [|gr t IH]; cbn [exec_rows]; intros s b s' FT H K; [unfold ret in K; congruence|]. apply b_inv in K. destruct K as (ok & s1 & K1 & K). pose proof (firm_exec _ _ _ _ _ _ FT H K1) as ->.
  eapply (IH s1); eauto. exact (proj2 (g_exec net col gr s H) _ _ K1).
Qed.
Lemma g_or col rows : forall acc s, J s -> agat s (or_states col rows acc) (or_states col rows acc).
Proof. induction rows as [|gr t IH]; cbn [or_states]; [agk|]. intros acc s H. agw ltac:(apply g_state; assumption). Qed.
Lemma g_puts col rows b : forall s, J s -> agat s (put_states col rows b) (put_states col rows b).
Proof. induction rows as [|gr t IH]; cbn [put_states]; [agk|]. intros s H. agw ltac:(apply g_put; assumption). Qed.
Lemma bar_bound nt col f : forall g e, bar_run f nt col g = Ok e -> (g <= e)%nat /\ (e = g \/ (e < n_rows nt)%nat).
Proof.
  induction f as [|f IH]; intros g e K; cbn [bar_run] in K; [injection K as <-; auto|]. destruct (Nat.ltb_spec (S g) (n_rows nt)); [|injection K as <-; auto].
  bind1 K x P. destruct (c_bar x); [|injection K as <-; auto]. apply IH in K. lia.
Qed.
Lemma net_bound c nt : Jc c -> exec_net c = Ok nt -> (n_rows nt <= R)%nat /\ (n_cols nt <= C)%nat.
Proof.
  intros H K. unfold exec_net in K. destruct (x_exec c) as [n|]; [|discriminate]. unfold net_at in K. destruct (x_net c) as [l|] eqn:N; [|discriminate]. unfold nth_res in K.
  destruct (nth_error l n) as [x|] eqn:X; [|discriminate]. injection K as ->. destruct (net_there c0 c n nt (proj1 H)) as (n0 & E0 & S0); [unfold elem; rewrite N; exact X|].
  apply HB in E0. unfold net_shape in S0. assert (n_rows nt = n_rows n0) by congruence. assert (n_cols nt = n_cols n0) by congruence. lia.
Qed.
Lemma rows_bound c nt col g ge : Jc c -> (g < R)%nat -> exec_net c = Ok nt -> group_end nt col g = Ok ge -> (g <= ge)%nat /\ (length (rows_of g ge) <= R)%nat.
Proof.
  intros H G K L. apply (net_bound _ _ H) in K. unfold group_end in L. apply bar_bound in L. split; [lia|]. unfold rows_of. rewrite seq_length. lia.
Qed.
Lemma count_column F net g power col cc s cc' s' : J s -> (g < R)%nat -> scan_column F net g power col cc s = Ok (Some cc', s') -> cc <= cc' <= cc + Z.of_nat R.
Proof.
  intros H G K. unfold scan_column in K. apply b_inv in K. destruct K as (c & s0 & K0 & K). injection K0 as <- <-. apply b_inv in K. destruct K as (nt & s1 & K1 & K). unfold lift in K1. destruct (exec_net (s_ctx s)) as [nt'| |] eqn:N; try discriminate.
  injection K1 as <- <-. apply b_inv in K. destruct K as (ge & s1 & K1 & K). unfold lift in K1. destruct (group_end nt' col g) as [ge'| |] eqn:GE; try discriminate. injection K1 as <- <-.
  destruct (rows_bound _ _ _ _ _ (proj1 H) G N GE) as [_ L]. cbv zeta in K. apply b_inv in K. destruct K as (sk & s1 & K1 & K). destruct sk as [[c1 b]|]; [|discriminate]. apply count_skip in K1.
  destruct (negb power && b); [unfold ret in K; injection K as <- _; lia|]. apply b_inv in K. destruct K as (ok & s2 & _ & K). destruct ok.
  - apply b_inv in K. destruct K as (x & s3 & _ & K). apply b_inv in K. destruct K as ([] & s4 & _ & K). unfold ret in K. injection K as <- _. lia.
  - apply b_inv in K. destruct K as (x & s3 & _ & K). discriminate.
Qed.
Lemma g_column net g power col cc s : J s -> (g < R)%nat -> 0 <= cc -> room (cc + Z.of_nat R) -> agat s (scan_column E net g power col cc) (scan_column E' net g power col cc).
Proof.
  unfold scan_column. intros H G P0 P. apply a_getc. apply a_lift. intros nt N. apply a_lift. intros ge GE. cbv zeta. destruct (rows_bound _ _ _ _ _ (proj1 H) G N GE) as [_ L].
  apply a_bind; [apply g_skip; auto; unfold room in *; lia|]. intros [[c1 sk]|] s1 H1; [|now apply a_ret].
  destruct (negb power && sk); [now apply a_ret|]. apply a_bindk; [now apply g_exec_rows|]. intros ok s2 K2 H2. destruct ok; [agw ltac:(first [apply g_or; assumption|apply g_puts; assumption])|].
  destruct firm_cases as [FF|FF]; [pose proof (firm_rows _ _ _ _ _ _ FF H1 K2); discriminate|]. agw ltac:(apply a_inv; assumption).
Qed.
Definition upto {A} (m : res (option A * st)) (P : A -> Prop) : Prop := forall a s', m = Ok (Some a, s') -> P a.
Lemma g_columns net g power f : forall col cc s, J s -> (g < R)%nat -> 0 <= cc -> room (cc + Z.of_nat f * Z.of_nat R) ->
  agat s (scan_columns E f net g power col cc) (scan_columns E' f net g power col cc)
  /\ upto (scan_columns E f net g power col cc s) (fun cc' => cc <= cc' <= cc + Z.of_nat f * Z.of_nat R).
Proof.
  induction f as [|f IH]; cbn [scan_columns]; intros col cc s H G P0 P.
  - split; [apply a_bind; [now apply g_cols|]; intros n s1 H1; destruct (col <? n)%nat; [apply a_nofuel|now apply a_ret]|].
    intros cc' s' K. apply b_inv in K. destruct K as (n & s1 & K1 & K). destruct (col <? n)%nat; [discriminate|]. unfold ret in K. injection K as <- _. lia.
  - split.
    + apply a_bind; [now apply g_cols|]. intros n s1 H1. destruct (col <? n)%nat; [|now apply a_ret]. apply a_bindk; [apply g_column; auto; unfold room in *; nia|].
      intros [cc'|] s2 K H2; [|now apply a_ret]. apply count_column in K; auto. apply IH; auto; unfold room in *; nia.
    + intros cc' s' K. apply b_inv in K. destruct K as (n & s1 & K1 & K). apply (proj2 (g_cols _ H)) in K1. destruct (col <? n)%nat; [|unfold ret in K; injection K as <- _; nia].
      apply b_inv in K. destruct K as ([c1|] & s2 & K2 & K); [|discriminate]. assert (H2 : J s2) by (eapply (g_column net g power col cc s1); eauto; unfold room in *; nia).
      apply count_column in K2; auto. apply IH in K; auto; unfold room in *; nia.
Qed.
Definition per : Z := 1 + Z.of_nat C * Z.of_nat R.
Lemma g_rung net row cc s : J s -> (row < R)%nat -> 0 <= cc -> room (cc + per) ->
  agat s (scan_rung E net row cc) (scan_rung E' net row cc)
  /\ upto (scan_rung E net row cc s) (fun x => (row < fst x)%nat /\ cc <= snd x <= cc + per).
Proof.
  intros H G P0 P. assert (PR : 1 <= per) by (unfold per; nia). unfold scan_rung. split.
  - apply a_bind; [apply g_cycles; auto; unfold room in *; lia|]. intros go s1 H1. destruct go; [|now apply a_ret]. apply a_bind; [now apply g_cell|]. intros x s2 H2. destruct (is_multi (c_code x)); [now apply a_ret|].
    apply a_getc. apply a_lift. intros nt N. apply a_lift. intros ge GE. apply a_lift. intros lo L. destruct (net_bound _ _ (proj1 H2) N) as [_ NC].
    apply a_bind; [apply g_columns; auto; unfold room, per in *; nia|]. intros [cc'|] s3 H3; [|now apply a_ret].
    apply a_getc. apply a_bind; [|intros; now apply a_ret]. destruct (h_scan_end (x_h (s_ctx s3))) eqn:Q; [apply a_emit; auto; discriminate|now apply a_ret].
  - intros [r' cc'] s' K. cbn [fst snd]. rewrite (bind_ok _ _ _ _ _ (cycles_ok E (cc + 1) s H ltac:(unfold room in *; lia))) in K. apply b_inv in K. destruct K as (x & s1 & K1 & K). apply (proj2 (g_cell _ _ _ H)) in K1.
    destruct (is_multi (c_code x)); [unfold ret in K; injection K as <- <- _; lia|]. apply b_inv in K. destruct K as (c & s0 & K0 & K). injection K0 as <- <-.
    apply b_inv in K. destruct K as (nt & s2 & K2 & K). unfold lift in K2. destruct (exec_net (s_ctx s1)) as [nt'| |] eqn:N; try discriminate. injection K2 as <- <-.
    apply b_inv in K. destruct K as (ge & s2 & K2 & K). unfold lift in K2. destruct (group_end nt' 0 row) as [ge'| |] eqn:GE; try discriminate. injection K2 as <- <-.
    destruct (net_bound _ _ (proj1 K1) N) as [_ NC]. destruct (rows_bound _ _ _ _ _ (proj1 K1) G N GE) as [L1 _].
    apply b_inv in K. destruct K as (lo & s2 & K2 & K). assert (s2 = s1) as -> by (unfold lift in K2; destruct (is_lower nt' row); congruence). clear K2.
    apply b_inv in K. destruct K as ([c1|] & s3 & K3 & K); [|discriminate]. apply g_columns in K3; auto; [|lia|unfold room, per in *; nia].
    apply b_inv in K. destruct K as (c & s4 & _ & K). apply b_inv in K. destruct K as (u & s5 & _ & K). unfold ret in K. injection K as <- <- _. unfold per. nia.
Qed.
Lemma g_scan_rows net f : forall row cc s, J s -> 0 <= cc <= Z.of_nat row * per -> agat s (scan_rows E f net row cc) (scan_rows E' f net row cc).
Proof.
  induction f as [|f IH]; cbn [scan_rows]; intros row cc s H P; (apply a_bindk; [now apply g_rows|]; intros n s1 K H1; destruct (Nat.ltb_spec row n) as [L|L]; [|now apply a_ret]); [apply a_nofuel|].
  assert (B : (row < R)%nat).
  { unfold mrows, bind, getc, lift in K. destruct (exec_net (s_ctx s)) as [nt| |] eqn:N; try discriminate. unfold ret in K. injection K as <- _. apply (net_bound _ _ (proj1 H)) in N. lia. }
  assert (RP : room (cc + per)) by (unfold room; fold per; assert (1 <= per) by (unfold per; nia); nia).
  destruct (g_rung net row cc s1 H1 B ltac:(lia) RP) as [G1 G2]. apply a_bindk; [exact G1|]. intros [[r' cc']|] s2 K2 H2; [|now apply a_ret]. apply G2 in K2. cbn [fst snd] in K2. apply IH; auto.
  assert (1 <= per) by (unfold per; nia). nia.
Qed.
Lemma g_network net s : J s -> agat s (scan_network E net) (scan_network E' net).
Proof.
  unfold scan_network. intros H. apply a_getc. apply a_lift. intros nt N.
  assert (NN : is_null (n_cells nt) = false).
  { unfold net_at in N. destruct (x_net (s_ctx s)) as [l|] eqn:XN; [|discriminate]. unfold nth_res in N. destruct (nth_error l net) as [x|] eqn:X; [|discriminate]. injection N as ->.
    destruct (net_there c0 (s_ctx s) net nt (proj1 (proj1 H))) as (n0 & E0 & S0); [unfold elem; rewrite XN; exact X|]. apply (eq_cells _ EQ) in E0. eapply (map_there (map cell_shape)); [|exact E0]. unfold net_shape in S0. congruence. }
  rewrite NN. agw ltac:(apply g_scan_rows; [assumption|lia]).
Qed.
Lemma g_networks f : forall net s, J s -> agat s (scan_networks E f net) (scan_networks E' f net).
Proof. induction f as [|f IH]; cbn [scan_networks]; intros net s H; agw ltac:(apply g_network; assumption). Qed.
Lemma g_cron s : J s -> agat s (scan_cron E) (scan_cron E').
Proof.
  intros H. unfold scan_cron. apply a_getc. destruct (x_cron (s_ctx s)) as [k|] eqn:XC; [|now apply a_ret]. apply a_bind; [apply a_updc; [eauto with kep|assumption]|]. intros [] s1 H1.
  apply a_bindk; [unfold cron_eval; agw ltac:(agks)|]. intros e s2 K2 H2. destruct (is_ok e) eqn:OK; [now apply a_ret|]. destruct firm_cases as [FF|FF]; [|agw ltac:(apply a_inv; assumption)]. exfalso.
  pose proof (proj2 (proj2 (proj1 H1))) as ST. unfold steady in ST. rewrite FF in INV, ST. destruct INV as [_ CR]. destruct ST as [_ ST].
  unfold cron_eval in K2. apply b_inv in K2. destruct K2 as (c & s3 & K3 & K2). injection K3 as <- <-. apply b_inv in K2. destruct K2 as (k' & s3 & K3 & K2). unfold lift, cron_of in K3. rewrite ST in K3.
  destruct CR as [CR|(k2 & js & CR & CJ & CU)]; cbn [peek] in CR; [injection CR as CR; rewrite CR in K3; discriminate|]. injection CR as CR. rewrite CR in K3. injection K3 as <- <-. rewrite CJ in K2.
  cbn [is_null orb] in K2. destruct (Nat.eqb_spec (cr_used k2) 0); [contradiction|]. apply b_inv in K2. destruct K2 as (t & s3 & _ & K2). apply b_inv in K2. destruct K2 as (u & s4 & _ & K2). unfold ret in K2. injection K2 as <- _. discriminate.
Qed.
Lemma g_scan s : J s -> agat s (ladder_scan E) (ladder_scan E').
Proof.
  unfold ladder_scan. intros H. apply a_bind; [apply a_modc; auto|]. intros [] s1 H1. apply a_bind; [now apply g_cron|]. intros go s2 H2. destruct go; [|now apply a_ret]. apply a_getc.
  rewrite (map_there net_shape (x_net (s_ctx s2)) (x_net c0)); [now apply g_networks| |apply (eq_nets _ EQ)]. pose proof (proj1 (proj1 H2)) as K. unfold shape in K. congruence.
Qed.

(** ** The parts of the task *)

Lemma g_hook present ev s : ev <> EvPanic -> (forall c, present (x_h c) = true -> due c ev) -> J s -> agat s (hook E present ev) (hook E' present ev).
Proof. intros NP D H. apply a_getc. destruct (present (x_h (s_ctx s))) eqn:P; [apply a_emit; auto|now apply a_ret]. Qed.
Lemma stats_limit t si si' : scan_stats t si = Ok si' -> si_maxcyc si' = si_maxcyc si.
Proof. unfold scan_stats. cbv zeta. destruct (u32 (si_count si + 1) =? 0); [discriminate|]. intros K. apply (f_equal (fun r => match r with Ok x => si_maxcyc x | _ => si_maxcyc si end)) in K. cbn [si_maxcyc] in K. congruence. Qed.
Lemma g_stats s : J s -> agat s (scan_time E) (scan_time E').
Proof.
  intros H. unfold scan_time. apply a_getc. rewrite (shape_h _ _ (proj1 (proj1 H))), (proj1 (eq_time _ EQ)). apply a_bind; [now apply a_millis|]. intros t s1 H1. apply a_getc. apply a_lift. intros si ST.
  apply stats_limit in ST. rewrite (shape_q _ _ (proj1 (proj1 H1))), (eq_watchdog _ EQ). cbn [Z.ltb Z.compare andb].
  apply a_bind; [|intros; now apply a_ret]. apply a_modc; auto. intros (K1 & K2 & K3). split; [exact K1|]. split; [cbn; congruence|exact K3].
Qed.
Lemma g_padding s : J s -> agat s (padding E) (padding E').
Proof.
  intros H. apply a_getc. cbv zeta. unfold agat. destruct (0 <? si_target _); cbn [andb]; [|now apply a_ret]. destruct (si_actual _ <? _) eqn:P2; cbn [andb]; [|now apply a_ret].
  destruct (h_delay (x_h (s_ctx s))) eqn:P3; [|now apply a_ret]. apply a_emit; auto; [discriminate|]. simpl. split; auto. right. apply Z.ltb_lt in P2. clear - P2. lia.
Qed.
Lemma g_read f : forall n s, J s -> agat s (read_loop E f n) (read_loop E' f n).
Proof.
  induction f as [|f IH]; cbn [read_loop]; intros n s H; apply a_getc; destruct (Nat.ltb_spec n (io_rq (x_io (s_ctx s)))) as [L|L]; try apply a_nofuel; try now apply a_ret.
  apply a_lift. intros b P. apply pget_at in P. rewrite Nat2Z.id in P.
  assert (b = true) as -> by (rewrite (shape_io _ _ (proj1 (proj1 H))) in L, P; destruct (eq_in _ EQ n L) as [_ Q]; congruence).
  apply a_bind; [|intros [] s1 H1; now apply IH]. apply a_emit; auto; [discriminate|]. simpl. auto.
Qed.
Lemma g_write f : forall n s, J s -> agat s (write_loop E f n) (write_loop E' f n).
Proof.
  induction f as [|f IH]; cbn [write_loop]; intros n s H; apply a_getc; destruct (Nat.ltb_spec n (io_wq (x_io (s_ctx s)))) as [L|L]; try apply a_nofuel; try now apply a_ret.
  apply a_lift. intros b P. apply pget_at in P. rewrite Nat2Z.id in P.
  assert (b = true) as -> by (rewrite (shape_io _ _ (proj1 (proj1 H))) in L, P; destruct (eq_out _ EQ n L) as [_ Q]; congruence).
  apply a_bind; [|intros [] s1 H1; now apply IH]. apply a_emit; auto; [discriminate|]. simpl. split; auto. split; auto.
  intros m K. unfold elem in K. unfold handed. destruct (x_out (s_ctx s)) as [l|]; [|discriminate]. cbn [obind] in K. now rewrite K.
Qed.
Lemma g_reads s : J s -> agat s (read_inputs E) (read_inputs E').
Proof. unfold read_inputs. intros H. agw ltac:(apply g_read; assumption). Qed.
Lemma g_writes s : J s -> agat s (write_outputs E) (write_outputs E').
Proof. unfold write_outputs. intros H. agw ltac:(apply g_write; assumption). Qed.
Ltac agh := first [apply g_writes; assumption|apply g_reads; assumption|apply g_stats; assumption|apply g_padding; assumption
  |apply g_hook; [discriminate|intros c Hc; exact Hc|assumption]].
Ltac agt := agw ltac:(agh).
Lemma g_exit s : firm = false -> J s -> agat s (set_state S_EXIT_TSK) (set_state S_EXIT_TSK).
Proof. intros FF H. apply a_modc; auto. intros (H1 & H2 & H3). split; [exact H1|]. split; [exact H2|]. unfold steady. rewrite FF. left. right. reflexivity. Qed.
Definition fault_tail (F : env) : M unit :=
  updc (upd_out out_revert) ;;; updc revert_memory ;;; updc reset_registers ;;; updc save_previous ;;;
  c <- getc ;; (if x_wof c then ret tt else updc (upd_out out_clear)) ;;; write_outputs F ;;; scan_time F ;;; hook F h_after EvAfter.
Lemma g_fault s : J s -> agat s (fault_tail E) (fault_tail E').
Proof. unfold fault_tail. intros H. agt. Qed.
Lemma g_normal s : J s -> agat s (normal_path E) (normal_path E').
Proof. unfold normal_path. intros H. agt. Qed.
Lemma guard_in s F : J s -> null_guard F (io_rq (x_io (s_ctx s))) (is_null (x_in (s_ctx s))) = ret false.
Proof.
  intros H. unfold null_guard. pose proof (proj1 (proj1 H)) as K. rewrite (shape_io _ _ K). destruct (Nat.ltb_spec 0 (io_rq (x_io c0))) as [L|L]; [|reflexivity].
  destruct (eq_in _ EQ 0%nat L) as [Q _]. rewrite (map_there in_shape (x_in (s_ctx s)) (x_in c0)); auto. unfold shape in K. congruence.
Qed.
Lemma guard_out s F : J s -> null_guard F (io_wq (x_io (s_ctx s))) (is_null (x_out (s_ctx s))) = ret false.
Proof.
  intros H. unfold null_guard. pose proof (proj1 (proj1 H)) as K. rewrite (shape_io _ _ K). destruct (Nat.ltb_spec 0 (io_wq (x_io c0))) as [L|L]; [|reflexivity].
  destruct (eq_out _ EQ 0%nat L) as [Q _]. rewrite (map_there out_shape (x_out (s_ctx s)) (x_out c0)); auto. unfold shape in K. congruence.
Qed.
(** A cycle up to the scan. *)
Definition cycle_head (F : env) : M unit :=
  (t <- millis F ;; modc (fun c => set_x_si (set_si_start t (x_si c)) c)) ;;; hook F h_before EvBefore ;;; updc (upd_in in_hist) ;;; read_inputs F ;;; updc (upd_out out_hist).
Lemma g_head s : J s -> agat s (cycle_head E) (cycle_head E').
Proof. unfold cycle_head. intros H. agt. Qed.
Lemma updc_in s u s1 : J s -> updc (upd_in in_hist) s = Ok (u, s1) -> J s1.
Proof. intros H. apply (proj2 (a_updc _ _ e_in_hist H)). Qed.
End Calm.
