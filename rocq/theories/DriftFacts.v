(** The task with a program without timers computes the same whatever the clock shows; only its statistics differ. *)
From Verif Require Export StillFacts.
Open Scope list_scope.
Open Scope Z_scope.
Local Open Scope m_scope.

(** ** Functions that do not look at the statistics *)

Definition commuting (f : ctx -> res ctx) : Prop := forall v c, f (set_x_si v c) = rbind (f c) (fun c1 => Ok (set_x_si v c1)).
Lemma set_si_self c : set_x_si (x_si c) c = c. Proof. destruct c. reflexivity. Qed.
Lemma commuting_si f c c' : commuting f -> f c = Ok c' -> x_si c' = x_si c.
Proof. intros F H. specialize (F (x_si c) c). rewrite set_si_self, H in F. cbn [rbind] in F. injection F as F. rewrite F. reflexivity. Qed.
Lemma si_operand v r col i c : operand r col i (set_x_si v c) = operand r col i c. Proof. reflexivity. Qed.
Lemma si_safe_index v t z c : safe_index t z (set_x_si v c) = safe_index t z c. Proof. reflexivity. Qed.
Lemma si_safe_port v t m p c : safe_port t m p (set_x_si v c) = safe_port t m p c. Proof. reflexivity. Qed.
Lemma si_reg_value v t z c : reg_value t z (set_x_si v c) = reg_value t z c. Proof. reflexivity. Qed.
Lemma si_out_get v k m p c : out_get k m p (set_x_si v c) = out_get k m p c. Proof. reflexivity. Qed.
Lemma si_in_get v k m p c : in_get k m p (set_x_si v c) = in_get k m p c. Proof. reflexivity. Qed.
Lemma si_cleft v col r c : cleft col r (set_x_si v c) = cleft col r c. Proof. reflexivity. Qed.
Lemma si_cstate v col r c : cstate col r (set_x_si v c) = cstate col r c. Proof. reflexivity. Qed.
Lemma si_ex_cell v r col c : ex_cell r col (set_x_si v c) = ex_cell r col c. Proof. reflexivity. Qed.
Lemma si_ex_data v r col i c : ex_data r col i (set_x_si v c) = ex_data r col i c. Proof. reflexivity. Qed.
Lemma si_prev v r col i c : get_previous_value r col i (set_x_si v c) = get_previous_value r col i c. Proof. reflexivity. Qed.
Lemma si_bk_get v b i c : bk_get b i (set_x_si v c) = bk_get b i c. Proof. destruct b; reflexivity. Qed.
Lemma si_bk_bool v b i c : bk_bool b i (set_x_si v c) = bk_bool b i c. Proof. destruct b; reflexivity. Qed.
Lemma si_exec_net v c : exec_net (set_x_si v c) = exec_net c. Proof. reflexivity. Qed.
Lemma si_net_at v n c : net_at n (set_x_si v c) = net_at n c. Proof. reflexivity. Qed.
Lemma si_cron_of v c : cron_of (set_x_si v c) = cron_of c. Proof. reflexivity. Qed.
Lemma si_table v net pos c : table_slot net pos (set_x_si v c) = table_slot net pos c. Proof. reflexivity. Qed.
Lemma si_read_table v net c : forall n pos, read_table n net pos (set_x_si v c) = read_table n net pos c.
Proof. induction n as [|n IH]; intros pos; cbn [read_table]; [reflexivity|]. unfold get_table. rewrite si_table. destruct (table_slot net pos c) as [[e|[[r cl] w]]| |]; cbn [rbind]; auto. now rewrite IH. Qed.
Lemma si_guard v c : task_guard (set_x_si v c) = task_guard c. Proof. reflexivity. Qed.
Lemma si_handed v n c : handed n (set_x_si v c) = handed n c. Proof. reflexivity. Qed.
Global Hint Rewrite si_operand si_safe_index si_safe_port si_reg_value si_out_get si_in_get si_cleft si_cstate si_ex_cell si_ex_data si_prev si_bk_get si_bk_bool si_exec_net
  si_net_at si_cron_of si_table si_read_table si_guard si_handed : si.

Ltac com := repeat match goal with |- context [rbind ?m _] => first [reflexivity | match m with rbind _ _ => fail 1 | _ => destruct m; cbn [rbind] end] end; try reflexivity.
Lemma c_bank b i z : commuting (bk_put b i z).
Proof. intros v c. unfold bk_put. replace (arr_of b (set_x_si v c)) with (arr_of b c) by (destruct b; reflexivity). destruct (pset (arr_of b c) i z); cbn [rbind]; destruct b; reflexivity. Qed.
Lemma c_in k m p z : commuting (in_put k m p z).
Proof. intros v c. unfold in_put. cbn [set_x_si x_in]. destruct (pget (x_in c) m); cbn [rbind]; [|reflexivity|reflexivity]. destruct (pset _ p z); cbn [rbind]; [|reflexivity|reflexivity]. destruct (pset (x_in c) m _); reflexivity. Qed.
Lemma c_out k m p z : commuting (out_put k m p z).
Proof. intros v c. unfold out_put. cbn [set_x_si x_out]. destruct (pget (x_out c) m); cbn [rbind]; [|reflexivity|reflexivity]. destruct (pset _ p z); cbn [rbind]; [|reflexivity|reflexivity]. destruct (pset (x_out c) m _); reflexivity. Qed.
Lemma c_tm i f : commuting (tm_put i f).
Proof. intros v c. unfold tm_put. cbn [set_x_si x_tm]. destruct (pget (x_tm c) i); cbn [rbind]; [|reflexivity|reflexivity]. destruct (pset (x_tm c) i _); reflexivity. Qed.
Lemma c_cell n r col f : commuting (upd_cell n r col f).
Proof. intros v c. unfold upd_cell. rewrite si_net_at. destruct (net_at n c); cbn [rbind]; [|reflexivity|reflexivity]. destruct (cell_in _ r col); cbn [rbind]; [|reflexivity|reflexivity]. cbn [set_x_si x_net]. destruct (x_net c); reflexivity. Qed.
Lemma c_put col r b : commuting (put_state col r b).
Proof. intros v c. unfold put_state. cbn [set_x_si x_exec]. destruct (x_exec c); [apply c_cell|reflexivity]. Qed.
Lemma c_net n f : commuting (upd_net n f).
Proof. intros v c. unfold upd_net. rewrite si_net_at. destruct (net_at n c); cbn [rbind]; [|reflexivity|reflexivity]. destruct (f _); cbn [rbind]; [|reflexivity|reflexivity]. cbn [set_x_si x_net]. destruct (x_net c); reflexivity. Qed.
Lemma c_cron_clear js f : forall n, commuting (cron_clear f n js).
Proof.
  induction f as [|f IH]; intros n v c; cbn [cron_clear]; [reflexivity|]. destruct (pget js _) as [j| |]; cbn [rbind]; [|reflexivity|reflexivity].
  destruct (j_en j && j_auto j); [|cbn [rbind]; apply IH]. rewrite c_bank. destruct (bk_put B_M (j_flag j) 0 c); cbn [rbind]; [apply IH|reflexivity|reflexivity].
Qed.
Lemma c_cron_eval js t f : forall n, commuting (cron_jobs_eval f n t js).
Proof.
  induction f as [|f IH]; intros n v c; cbn [cron_jobs_eval]; [reflexivity|]. destruct (pget js _) as [j| |]; cbn [rbind]; [|reflexivity|reflexivity].
  destruct (j_en j); [|cbn [rbind]; apply IH]. destruct (cron_valid t (j_map j)) as [b| |]; cbn [rbind]; [|reflexivity|reflexivity]. destruct b; [|cbn [rbind]; apply IH].
  rewrite si_bk_get. destruct (bk_get B_M (j_enreg j) c); cbn [rbind]; [|reflexivity|reflexivity]. rewrite c_bank. destruct (bk_put B_M (j_flag j) _ c); cbn [rbind]; [apply IH|reflexivity|reflexivity].
Qed.
Lemma c_upd_in f : commuting (upd_in f).
Proof. intros v c. unfold upd_in. cbn [set_x_si x_in x_io]. destruct (is_null (x_in c)); [reflexivity|]. destruct (pmap_first _ f (x_in c)); reflexivity. Qed.
Lemma c_upd_out f : commuting (upd_out f).
Proof. intros v c. unfold upd_out. cbn [set_x_si x_out x_io]. destruct (is_null (x_out c)); [reflexivity|]. destruct (pmap_first _ f (x_out c)); reflexivity. Qed.
Ltac crush_bind := repeat (match goal with |- context [rbind ?m _] => match m with rbind _ _ => fail 1 | Ok _ => cbn [rbind] | _ => destruct m; cbn [rbind]; [|reflexivity|reflexivity] end end).
Lemma c_save : commuting save_previous.
Proof. intros v c. unfold save_previous. cbv zeta. cbn [set_x_si x_mem x_prev x_q x_out x_io]. crush_bind. reflexivity. Qed.
Lemma c_revert : commuting revert_memory.
Proof. intros v c. unfold revert_memory. cbv zeta. cbn [set_x_si x_mem x_prev x_q]. crush_bind. reflexivity. Qed.
Lemma c_reset : commuting reset_registers.
Proof. intros v c. unfold reset_registers. cbv zeta. cbn [set_x_si x_regs x_q x_tm]. crush_bind. reflexivity. Qed.
Global Hint Resolve c_bank c_in c_out c_tm c_cell c_put c_net c_cron_clear c_cron_eval c_upd_in c_upd_out c_save c_revert c_reset : com.
Lemma si_set_data v r col i w c : set_data_value r col i w (set_x_si v c) = rbind (set_data_value r col i w c) (fun x => Ok (fst x, set_x_si v (snd x))).
Proof.
  unfold set_data_value. rewrite si_ex_data. destruct (ex_data r col i c) as [a| |]; cbn [rbind]; [|reflexivity|reflexivity]. cbv zeta.
  destruct (v_type a); try reflexivity; rewrite ?si_safe_index, ?si_safe_port, ?c_bank.
  all: try (destruct (is_ok _); [|reflexivity]; destruct (bk_put _ _ _ c); reflexivity).
  all: destruct (safe_port _ _ _ c) as [e| |]; cbn [rbind]; [|reflexivity|reflexivity]; destruct (is_ok e); [|reflexivity]; cbn [set_x_si x_in x_out].
  all: (destruct (pget _ (v_module a)) as [b| |]; cbn [rbind]; [|reflexivity|reflexivity]); destruct (is_null _); [reflexivity|].
  all: change (mk_ctx (x_state c) (x_wof c)) with (mk_ctx (x_state c) (x_wof c)).
  all: first [rewrite (c_in _ _ _ _ v c)|rewrite (c_out _ _ _ _ v c)]; first [destruct (in_put _ _ _ _ c)|destruct (out_put _ _ _ _ c)]; reflexivity.
Qed.
Lemma si_set_table v net pos z c : set_table net pos z (set_x_si v c) = rbind (set_table net pos z c) (fun x => Ok (fst x, set_x_si v (snd x))).
Proof. unfold set_table. rewrite si_table. destruct (table_slot net pos c) as [[e|[[r cl] w]]| |]; cbn [rbind]; try reflexivity. rewrite c_cell. destruct (upd_cell _ _ _ _ c); reflexivity. Qed.
Lemma si_write_table v net zs : forall pos c, write_table zs net pos (set_x_si v c) = rbind (write_table zs net pos c) (fun x => Ok (fst x, set_x_si v (snd x))).
Proof.
  induction zs as [|z t IH]; intros pos c; cbn [write_table]; [reflexivity|]. rewrite si_set_table. destruct (set_table net pos z c) as [[e c1]| |]; cbn [rbind fst snd]; [|reflexivity|reflexivity]. destruct (is_ok e); [apply IH|reflexivity].
Qed.

Lemma si_state v c : x_state (set_x_si v c) = x_state c. Proof. reflexivity. Qed.
Lemma si_wof v c : x_wof (set_x_si v c) = x_wof c. Proof. reflexivity. Qed.
Lemma si_q v c : x_q (set_x_si v c) = x_q c. Proof. reflexivity. Qed.
Lemma si_io v c : x_io (set_x_si v c) = x_io c. Proof. reflexivity. Qed.
Lemma si_h v c : x_h (set_x_si v c) = x_h c. Proof. reflexivity. Qed.
Lemma si_for v c : x_for (set_x_si v c) = x_for c. Proof. reflexivity. Qed.
Lemma si_mem v c : x_mem (set_x_si v c) = x_mem c. Proof. reflexivity. Qed.
Lemma si_prv v c : x_prev (set_x_si v c) = x_prev c. Proof. reflexivity. Qed.
Lemma si_regs v c : x_regs (set_x_si v c) = x_regs c. Proof. reflexivity. Qed.
Lemma si_tm v c : x_tm (set_x_si v c) = x_tm c. Proof. reflexivity. Qed.
Lemma si_in v c : x_in (set_x_si v c) = x_in c. Proof. reflexivity. Qed.
Lemma si_out v c : x_out (set_x_si v c) = x_out c. Proof. reflexivity. Qed.
Lemma si_net v c : x_net (set_x_si v c) = x_net c. Proof. reflexivity. Qed.
Lemma si_exec v c : x_exec (set_x_si v c) = x_exec c. Proof. reflexivity. Qed.
Lemma si_cron v c : x_cron (set_x_si v c) = x_cron c. Proof. reflexivity. Qed.
Lemma si_last v c : x_last (set_x_si v c) = x_last c. Proof. reflexivity. Qed.
Global Hint Rewrite si_state si_wof si_q si_io si_h si_for si_mem si_prv si_regs si_tm si_in si_out si_net si_exec si_cron si_last : si.

Lemma f2_len {A} (P : A -> A -> Prop) l l' : Forall2 P l l' -> length l = length l'.
Proof. induction 1; cbn [length]; congruence. Qed.
Section Drift.
Variables (c0 : ctx) (E E' : env).
Hypothesis IN : indifferent c0 E E'.
Hypothesis KS : keeps_shape c0 E.
Hypothesis NOT : no_timers c0.
Hypothesis NW : q_wdg (x_q c0) <= 0.
Definition R (s s' : st) : Prop := shape (s_ctx s) = shape c0 /\ si_target (x_si (s_ctx s)) <= 0 /\ differ_in_stats (s_ctx s) (s_ctx s') /\ Forall2 like_call (s_tr s) (s_tr s').
Definition akin (v w : scanint) : Prop := si_maxcyc v = si_maxcyc w /\ si_target v = si_target w /\ si_count v = si_count w.
Definition dat {A} (s s' : st) (m m' : M A) : Prop :=
  match m s, m' s' with
  | Ok (a, t), Ok (a', t') => a = a' /\ R t t'
  | Bad u, Bad u' => u = u'
  | NoFuel, NoFuel => True
  | _, _ => False end.
Lemma like_refl ev : like_call ev ev. Proof. now left. Qed.
Lemma r_ctx s s' c v : R s s' -> shape c = shape (s_ctx s) -> x_si c = x_si (s_ctx s) -> akin v (x_si (s_ctx s)) -> R (mk_st c (s_tr s)) (mk_st (set_x_si v c) (s_tr s')).
Proof. intros (H1 & H2 & H3 & H4) S X (A1 & A2 & A3). split; [cbn [s_ctx]; congruence|]. split; [cbn [s_ctx]; now rewrite X|]. split; [|exact H4]. exists v. cbn [s_ctx]. rewrite X. auto. Qed.
Lemma d_ret {A} (a : A) s s' : R s s' -> dat s s' (ret a) (ret a).
Proof. intros H. split; auto. Qed.
Lemma d_bad {A} u s s' : dat s s' (@bad A u) (bad u).
Proof. reflexivity. Qed.
Lemma d_nofuel {A} s s' : dat s s' (@nofuel A) nofuel.
Proof. exact I. Qed.
Lemma d_bindk {A B} (m m' : M A) (k k' : A -> M B) s s' : dat s s' m m' -> (forall a t t', m s = Ok (a, t) -> R t t' -> dat t t' (k a) (k' a)) -> dat s s' (bind m k) (bind m' k').
Proof.
  unfold dat, bind. intros H K. destruct (m s) as [[a t]|u|]; destruct (m' s') as [[a' t']|u'|]; try contradiction; auto.
  destruct H as [<- H]. apply K; auto.
Qed.
Lemma d_bind {A B} (m m' : M A) (k k' : A -> M B) s s' : dat s s' m m' -> (forall a t t', R t t' -> dat t t' (k a) (k' a)) -> dat s s' (bind m k) (bind m' k').
Proof. intros H K. apply d_bindk; auto. Qed.
Lemma d_getc {B} (k k' : ctx -> M B) s s' : R s s' -> (forall v, akin v (x_si (s_ctx s)) -> s_ctx s' = set_x_si v (s_ctx s) -> dat s s' (k (s_ctx s)) (k' (set_x_si v (s_ctx s)))) -> dat s s' (bind getc k) (bind getc k').
Proof. intros (_ & _ & (v & V & A) & _) K. specialize (K v A V). unfold dat, bind, getc in *. now rewrite V. Qed.
Lemma d_lift {A B} (r : res A) (k k' : A -> M B) s s' : (forall a, r = Ok a -> dat s s' (k a) (k' a)) -> dat s s' (bind (lift r) k) (bind (lift r) k').
Proof. intros H. unfold dat, bind, lift. destruct r as [a|u|]; [now apply (H a)| |]; auto. Qed.
Lemma d_lift1 {A} (r : res A) s s' : R s s' -> dat s s' (lift r) (lift r).
Proof. intros H. unfold dat, lift. destruct r; auto. Qed.
Lemma d_modc f f' s s' : R s s' -> (forall v c, f' (set_x_si v c) = set_x_si v (f c)) -> (forall c, shape (f c) = shape c) -> (forall c, x_si (f c) = x_si c) -> dat s s' (modc f) (modc f').
Proof. intros H F1 F2 F3. pose proof H as (_ & _ & (v & V & A) & _). unfold dat, modc. split; auto. rewrite V, F1. apply r_ctx; auto. Qed.
Lemma d_updc f s s' : commuting f -> keeping f -> R s s' -> dat s s' (updc f) (updc f).
Proof.
  intros C F H. pose proof H as (_ & _ & (v & V & A) & _). unfold dat, updc. rewrite V, C. destruct (f (s_ctx s)) as [c| |] eqn:FC; cbn [rbind]; auto.
  split; auto. apply r_ctx; auto; try (now apply F in FC); eapply commuting_si; eauto.
Qed.
Lemma d_emit ev ev' s s' : R s s' -> due (s_ctx s) ev -> like_call ev ev' -> dat s s' (emit E ev) (emit E' ev').
Proof.
  intros (H1 & H2 & H3 & H4) D L. unfold dat, emit. split; auto. rewrite <- (f2_len _ _ _ H4). split; [now apply (ks_act _ _ KS)|]. split; [now apply (in_target _ _ _ IN)|].
  split; [now apply (in_act _ _ _ IN)|]. cbn [s_tr]. now constructor.
Qed.
Lemma d_localtime s s' : R s s' -> dat s s' (localtime E) (localtime E').
Proof.
  intros (H1 & H2 & H3 & H4). unfold dat, localtime. rewrite <- (f2_len _ _ _ H4). split; [apply (in_wall _ _ _ IN)|]. split; [exact H1|]. split; [exact H2|]. split; [exact H3|]. constructor; auto. apply like_refl.
Qed.
Lemma d_panic s s' : R s s' -> dat s s' (panic E) (panic E').
Proof. intros H. apply d_getc; auto. intros v A V. rewrite si_h. destruct (h_panic (x_h (s_ctx s))) eqn:P; [apply d_emit; auto using like_refl|now apply d_ret]. Qed.
Lemma d_foreign id col row s s' : R s s' -> due (s_ctx s) (EvForeign id col row) -> dat s s' (call_foreign E id col row) (call_foreign E' id col row).
Proof.
  intros (H1 & H2 & H3 & H4) D. unfold dat, call_foreign. rewrite <- (f2_len _ _ _ H4). pose proof (ks_foreign _ _ KS (length (s_tr s)) _ _ _ _ H1 D) as K.
  destruct (in_foreign _ _ _ IN (length (s_tr s)) _ _ _ _ _ H1 D H3) as [K1 K2]. pose proof (in_foreign_target _ _ _ IN (length (s_tr s)) _ _ _ _ H1 D H2) as K3.
  destruct (fexec E (length (s_tr s)) id col row (s_ctx s)) as [e c]. destruct (fexec E' (length (s_tr s)) id col row (s_ctx s')) as [e' c']. cbn [fst snd] in *.
  split; auto. split; auto. split; auto. split; auto. constructor; auto. apply like_refl.
Qed.
Lemma d_set_data r col i w s s' : R s s' -> dat s s' (set_data r col i w) (set_data r col i w).
Proof.
  intros H. pose proof H as (_ & _ & (v & V & A) & _). unfold dat, set_data. rewrite V. pose proof (si_set_data (x_si (s_ctx s)) r col i w (s_ctx s)) as X. rewrite set_si_self in X.
  rewrite si_set_data. destruct (set_data_value r col i w (s_ctx s)) as [[e c]| |] eqn:K; cbn [rbind fst snd] in *; auto. split; auto. apply r_ctx; auto; [now apply k_set_data_value in K|].
  injection X as X. rewrite X. reflexivity.
Qed.
Lemma d_state x s s' : R s s' -> dat s s' (set_state x) (set_state x).
Proof. intros H. apply d_modc; auto. Qed.
Lemma d_err e s s' : R s s' -> dat s s' (set_err e) (set_err e).
Proof. intros H. apply d_modc; auto. Qed.
Lemma d_retb {A B} (a : A) (k k' : A -> M B) s s' : dat s s' (k a) (k' a) -> dat s s' (bind (ret a) k) (bind (ret a) k').
Proof. intros H. exact H. Qed.
Lemma d_assoc {A B C} (r : res A) (j : A -> M B) (k k' : B -> M C) s s' : (forall a, r = Ok a -> dat s s' (bind (j a) k) (bind (j a) k')) -> dat s s' (bind (bind (lift r) j) k) (bind (bind (lift r) j) k').
Proof. intros H. unfold dat, bind, lift in *. destruct r as [a|u|]; [apply (H a)| |]; auto. Qed.

Hint Resolve k_bank k_in k_out k_tm k_put k_clear k_cron_clear k_cron_eval k_save k_revert k_reset : kee.
Ltac dag1 := first
  [ apply d_ret; assumption | apply d_bad | apply d_nofuel | apply d_panic; assumption
  | apply d_set_data; assumption | apply d_state; assumption | apply d_err; assumption | apply d_lift1; assumption
  | apply d_updc; [solve [eauto with com]|solve [eauto with kee]|assumption] | apply d_modc; [assumption|solve [reflexivity]|solve [reflexivity]|solve [reflexivity]]
  | apply d_getc; [assumption|intros ? ? ?; autorewrite with si] | apply d_lift; intros ? ? | apply d_bind; [|intros ? ? ? ?] ].
Ltac dags := repeat (cbv beta; cbv zeta; autorewrite with si; first
  [ dag1
  | match goal with
    | H : forall _, _ |- dat _ _ _ _ => solve [apply H; assumption]
    | |- dat _ _ (if ?b then _ else _) _ => destruct b eqn:?
    | |- dat _ _ (match ?b with _ => _ end) _ => destruct b eqn:?
    | |- dat _ _ (let (_, _) := ?b in _) _ => destruct b eqn:? end ]).

Ltac dagw L := intros; repeat (cbv beta; cbv zeta; autorewrite with si; first [ solve [L] | dag1
  | match goal with
    | H : forall _, _ |- dat _ _ _ _ => solve [apply H; assumption]
    | |- dat _ _ (if ?b then _ else _) _ => destruct b eqn:?
    | |- dat _ _ (match ?b with _ => _ end) _ => destruct b eqn:?
    | |- dat _ _ (let (_, _) := ?b in _) _ => destruct b eqn:? end ]).
Lemma dg_gdv r col i s s' : R s s' -> dat s s' (get_data_value E r col i) (get_data_value E' r col i).
Proof. intros H. unfold get_data_value. dags. Qed.
Ltac dagi := dagw ltac:(apply dg_gdv; assumption).
Lemma dg_left col row s s' : R s s' -> dat s s' (mleft col row) (mleft col row).
Proof. unfold mleft. dagi. Qed.
Lemma dg_state col row s s' : R s s' -> dat s s' (mstate col row) (mstate col row).
Proof. unfold mstate. dagi. Qed.
Lemma dg_put col row b s s' : R s s' -> dat s s' (mput col row b) (mput col row b).
Proof. unfold mput. dagi. Qed.
Lemma dg_prev col row i s s' : R s s' -> dat s s' (mprev col row i) (mprev col row i).
Proof. unfold mprev. dagi. Qed.
Lemma dg_idx col row s s' : R s s' -> dat s s' (midx col row) (midx col row).
Proof. unfold midx. dagi. Qed.
Lemma dg_preset col row s s' : R s s' -> dat s s' (mpreset col row) (mpreset col row).
Proof. unfold mpreset. dagi. Qed.
Lemma dg_factor col row s s' : R s s' -> dat s s' (mfactor col row) (mfactor col row).
Proof. unfold mfactor. dagi. Qed.
Ltac dagjs := first [apply dg_gdv; assumption | apply dg_left; assumption | apply dg_state; assumption | apply dg_put; assumption | apply dg_prev; assumption
  | apply dg_idx; assumption | apply dg_preset; assumption | apply dg_factor; assumption ].
Ltac dagj := dagw ltac:(dagjs).
Lemma dg_flag b col row s s' : R s s' -> dat s s' (mflag b col row) (mflag b col row).
Proof. unfold mflag. dagj. Qed.
Lemma dg_flag_set b col row v s s' : R s s' -> dat s s' (mflag_set b col row v) (mflag_set b col row v).
Proof. unfold mflag_set. dagj. Qed.
Lemma dg_count col row s s' : R s s' -> dat s s' (mcount col row) (mcount col row).
Proof. unfold mcount. dagj. Qed.
Lemma dg_count_set col row v s s' : R s s' -> dat s s' (mcount_set col row v) (mcount_set col row v).
Proof. unfold mcount_set. dagj. Qed.
Lemma dg_ts col row s s' : R s s' -> dat s s' (mts col row) (mts col row).
Proof. unfold mts. dagj. Qed.
Lemma dg_ts_set col row v s s' : R s s' -> dat s s' (mts_set col row v) (mts_set col row v).
Proof. unfold mts_set. dagj. Qed.
Lemma dg_acc_set col row v s s' : R s s' -> dat s s' (macc_set col row v) (macc_set col row v).
Proof. unfold macc_set. dagj. Qed.
Ltac dagks := first [apply dg_gdv; assumption | apply dg_left; assumption | apply dg_state; assumption | apply dg_put; assumption | apply dg_prev; assumption
  | apply dg_idx; assumption | apply dg_preset; assumption | apply dg_factor; assumption | apply dg_flag; assumption | apply dg_flag_set; assumption | apply dg_count; assumption
  | apply dg_count_set; assumption | apply dg_ts; assumption | apply dg_ts_set; assumption | apply dg_acc_set; assumption ].
Ltac dagk := dagw ltac:(dagks).
Lemma dg_reset col row s s' : R s s' -> dat s s' (timer_reset col row) (timer_reset col row).
Proof. unfold timer_reset. dagk. Qed.
Lemma dg_chk z s s' : R s s' -> dat s s' (chk z) (chk z).
Proof. unfold chk. dagk. Qed.
Lemma dg_binop op col row : (forall a b s s', R s s' -> dat s s' (op a b) (op a b)) -> forall s s', R s s' -> dat s s' (binop E op col row) (binop E' op col row).
Proof. intros F. unfold binop. dagk. Qed.
Lemma dg_shiftop op col row s s' : R s s' -> dat s s' (shiftop E op col row) (shiftop E' op col row).
Proof. unfold shiftop. dagk. Qed.
Lemma dg_cmpop op col row s s' : R s s' -> dat s s' (cmpop E op col row) (cmpop E' op col row).
Proof. unfold cmpop. dagk. Qed.
Lemma dg_cond col row s s' : R s s' -> dat s s' (counter_reset_cond col row) (counter_reset_cond col row).
Proof. unfold counter_reset_cond. dagk. Qed.
Lemma dg_creset col row z s s' : R s s' -> dat s s' (counter_reset col row z) (counter_reset col row z).
Proof. unfold counter_reset. dagk. Qed.
Lemma dg_ccount col row z s s' : R s s' -> dat s s' (counter_count col row z) (counter_count col row z).
Proof. unfold counter_count. dagk. Qed.
Ltac dagc := dagw ltac:(first [dagks | apply dg_cond; assumption | apply dg_creset; assumption | apply dg_ccount; assumption]).
Lemma dg_move col row s s' : R s s' -> dat s s' (fn_MOVE E col row) (fn_MOVE E' col row).
Proof. unfold fn_MOVE, move_src. dagk. Qed.
Lemma r_wj s s' : R s s' -> wJ c0 (s_tr s) s.
Proof. intros (H & _). split; [exact H|]. exists []. auto. Qed.
Lemma self_but_time : alike_but_time c0 E E.
Proof. constructor; auto. Qed.
Lemma dg_foreign col row n s s' : wat_cell row col n (s_ctx s) -> R s s' -> dat s s' (fn_FOREIGN E col row) (fn_FOREIGN E' col row).
Proof.
  intros A H. unfold fn_FOREIGN. apply d_bindk; [now apply dg_gdv|]. intros v s1 t1 G1 H1. apply d_getc; auto. intros w1 A1 V1. autorewrite with si. cbv beta. destruct (_ <=? _); [now apply d_ret|]. apply d_bindk; [now apply dg_gdv|].
  intros v2 s2 t2 G2 H2. apply d_getc; auto. intros w2 A2 V2. autorewrite with si. apply d_lift. intros u P. apply d_foreign; auto. cbn [due]. apply pget_at in P. split; [congruence|]. exists n.
  eapply (wgdv_at c0 E E self_but_time KS); [exact (r_wj _ _ H1)| |exact G2]. eapply (wgdv_at c0 E E self_but_time KS); [exact (r_wj _ _ H)| |exact G1]. exact A.
Qed.
Lemma dg_twrite zs p q v K s s' : R s s' -> akin v (x_si (s_ctx s)) -> s_ctx s' = set_x_si v (s_ctx s) -> (forall e t t', R t t' -> dat t t' (K e) (K e)) ->
  dat s s' (x <- lift (write_table zs p q (s_ctx s)) ;; let (e, c') := x in modc (fun _ => c') ;;; K e)
           (x <- lift (write_table zs p q (set_x_si v (s_ctx s))) ;; let (e, c') := x in modc (fun _ => c') ;;; K e : M err).
Proof.
  intros H A V F. pose proof (si_write_table (x_si (s_ctx s)) p zs q (s_ctx s)) as X. rewrite set_si_self in X. rewrite si_write_table.
  destruct (write_table zs p q (s_ctx s)) as [[e c]| |] eqn:W; cbn [rbind fst snd] in *; try exact eq_refl; try exact I.
  injection X as X. apply k_write_table in W. assert (RR : R (mk_st c (s_tr s)) (mk_st (set_x_si v c) (s_tr s'))) by (apply r_ctx; auto; rewrite X; reflexivity). exact (F e _ _ RR).
Qed.
Lemma dg_tmove col row s s' : R s s' -> dat s s' (fn_TMOVE E col row) (fn_TMOVE E' col row).
Proof.
  intros H. unfold fn_TMOVE. cbv zeta. do 5 (apply d_bind; [now apply dg_gdv|]; intros; cbv beta). match goal with |- dat _ _ (if ?b then _ else _) _ => destruct b end; [dagk|].
  clear s s' H. match goal with HS : R ?s ?s' |- dat ?s ?s' _ _ => rename s into z1; rename s' into z2; rename HS into HZ end.
  apply d_getc; [exact HZ|]. intros v A V. autorewrite with si. apply d_lift. intros dnet DN. destruct (n_en dnet); [apply d_retb; dagk|].
  apply d_assoc. intros sn SN. apply d_retb. autorewrite with si. destruct (n_en sn); [dagk|]. apply d_lift. intros sn' _. match goal with |- dat _ _ (if ?b then _ else _) _ => destruct b end; [dagk|].
  autorewrite with si. apply d_lift. intros [e|zs] _; [dagk|]. apply dg_twrite; auto. intros e u1 u2 T. dagk.
Qed.
Lemma dg_function i f f' col row n s s' : ladder_function E i = Some f -> ladder_function E' i = Some f' -> timer_ins i = false -> wat_cell row col n (s_ctx s) -> R s s' -> dat s s' (f col row) (f' col row).
Proof.
  intros F F' NI AC H. destruct i; try discriminate F; try discriminate NI; cbn [ladder_function] in F, F'; injection F as <-; injection F' as <-;
    first [ now apply dg_move | now apply (dg_foreign col row n) | now apply dg_tmove | now apply dg_shiftop | now apply dg_cmpop
          | apply dg_binop; [intros; first [now apply dg_chk | dagk]|assumption]
          | unfold fn_NOP, fn_CONN, fn_NEG, fn_NO, fn_NC, fn_RE, fn_FE, fn_COIL, fn_COILL, fn_COILU, fn_SUB, fn_DIV, fn_NOT; dagw ltac:(first [dagks | apply dg_chk; assumption]); fail
          | unfold fn_CTU, fn_CTD; dagc; fail | idtac ].
Qed.
Lemma dg_cell row col s s' : R s s' -> dat s s' (mcell row col) (mcell row col).
Proof. unfold mcell. dagk. Qed.
Lemma dg_rows s s' : R s s' -> dat s s' mrows mrows.
Proof. unfold mrows. dagk. Qed.
Lemma dg_cols s s' : R s s' -> dat s s' mcols mcols.
Proof. unfold mcols. dagk. Qed.
Lemma dg_cycles cc s s' : R s s' -> dat s s' (check_cycles E cc) (check_cycles E' cc).
Proof.
  intros H. unfold check_cycles. apply d_getc; auto. intros v (A & _) V. cbn [set_x_si x_si]. rewrite A. apply d_bind; [destruct (_ <? _); [now apply d_panic|now apply d_ret]|].
  intros _ s1 t1 H1. apply d_getc; auto. intros w (B & _) W. cbn [set_x_si x_si]. rewrite B. dagk.
Qed.
Lemma dg_skip rows col : forall cc s s', R s s' -> dat s s' (skip_loop E rows col cc) (skip_loop E' rows col cc).
Proof. induction rows as [|gr t IH]; cbn [skip_loop]; [dagk|]. intros cc s s' H. dagw ltac:(first [apply dg_cycles; assumption|apply dg_cell; assumption]). Qed.
Lemma dg_exec net col row s s' : R s s' -> dat s s' (exec_cell E net col row) (exec_cell E' net col row).
Proof.
  intros H. unfold exec_cell. apply d_bindk; [now apply dg_cell|]. intros x s1 t1 G1 H1. apply d_bindk; [apply d_modc; auto|]. intros [] s2 t2 G2 H2. destruct (is_multi (c_code x)); [now apply d_ret|].
  assert (NI : timer_ins (c_code x) = false).
  { unfold mcell, bind, getc, lift in G1. destruct (ex_cell row col (s_ctx s)) as [y| |] eqn:X; try discriminate. injection G1 as -> <-.
    unfold ex_cell in X. destruct (x_exec (s_ctx s)) as [n|] eqn:EX; [|discriminate]. destruct (net_at n (s_ctx s)) as [nt| |] eqn:NA; cbn [rbind] in X; try discriminate.
    pose proof (wcell_there _ _ _ _ _ _ NA X) as C. apply (NOT n row col (c_bar x) (c_code x) (c_dq x)). rewrite <- (shape_cell _ _ n row col (proj1 H)). cbn [peek]. now rewrite C. }
  assert (AC : exists n, wat_cell row col n (s_ctx s2)).
  { unfold modc in G2. injection G2 as <-. unfold mcell, bind, getc, lift in G1. destruct (ex_cell row col (s_ctx s)) as [y| |] eqn:X; try discriminate. injection G1 as -> <-.
    unfold ex_cell in X. destruct (x_exec (s_ctx s)) as [n|] eqn:EX; [|discriminate]. destruct (net_at n (s_ctx s)) as [nt| |] eqn:NT; cbn [rbind] in X; try discriminate. exists n.
    split; cbn [peek s_ctx set_x_last x_exec]; [now rewrite EX|]. change (cell_of (set_x_last (mk_lastinfo (u8 (ins_code (c_code x))) net col row E_OK) (s_ctx s)) n row col) with (cell_of (s_ctx s) n row col).
    rewrite (wcell_there _ _ _ _ _ _ NT X). discriminate. }
  destruct AC as [n AC].
  pose proof (wfunctions_alike E E' (c_code x)) as FA. destruct (ladder_function E (c_code x)) as [f|] eqn:F; destruct (ladder_function E' (c_code x)) as [f'|] eqn:F'; try contradiction; [|dagk].
  apply d_bind; [eapply dg_function; eauto|]. intros e s3 t3 H3. apply d_bind; [now apply d_err|]. intros [] s4 t4 H4. destruct (is_ok e); [|now apply d_ret]. apply d_getc; auto. intros v A V. autorewrite with si.
  apply d_bind; [|intros; now apply d_ret]. destruct (h_instr (x_h (s_ctx s4))) eqn:P; [apply d_emit; auto using like_refl|now apply d_ret].
Qed.
Lemma dg_exec_rows net col rows : forall s s', R s s' -> dat s s' (exec_rows E net col rows) (exec_rows E' net col rows).
Proof. induction rows as [|gr t IH]; cbn [exec_rows]; [dagk|]. intros s s' H. dagw ltac:(apply dg_exec; assumption). Qed.
Lemma dg_or col rows : forall acc s s', R s s' -> dat s s' (or_states col rows acc) (or_states col rows acc).
Proof. induction rows as [|gr t IH]; cbn [or_states]; [dagk|]. intros acc s s' H. dagw ltac:(apply dg_state; assumption). Qed.
Lemma dg_puts col rows b : forall s s', R s s' -> dat s s' (put_states col rows b) (put_states col rows b).
Proof. induction rows as [|gr t IH]; cbn [put_states]; [dagk|]. intros s s' H. dagw ltac:(apply dg_put; assumption). Qed.
Lemma dg_column net g power col cc s s' : R s s' -> dat s s' (scan_column E net g power col cc) (scan_column E' net g power col cc).
Proof. unfold scan_column. intros H. dagw ltac:(first [apply dg_skip; assumption|apply dg_exec_rows; assumption|apply dg_or; assumption|apply dg_puts; assumption]). Qed.
Lemma dg_columns net g power f : forall col cc s s', R s s' -> dat s s' (scan_columns E f net g power col cc) (scan_columns E' f net g power col cc).
Proof. induction f as [|f IH]; cbn [scan_columns]; intros col cc s s' H; dagw ltac:(first [apply dg_cols; assumption|apply dg_column; assumption]). Qed.
Lemma dg_rung net row cc s s' : R s s' -> dat s s' (scan_rung E net row cc) (scan_rung E' net row cc).
Proof.
  unfold scan_rung. intros H. apply d_bind; [now apply dg_cycles|]. intros go s1 t1 H1. destruct go; [|now apply d_ret]. apply d_bind; [now apply dg_cell|]. intros x s2 t2 H2. destruct (is_multi (c_code x)); [now apply d_ret|].
  apply d_getc; auto. intros v A V. autorewrite with si. apply d_lift. intros nt N. apply d_lift. intros ge G. apply d_lift. intros lo L. apply d_bind; [now apply dg_columns|]. intros [cc'|] s3 t3 H3; [|now apply d_ret].
  apply d_getc; auto. intros w A' V'. autorewrite with si. apply d_bind; [|intros; now apply d_ret]. destruct (h_scan_end (x_h (s_ctx s3))) eqn:P; [apply d_emit; auto using like_refl|now apply d_ret].
Qed.
Lemma dg_scan_rows net f : forall row cc s s', R s s' -> dat s s' (scan_rows E f net row cc) (scan_rows E' f net row cc).
Proof. induction f as [|f IH]; cbn [scan_rows]; intros row cc s s' H; dagw ltac:(first [apply dg_rows; assumption|apply dg_rung; assumption]). Qed.
Lemma dg_network net s s' : R s s' -> dat s s' (scan_network E net) (scan_network E' net).
Proof. unfold scan_network. intros H. dagw ltac:(apply dg_scan_rows; assumption). Qed.
Lemma dg_networks f : forall net s s', R s s' -> dat s s' (scan_networks E f net) (scan_networks E' f net).
Proof. induction f as [|f IH]; cbn [scan_networks]; intros net s s' H; dagw ltac:(apply dg_network; assumption). Qed.
Lemma dg_cron s s' : R s s' -> dat s s' (scan_cron E) (scan_cron E').
Proof. unfold scan_cron, cron_eval. dagw ltac:(first [dagks | apply d_localtime; assumption]). Qed.
Lemma dg_scan s s' : R s s' -> dat s s' (ladder_scan E) (ladder_scan E').
Proof. unfold ladder_scan. intros H. dagw ltac:(first [apply dg_cron; assumption|apply dg_networks; assumption]). Qed.

Lemma dg_hook present ev s s' : (forall c, present (x_h c) = true -> due c ev) -> R s s' -> dat s s' (hook E present ev) (hook E' present ev).
Proof. intros D H. apply d_getc; auto. intros v A V. rewrite si_h. destruct (present (x_h (s_ctx s))) eqn:P; [apply d_emit; auto using like_refl|now apply d_ret]. Qed.
Lemma r_q s s' : R s s' -> q_wdg (x_q (s_ctx s)) <= 0.
Proof. intros (H & _). unfold shape in H. assert (Q : x_q (s_ctx s) = x_q c0) by congruence. rewrite Q. exact NW. Qed.
(** After a reading of the clock the two machines know different times. *)
Lemma d_millis {B} (k k' : Z -> M B) s s' : R s s' -> h_millis (x_h (s_ctx s)) = true -> (forall t t' s1 s1', R s1 s1' -> dat s1 s1' (k t) (k' t')) ->
  dat s s' (bind (millis E) k) (bind (millis E') k').
Proof.
  intros H P K. assert (D : due (s_ctx s) (EvMillis (u64 (clk E (length (s_tr s)))))) by exact P.
  pose proof (d_emit (EvMillis (u64 (clk E (length (s_tr s))))) (EvMillis (u64 (clk E' (length (s_tr s'))))) s s' H D (or_intror (conj eq_refl eq_refl))) as G.
  unfold dat, emit in G. destruct G as [_ G]. exact (K _ _ _ _ G).
Qed.
Lemma d_si f f' s s' : R s s' -> (forall v, akin (f v) v) -> (forall v, akin (f' v) v) -> dat s s' (modc (fun c => set_x_si (f (x_si c)) c)) (modc (fun c => set_x_si (f' (x_si c)) c)).
Proof.
  intros (H1 & H2 & (v & V & A1 & A2 & A3) & H4) F F'. unfold dat, modc. split; auto. destruct (F (x_si (s_ctx s))) as (F1 & F2 & F3). destruct (F' v) as (F1' & F2' & F3').
  split; [exact H1|]. split; [cbn [s_ctx set_x_si x_si]; now rewrite F2|]. split; [|exact H4]. exists (f' v). cbn [s_ctx]. rewrite V. split; [reflexivity|]. cbn [set_x_si x_si]. repeat split; congruence.
Qed.
Lemma dg_stats s s' : R s s' -> dat s s' (scan_time E) (scan_time E').
Proof.
  intros H. unfold scan_time. apply d_getc; auto. intros v A V. rewrite si_h. destruct (h_millis (x_h (s_ctx s))) eqn:P; [|dagk]. apply d_millis; auto.
  clear s s' H v A V P. intros t t' s s' H. apply d_getc; auto. intros v (A1 & A2 & A3) V. autorewrite with si. cbn [set_x_si x_si]. pose proof (r_q _ _ H) as Q.
  assert (N : 0 <? q_wdg (x_q (s_ctx s)) = false) by (apply Z.ltb_ge; exact Q). rewrite N. cbn [andb].
  unfold scan_stats. rewrite A3. cbv zeta. destruct (u32 (si_count (x_si (s_ctx s)) + 1) =? 0); [reflexivity|].
  destruct H as (H1 & H2 & _ & H4). unfold dat, bind, lift, modc, ret. split; auto. split; [exact H1|]. split; [exact H2|]. split; [|exact H4]. cbn [s_ctx]. rewrite V. eexists. split; [reflexivity|].
  cbn [set_x_si x_si si_maxcyc si_target si_count]. auto.
Qed.
Lemma dg_padding s s' : R s s' -> dat s s' (padding E) (padding E').
Proof.
  intros H. apply d_getc; auto. intros v (A1 & A2 & A3) V. cbv zeta. cbn [set_x_si x_si]. rewrite A2. pose proof H as (_ & T & _). assert (N : 0 <? si_target (x_si (s_ctx s)) = false) by (apply Z.ltb_ge; exact T).
  rewrite N. cbn [andb]. now apply d_ret.
Qed.
Lemma dg_read f : forall n s s', R s s' -> dat s s' (read_loop E f n) (read_loop E' f n).
Proof.
  induction f as [|f IH]; cbn [read_loop]; intros n s s' H; apply d_getc; auto; intros v A V; autorewrite with si; destruct (Nat.ltb_spec n (io_rq (x_io (s_ctx s)))); try apply d_nofuel; try now apply d_ret.
  apply d_lift. intros b P. destruct b; [|dagk]. apply d_bind; [|intros [] s1 t1 H1; now apply IH]. apply d_emit; auto using like_refl. simpl. split; auto. apply pget_at in P. now rewrite Nat2Z.id in P.
Qed.
Lemma dg_write f : forall n s s', R s s' -> dat s s' (write_loop E f n) (write_loop E' f n).
Proof.
  induction f as [|f IH]; cbn [write_loop]; intros n s s' H; apply d_getc; auto; intros v A V; autorewrite with si; destruct (Nat.ltb_spec n (io_wq (x_io (s_ctx s)))); try apply d_nofuel; try now apply d_ret.
  apply d_lift. intros b P. destruct b; [|dagk]. apply d_bind; [|intros [] s1 t1 H1; now apply IH]. apply d_emit; auto using like_refl. simpl. split; auto. apply pget_at in P. rewrite Nat2Z.id in P. split; auto.
  intros m K. unfold elem in K. unfold handed. destruct (x_out (s_ctx s)) as [l|]; [|discriminate]. cbn [obind] in K. now rewrite K.
Qed.
Lemma dg_reads s s' : R s s' -> dat s s' (read_inputs E) (read_inputs E').
Proof. unfold read_inputs. intros H. dagw ltac:(apply dg_read; assumption). Qed.
Lemma dg_writes s s' : R s s' -> dat s s' (write_outputs E) (write_outputs E').
Proof. unfold write_outputs. intros H. dagw ltac:(apply dg_write; assumption). Qed.
Hint Resolve k_out_revert k_out_clear k_out_hist k_in_hist : kee.
Ltac dagh := first [apply dg_writes; assumption|apply dg_reads; assumption|apply dg_stats; assumption|apply dg_padding; assumption|apply dg_scan; assumption
  |apply dg_hook; [intros c Hc; exact Hc|assumption]].
Ltac dagt := dagw ltac:(dagh).
Lemma dg_fault s s' : R s s' -> dat s s' (fault_path E) (fault_path E').
Proof. unfold fault_path. intros H. dagt. Qed.
Lemma dg_normal s s' : R s s' -> dat s s' (normal_path E) (normal_path E').
Proof. unfold normal_path. intros H. dagt. Qed.
Lemma dg_guard n b s s' : R s s' -> dat s s' (null_guard E n b) (null_guard E' n b).
Proof. unfold null_guard. dagk. Qed.
Lemma dg_cycle s s' : R s s' -> dat s s' (cycle E) (cycle E').
Proof.
  unfold cycle. intros H. apply d_getc; auto. intros v A V. rewrite si_h. apply d_bind.
  { destruct (h_millis (x_h (s_ctx s))) eqn:P.
    - apply d_millis; auto. intros t t' s1 s1' H1. apply (d_si (set_si_start t) (set_si_start t')); auto; intros w; repeat split; reflexivity.
    - apply d_bind; [apply (d_si (set_si_start 0) (set_si_start 0)); auto; intros w; repeat split; reflexivity|]. intros _ s1 t1 H1. dagk. }
  clear s s' H v A V. intros _ s s' H. dagw ltac:(first [dagh|apply dg_guard; assumption|apply dg_fault; assumption|apply dg_normal; assumption]).
Qed.
Lemma dg_wait n : forall s s', R s s' -> dat s s' (wait E n) (wait E' n).
Proof.
  induction n as [|n IH]; cbn [wait]; intros s s' H; apply d_getc; auto; intros v A V; autorewrite with si; cbv beta; [now apply d_ret|]. destruct (lstate_eqb _ S_RUNNING); [now apply d_ret|]. destruct (lstate_eqb _ _); [now apply d_ret|].
  apply d_bind; [|intros; now apply IH]. apply d_getc; auto. intros w A' V'. autorewrite with si. destruct (h_delay (x_h (s_ctx s))) eqn:P; [|dagk]. apply d_emit; auto using like_refl. simpl. auto.
Qed.
Lemma dg_timeout b s s' : R s s' -> dat s s' (wait_timeout E b) (wait_timeout E' b).
Proof. unfold wait_timeout. dagk. Qed.
Lemma dg_loop f : forall s s', R s s' -> dat s s' (task_loop E f) (task_loop E' f).
Proof.
  induction f as [|f IH]; cbn [task_loop]; intros s s' H; apply d_getc; auto; intros v A V; autorewrite with si; cbv beta; destruct (lstate_eqb _ S_EXIT_TSK); try now apply d_ret.
  apply d_bind; [now apply dg_wait|]. intros [b|] s1 t1 H1; [|now apply d_ret]. apply d_bind; [now apply dg_timeout|]. intros [] s2 t2 H2. apply d_getc; auto. intros w A' V'. autorewrite with si. cbv beta.
  destruct (lstate_eqb _ S_RUNNING); [|now apply IH]. apply d_bind; [now apply dg_cycle|]. intros [|] s3 t3 H3; [now apply IH|now apply d_ret].
Qed.
Lemma dg_task f s s' : R s s' -> dat s s' (ladder_task E f) (ladder_task E' f).
Proof.
  unfold ladder_task. intros H. apply d_getc; auto. intros v A V. autorewrite with si. apply d_lift. intros g G. destruct g; [dagk|]. apply d_bind; [now apply dg_loop|]. intros r s1 t1 H1.
  destruct r; try now apply d_ret. apply d_bind; [apply dg_hook; auto|]. intros; now apply d_ret.
Qed.
End Drift.
