(** calls made by the task (C61). *)
From Verif Require Import DemoTask.
From Verif Require Export CallFacts.
Open Scope list_scope.
Open Scope Z_scope.
(*IMPORT DemoTask *)

Lemma scan_called E E' s u s' : h_millis (x_h (s_ctx s)) = true -> alike (s_ctx s) E E' -> keeps_shape (s_ctx s) E ->
  ladder_scan E s = ladder_scan E' s /\ (ladder_scan E s = Ok (u, s') -> J (s_ctx s) (s_tr s) s').
Proof.
  intros HM AL KS. assert (H : J (s_ctx s) (s_tr s) s) by (split; [reflexivity|exists []; auto]).
  destruct (g_scan (s_ctx s) E E' AL KS HM (s_tr s) s H) as [H1 H2]. split; auto. apply H2.
Qed.
Lemma task_called E E' n s u s' : alike (s_ctx s) E E' -> keeps_shape (s_ctx s) E ->
  ladder_task E n s = ladder_task E' n s /\ (ladder_task E n s = Ok (u, s') -> J (s_ctx s) (s_tr s) s').
Proof.
  intros AL KS. assert (H : J (s_ctx s) (s_tr s) s) by (split; [reflexivity|exists []; auto]). destruct (h_millis (x_h (s_ctx s))) eqn:HM.
  - destruct (g_task (s_ctx s) E E' AL KS HM (s_tr s) n s H) as [H1 H2]. split; auto. apply H2.
  - assert (G : forall E0, ladder_task E0 n s = Ok (Returned, mk_st (set_x_state S_NULLFN (s_ctx s)) (s_tr s))).
    { intros E0. unfold ladder_task, getc, bind, lift, task_guard. cbv beta iota zeta. rewrite HM. reflexivity. }
    split; [now rewrite !G|]. rewrite G. intros K. injection K as <- <-. apply j_ctx; auto. reflexivity.
Qed.
Lemma alike_self c E : alike c E E.
Proof. constructor; auto. Qed.

(** ** C61 *)

(** Two environments with the same clock and calendar that behave alike in all calls belonging to the machine make the task do
    the same, step for step: what a function registered with the library does when it is not registered for the purpose, on a
    module that does not exist, or on a context of another shape, has no influence. *)
Lemma C61_same_task_l : forall E E' n s, alike (s_ctx s) E E' -> keeps_shape (s_ctx s) E -> ladder_task E n s = ladder_task E' n s.
Proof. intros E E' n s AL KS. apply (task_called E E' n s Running s AL KS). Qed.
Lemma C61_same_scan_l : forall E E' s, h_millis (x_h (s_ctx s)) = true -> alike (s_ctx s) E E' -> keeps_shape (s_ctx s) E -> ladder_scan E s = ladder_scan E' s.
Proof. intros E E' s HM AL KS. apply (scan_called E E' s tt s HM AL KS). Qed.
(** A task whose functions leave the shape of the context alone ends with a context of the same shape, and all calls it made
    belong to that machine. *)
Lemma C61_calls_l : forall E n s r s', keeps_shape (s_ctx s) E -> ladder_task E n s = Ok (r, s') ->
  shape (s_ctx s') = shape (s_ctx s) /\ exists l, s_tr s' = l ++ s_tr s /\ Forall (called (s_ctx s)) l.
Proof. intros E n s r s' KS K. destruct (task_called E E n s r s' (alike_self _ E) KS) as [_ H]. apply H in K. exact K. Qed.
Lemma C61_scan_calls_l : forall E s s', h_millis (x_h (s_ctx s)) = true -> keeps_shape (s_ctx s) E -> ladder_scan E s = Ok (tt, s') ->
  shape (s_ctx s') = shape (s_ctx s) /\ exists l, s_tr s' = l ++ s_tr s /\ Forall (called (s_ctx s)) l.
Proof. intros E s s' HM KS K. destruct (scan_called E E s tt s' HM (alike_self _ E) KS) as [_ H]. apply H in K. exact K. Qed.
(** In terms of the context the task was started with. *)
Lemma C61_hooks_l : forall E n s r s', keeps_shape (s_ctx s) E -> ladder_task E n s = Ok (r, s') ->
  exists l, s_tr s' = l ++ s_tr s /\ forall ev, In ev l ->
    match ev with
    | EvRead m => (m < io_rq (x_io (s_ctx s)))%nat /\ elem (io_rd (x_io (s_ctx s))) m = Some true
    | EvWrite m q qw => (m < io_wq (x_io (s_ctx s)))%nat /\ elem (io_wr (x_io (s_ctx s))) m = Some true
        /\ forall o, elem (x_out (s_ctx s)) m = Some o -> len q = len (o_Q o) /\ len qw = len (o_QW o)
    | EvForeign id col row => elem (fo_fn (x_for (s_ctx s))) id <> None /\ exists k, peek (s_ctx s) (LCell k row col) <> None
    | EvPanic => h_panic (x_h (s_ctx s)) = true
    | EvInstr => h_instr (x_h (s_ctx s)) = true
    | EvScanEnd => h_scan_end (x_h (s_ctx s)) = true
    | EvBefore => h_before (x_h (s_ctx s)) = true
    | EvAfter => h_after (x_h (s_ctx s)) = true
    | EvEnd => h_end (x_h (s_ctx s)) = true
    | EvDelay ms => h_delay (x_h (s_ctx s)) = true /\ (ms = q_delay (x_q (s_ctx s)) \/ 0 < ms)
    | EvMillis _ => h_millis (x_h (s_ctx s)) = true
    | EvTime => True
    | _ => False
    end.
Proof.
  intros E n s r s' KS K. destruct (C61_calls_l E n s r s' KS K) as (_ & l & L1 & L2). exists l. split; auto. intros ev V. rewrite Forall_forall in L2. destruct (L2 ev V) as (c & C & D).
  pose proof (shape_h _ _ C) as SH. pose proof (shape_io _ _ C) as SI. pose proof (shape_q _ _ C) as SQ. pose proof (shape_for _ _ C) as SF.
  destruct ev; cbn [due] in D; try rewrite SH in D; try rewrite SI in D; try rewrite SQ in D; try rewrite SF in D; auto.
  2: { destruct D as (D1 & k & _ & D2). split; auto. exists k. now rewrite <- (shape_cell _ _ k row col C). }
  destruct D as (D1 & D2 & D3). split; [auto|]. split; [auto|]. intros o O1.
  assert (OS : option_map (map out_shape) (x_out c) = option_map (map out_shape) (x_out (s_ctx s))) by (unfold shape in C; congruence).
  unfold elem in O1. destruct (x_out (s_ctx s)) as [lo|]; [|discriminate]. cbn [obind] in O1. destruct (x_out c) as [lc|] eqn:XC; [|discriminate]. cbn [option_map] in OS. injection OS as OS.
  pose proof (map_nth_error out_shape _ _ O1) as O2. rewrite <- OS in O2. rewrite nth_error_map in O2. destruct (nth_error lc n0) as [m|] eqn:NM; [|discriminate]. cbn [option_map] in O2. assert (O3 : out_shape m = out_shape o) by congruence. unfold out_shape in O3.
  destruct (D3 m) as [-> ->]; [unfold elem; cbn [obind]; exact NM|]. split; congruence.
Qed.

(*EX
(** The functions of the environment of the demonstration leave the shape alone. *)
Lemma task_keeps clock ins req c : keeps_shape c (task_env clock ins req).
Proof.
  constructor; [| |auto]; [|intros k ev c1 S1 _; destruct ev; simpl; try reflexivity; destruct (req k); reflexivity]. intros k ev c1 S1 _. destruct ev; simpl; try exact S1; try (destruct (req k); exact S1). rewrite <- S1. unfold shape. cbn. f_equal. f_equal.
  destruct (x_in c1) as [l|]; [|reflexivity]. cbn [option_map]. f_equal.
  assert (G : forall (l : list inmod) i, map in_shape (nth_map (feed_in (ins k)) i l) = map in_shape l); [|now rewrite G]. clear. induction l as [|m l IH]; intros [|i]; simpl; auto; [|now rewrite IH]. f_equal.
  unfold in_shape, feed_in. cbn. destruct (i_I m) as [v|]; [|reflexivity]. unfold len. cbn [option_map]. now rewrite map_length, seq_length.
Qed.
(** The same functions, except that they destroy the program when called without having been registered. *)
Definition wreck (c : ctx) : ctx := set_x_net None c.
Definition brittle (E : env) : env :=
  mk_env (clk E) (fun k ev c => match ev with
                                | EvRead n => if (n <? io_rq (x_io c))%nat then act E k ev c else wreck c
                                | EvPanic => if h_panic (x_h c) then act E k ev c else wreck c
                                | EvInitRead _ _ | EvInitWrite _ _ => wreck c
                                | _ => act E k ev c end)
    (fun k id col row c => match elem (fo_fn (x_for c)) id with Some _ => fexec E k id col row c | None => (E_FAIL, wreck c) end) (wall E) (ext_ok E) (finit E).
Lemma brittle_alike c E : alike c E (brittle E).
Proof.
  constructor; auto.
  - intros k ev c1 _ D. destruct ev; cbn [due] in D; try reflexivity; try contradiction; cbn [act brittle]; [now rewrite D|]. destruct (Nat.ltb_spec n (io_rq (x_io c1))); [reflexivity|lia].
  - intros k id col row c1 _ D. cbn [fexec brittle due] in *. destruct (elem (fo_fn (x_for c1)) id); [reflexivity|destruct D; congruence].
Qed.
(** An input copied to a flag for three cycles, watched by every hook. *)
Definition e61 : env := task_env (fun k => Z.of_nat k) (fun k i => Z.of_nat (k + i)) (fun k => if (20 <? k)%nat then Some S_EXIT_TSK else None).
Definition s61 : st := mk_st (set_x_h (mk_hooks true true true true true true true true) (set_x_state S_RUNNING (demo [[cellv I_NO [V R_I 0]; cellv I_COIL [V R_M 0]]]))) [].
Example C61_example : keeps_shape (s_ctx s61) e61 /\ alike (s_ctx s61) e61 (brittle e61) /\ ladder_task e61 9 s61 = ladder_task (brittle e61) 9 s61
  /\ exists r s', ladder_task e61 9 s61 = Ok (r, s') /\ (12 < length (s_tr s'))%nat /\ existsb (fun ev => match ev with EvRead 0 => true | _ => false end) (s_tr s') = true.
Proof.
  split; [apply task_keeps|]. split; [apply brittle_alike|]. split; [apply C61_same_task; [apply brittle_alike|apply task_keeps]|].
  do 2 eexists. split; [vm_compute; reflexivity|]. split; [vm_compute; lia|reflexivity].
Qed.
(** The two environments are not the same. *)
Example C61_example_differ : exists k ev c, act e61 k ev c <> act (brittle e61) k ev c.
Proof. exists 0%nat, (EvRead 9), (s_ctx s61). vm_compute. intros K. discriminate. Qed.
EX*)
