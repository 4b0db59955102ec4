(** Property theorems: memory is released once (C66). *)
From Verif Require Import P_Heap Demo.
From Verif Require Import HeapFull.

(** ** C66 *)

(** Between ladder_ctx_init and ladder_ctx_deinit, after any calls and whatever requests for memory are refused, the machine reaches
    exactly the blocks that were allocated since and are not released: nothing is lost, no pointer is left over to released memory,
    and the memory of the rest of the program is untouched and out of reach. *)
Theorem C66_owned : forall G a ks s s1 s2, sane s -> j_init a = true -> h_init G a s = HOk (true, s1) -> Forall spanned ks ->
  h_calls G ks s1 = HOk (tt, s2) -> sane s2 /\ owned (s_heap s) (s_heap s2) (s_g s2).
Proof. exact C66_owned_l. Qed.
Print Assumptions C66_owned.

(** ladder_ctx_deinit then gives back everything, each block once, if no network has rows and no cells. *)
Theorem C66_released : forall G a ks s s1 s2, sane s -> j_init a = true -> h_init G a s = HOk (true, s1) -> Forall spanned ks ->
  h_calls G ks s1 = HOk (tt, s2) -> ~ hollow s2 -> exists s3, h_deinit s2 = HOk (tt, s3) /\ same_memory (s_heap s) (s_heap s3).
Proof. exact C66_released_l. Qed.
Print Assumptions C66_released.

(** If some network has rows and no cells, ladder_ctx_deinit uses NULL. *)
Theorem C66_hollow : forall G a ks s s1 s2, sane s -> j_init a = true -> h_init G a s = HOk (true, s1) -> Forall spanned ks ->
  h_calls G ks s1 = HOk (tt, s2) -> hollow s2 -> h_deinit s2 = HBad H_null.
Proof. exact C66_hollow_l. Qed.
Print Assumptions C66_hollow.

(** The only thing that can go wrong in the calls is a use of NULL: no block is released twice, used after it was released, or used
    outside its size. *)
Theorem C66_only_null : forall G a ks s s1 u, sane s -> j_init a = true -> h_init G a s = HOk (true, s1) -> Forall spanned ks ->
  h_calls G ks s1 = HBad u -> u = H_null.
Proof. exact C66_only_null_l. Qed.
Print Assumptions C66_only_null.

(** Programs that never load a document and give cron no jobs do not go wrong, whatever requests are refused; if no request is refused,
    neither do programs whose documents describe every network completely. All the memory comes back. *)
Theorem C66_safe : forall G a ks s s1, sane s -> j_init a = true -> h_init G a s = HOk (true, s1) ->
  Forall frugal ks \/ (Forall harmless ks /\ forall k, G k = true) ->
  exists s2 s3, h_calls G ks s1 = HOk (tt, s2) /\ ~ hollow s2 /\ h_deinit s2 = HOk (tt, s3) /\ same_memory (s_heap s) (s_heap s3).
Proof. exact C66_safe_l. Qed.
Print Assumptions C66_safe.

(** ladder_ctx_init never goes wrong. With arguments in range it fails only when a request is refused; then the rows of the networks
    are not given back: if [k] requests were granted before, all of these blocks but one are lost, up to the number of rows and
    networks. *)
Theorem C66_init : forall G a s, sane s -> hargs_ok a = true -> j_init a = true ->
  (exists s1, h_init G a s = HOk (true, s1))
  \/ (exists s1 k, h_init G a s = HOk (false, s1) /\ first_refused G s k /\ left_over s s1 (pred (min k (1 + j_nets a * S (j_rows a))))).
Proof. exact C66_init_l. Qed.
Print Assumptions C66_init.

(** Bad arguments: nothing is allocated. *)
Theorem C66_init_args : forall G a s, hargs_ok a = false -> h_init G a s = HOk (false, s).
Proof. exact C66_init_args_l. Qed.
Print Assumptions C66_init_args.

(** If nothing is refused it succeeds. *)
Theorem C66_init_succeeds : forall G a s, sane s -> hargs_ok a = true -> j_init a = true -> (forall k, G k = true) ->
  exists s1, h_init G a s = HOk (true, s1).
Proof. exact C66_init_succeeds_l. Qed.
Print Assumptions C66_init_succeeds.

(** So a failure after the second request loses memory for good. *)
Theorem C66_init_leaks : forall G a s s1, sane s -> hargs_ok a = true -> j_init a = true -> h_init G a s = HOk (false, s1) ->
  G (s_n s) = true -> G (S (s_n s)) = true -> exists x, live (s_heap s1) x /\ ~ live (s_heap s) x.
Proof. exact C66_init_leaks_l. Qed.
Print Assumptions C66_init_leaks.

(** A machine made without networks cannot be released. *)
Theorem C66_bare : forall G a s, sane s -> hargs_ok a = true -> j_init a = false -> (forall k, G k = true) ->
  exists s1, h_init G a s = HOk (true, s1) /\ h_deinit s1 = HBad H_null.
Proof. exact C66_bare_l. Qed.
Print Assumptions C66_bare.

(** A machine cannot be released twice. *)
Theorem C66_twice : forall G a ks s s1 s2 s3, sane s -> j_init a = true -> h_init G a s = HOk (true, s1) -> Forall spanned ks ->
  h_calls G ks s1 = HOk (tt, s2) -> h_deinit s2 = HOk (tt, s3) -> h_deinit s3 = HBad H_null.
Proof. exact C66_twice_l. Qed.
Print Assumptions C66_twice.

(** ladderlib_cron_init without memory uses NULL. *)
Theorem C66_cron : forall G a s s1 q, sane s -> j_init a = true -> h_init G a s = HOk (true, s1) -> 0 < q -> G (s_n s1) = false ->
  h_call G (K_cron q) s1 = HBad H_null.
Proof. exact C66_cron_l. Qed.
Print Assumptions C66_cron.

(** A document with a network that has rows but no cols breaks the machine: loading it or releasing the machine later uses NULL. *)
Theorem C66_load_breaks : forall G a ks s s1 s2 id r data, sane s -> j_init a = true -> h_init G a s = HOk (true, s1) -> Forall spanned ks ->
  h_calls G ks s1 = HOk (tt, s2) -> id < g_nets (s_g s2) ->
  (do! b <- h_load_json G (Some [DN id (Some (S r)) None data]); h_deinit) s2 = HBad H_null.
Proof. exact C66_load_breaks_l. Qed.
Print Assumptions C66_load_breaks.
(** Two rows of three columns in one network; one block belongs to the rest of the program. *)
Definition hp_a : hargs := mk_hargs 3 2 1 4 2 2 1 1 true.
Definition hp_s : hst := mk_hst 5 [(2, B_any)] hctx0.
Definition hp_doc : option (list dnet) :=
  Some [DN 0 (Some 2) (Some 1) (Some [DR [DC I_NO [DV_other]]; DR [DC I_FOREIGN [DV_str; DV_other; DV_str]]])].
Definition hp_ks : list hcall :=
  [K_read true; K_write false; K_foreign 3; K_cron 2; K_cell 0 0 1 I_TON 2 2; K_cell 0 0 1 I_NO 1 1; K_clear; K_cell 0 1 2 I_NO 1 1; K_load hp_doc; K_cell 0 0 0 I_NC 1 1; K_read true].
Definition hp_all (k : nat) : bool := true.
(** The third request of the first ladder_add_read_fn is refused, and the block for a string. *)
Definition hp_few (k : nat) : bool := negb (Nat.eqb k 26) && negb (Nat.eqb k 44).
Lemma hp_sane : sane hp_s.
Proof. apply sane_good. split; [|apply Permutation.Permutation_refl]. split; [repeat constructor; intros []|repeat constructor]. Qed.
Example C66_owned_ex : exists s1 s2, h_init hp_all hp_a hp_s = HOk (true, s1) /\ h_calls hp_all hp_ks s1 = HOk (tt, s2) /\ Forall spanned hp_ks
  /\ length (s_heap s1) = 20 /\ length (s_heap s2) = 39.
Proof. eexists. eexists. split; [vm_compute; reflexivity|]. split; [vm_compute; reflexivity|]. split; [repeat constructor|]. split; reflexivity. Qed.
Example C66_few_ex : exists s1 s2, h_init hp_few hp_a hp_s = HOk (true, s1) /\ h_calls hp_few hp_ks s1 = HOk (tt, s2) /\ length (s_heap s2) < 39.
Proof. eexists. eexists. split; [vm_compute; reflexivity|]. split; [vm_compute; reflexivity|]. vm_compute. repeat constructor. Qed.
Example C66_released_ex : exists s1 s2 s3, h_init hp_all hp_a hp_s = HOk (true, s1) /\ h_calls hp_all hp_ks s1 = HOk (tt, s2) /\ ~ hollow s2
  /\ h_deinit s2 = HOk (tt, s3) /\ s_heap s3 = s_heap hp_s.
Proof.
  destruct (C66_init_succeeds hp_all hp_a hp_s hp_sane eq_refl eq_refl (fun _ => eq_refl)) as (s1 & E1).
  destruct (C66_safe hp_all hp_a hp_ks hp_s s1 hp_sane eq_refl E1) as (s2 & s3 & E2 & NH & E3 & _).
  { right. split; [|intros; reflexivity]. repeat constructor; simpl; eauto. }
  exists s1, s2, s3. split; auto. split; auto. split; auto. split; auto. vm_compute in E1. injection E1 as <-. vm_compute in E2. injection E2 as <-.
  vm_compute in E3. injection E3 as <-. reflexivity.
Qed.
(** A network without cols is left hollow. *)
Example C66_hollow_ex : exists s1 s2, h_init hp_all hp_a hp_s = HOk (true, s1)
  /\ h_calls hp_all [K_load (Some [DN 0 (Some 2) None None])] s1 = HOk (tt, s2) /\ hollow s2 /\ h_deinit s2 = HBad H_null.
Proof.
  eexists. eexists. split; [vm_compute; reflexivity|]. split; [vm_compute; reflexivity|]. split; [|vm_compute; reflexivity].
  exists 5, [mk_hnet 2 0 None], 0, (mk_hnet 2 0 None). repeat split; vm_compute; auto; repeat constructor.
Qed.
(** The calls go wrong when the hollow network is loaded once more. *)
Example C66_only_null_ex : exists s1, h_init hp_all hp_a hp_s = HOk (true, s1)
  /\ h_calls hp_all [K_load (Some [DN 0 (Some 2) None None]); K_load hp_doc] s1 = HBad H_null.
Proof. eexists. split; vm_compute; reflexivity. Qed.
(** Without memory for the jobs. *)
Example C66_cron_ex : exists s1, h_init (fun k => Nat.ltb k 24) hp_a hp_s = HOk (true, s1) /\ Nat.ltb (s_n s1) 24 = false
  /\ h_call (fun k => Nat.ltb k 24) (K_cron 2) s1 = HBad H_null.
Proof. eexists. split; [vm_compute; reflexivity|]. split; vm_compute; reflexivity. Qed.
(** The sixth request is refused: three blocks are lost; the third: one. *)
Example C66_init_ex : exists s1 s2, h_init (fun k => Nat.ltb k 10) hp_a hp_s = HOk (false, s1) /\ length (s_heap s1) = 4
  /\ h_init (fun k => Nat.ltb k 7) hp_a hp_s = HOk (false, s2) /\ s_heap s2 = [(6, B_rows [None; None]); (2, B_any)].
Proof. eexists. eexists. split; [vm_compute; reflexivity|]. split; [reflexivity|]. split; vm_compute; reflexivity. Qed.
Example C66_bare_ex : exists s1, h_init hp_all (mk_hargs 3 2 1 4 2 2 1 1 false) hp_s = HOk (true, s1) /\ h_deinit s1 = HBad H_null.
Proof. eexists. split; vm_compute; reflexivity. Qed.
