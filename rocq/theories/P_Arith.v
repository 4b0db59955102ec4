(** arithmetic, bitwise and shift instructions (C16, C17, C18). *)
From Verif Require Import Demo.

Lemma exists_has c n r col : cell_exists c n r col -> has_cell c n r col.
Proof. intros (b & k & d & H). simpl in H. destruct (cell_of c n r col) eqn:Hc; [|discriminate]. eexists; eauto. Qed.
Lemma fits_in w : fits w <-> in_i32 w = true.
Proof. unfold fits, in_i32. lia. Qed.
Lemma not_fits_in w : ~ fits w -> in_i32 w = false.
Proof. rewrite fits_in. destruct (in_i32 w); congruence. Qed.
Lemma binop_full E op s n r col v0 v1 v2 a b w :
  executing (s_ctx s) n r col -> left_powered (s_ctx s) n r col true ->
  operand_at (s_ctx s) n r col 0 v0 -> operand_at (s_ctx s) n r col 1 v1 -> operand_at (s_ctx s) n r col 2 v2 ->
  stores_ok (s_ctx s) -> reads (s_ctx s) v0 a -> reads (s_ctx s) v1 b -> (forall s', op a b s' = Ok (w, s')) ->
  exists c', binop E op col r s = Ok (E_OK, inc s c') /\ powered c' n r col true /\ stores (s_ctx s) v2 w c'
    /\ effect (s_ctx s) c' [(n, r, col)] (Some v2) [v0; v1].
Proof.
  intros. eexists; split; [eapply binop_ok; eauto; eapply data_of; eauto|]. split; [|split].
  - apply powered_wr, powered_two, powered_pow_here; fr.
  - apply stores_wr; [eapply store_trans; [apply store_pow|apply store_two]|unfold two; fr].
  - apply effect_then_wr; [eapply store_trans; [apply store_pow|apply store_two]|apply effect_pow_two].
Qed.
Definition mod_op (a b : Z) : M Z :=
  if b =? 0 then bad UB_div else if (a =? - 2 ^ 31) && (b =? -1) then bad UB_overflow else ret (Z.rem a b).

(** ** C16 *)
(** C16: powered ADD, MUL, DIV and MOD store the exact result in operand 2 and change nothing else. *)
Lemma C16_exact_l : forall E s n r col i v0 v1 v2 a b w,
  In i [I_ADD; I_MUL; I_DIV; I_MOD] -> computes i a b = Some w -> fits w ->
  (i = I_MOD -> ~ (a = - 2 ^ 31 /\ b = -1)) ->
  executing (s_ctx s) n r col -> left_powered (s_ctx s) n r col true ->
  operand_at (s_ctx s) n r col 0 v0 -> operand_at (s_ctx s) n r col 1 v1 -> operand_at (s_ctx s) n r col 2 v2 ->
  stores_ok (s_ctx s) -> reads (s_ctx s) v0 a -> reads (s_ctx s) v1 b ->
  exists c', runs E i r col s E_OK c' /\ powered c' n r col true /\ stores (s_ctx s) v2 w c'
    /\ effect (s_ctx s) c' [(n, r, col)] (Some v2) [v0; v1].
Proof.
  intros E s n r col i v0 v1 v2 a b w Hi Hw Hf Hm He Hl H0 H1 H2 Hs R0 R1. apply fits_in in Hf.
  destruct Hi as [<-|[<-|[<-|[<-|[]]]]].
  - inversion Hw; subst.
    destruct (binop_full E (fun a b => chk (a + b)) s n r col v0 v1 v2 a b (a + b)) as (c' & A & B); auto.
    { intros; apply chk_ok; auto. }
    exists c'; split; auto. eapply runs_intro; [reflexivity|exact A].
  - inversion Hw; subst.
    destruct (binop_full E (fun a b => chk (a * b)) s n r col v0 v1 v2 a b (a * b)) as (c' & A & B); auto.
    { intros; apply chk_ok; auto. }
    exists c'; split; auto. eapply runs_intro; [reflexivity|exact A].
  - unfold computes in Hw. destruct (b =? 0) eqn:Hb; [discriminate|]. inversion Hw; subst.
    eexists; split; [eapply runs_intro; [reflexivity|]|].
    { eapply (div_ok E s n r col He v0 v1 v2 a b); eauto; [eapply data_of; eauto|lia]. }
    split; [|split].
    + apply powered_wr, powered_two, powered_pow_here; fr.
    + apply stores_wr; [eapply store_trans; [apply store_pow|apply store_two]|unfold two; fr].
    + apply effect_then_wr; [eapply store_trans; [apply store_pow|apply store_two]|].
      eapply (effect_incl _ _ [(n, r, col)] [(n, r, col)] None [v1; v0] [v0; v1]); [auto|simpl; tauto|apply effect_pow_two].
  - unfold computes in Hw. destruct (b =? 0) eqn:Hb; [discriminate|]. inversion Hw; subst.
    destruct (binop_full E mod_op s n r col v0 v1 v2 a b (Z.rem a b)) as (c' & A & B); auto.
    { intros s'. unfold mod_op. rewrite Hb. replace ((a =? - 2 ^ 31) && (b =? -1)) with false; auto. specialize (Hm eq_refl); lia. }
    exists c'; split; auto. eapply runs_intro; [reflexivity|exact A].
Qed.
(** C16: DIV by zero stores zero. *)
Lemma C16_div_by_zero_l : forall E s n r col v1 v2,
  executing (s_ctx s) n r col -> left_powered (s_ctx s) n r col true ->
  operand_at (s_ctx s) n r col 1 v1 -> operand_at (s_ctx s) n r col 2 v2 ->
  stores_ok (s_ctx s) -> reads (s_ctx s) v1 0 ->
  exists c', runs E I_DIV r col s E_OK c' /\ powered c' n r col true /\ stores (s_ctx s) v2 0 c'
    /\ effect (s_ctx s) c' [(n, r, col)] (Some v2) [v1].
Proof.
  intros. eexists; split; [eapply runs_intro; [reflexivity|]|].
  { eapply div_zero; eauto; eapply data_of; eauto. }
  split; [|split].
  - apply powered_wr, powered_mark, powered_pow_here; fr.
  - apply stores_wr; [eapply store_trans; [apply store_pow|apply store_mark]|fr].
  - apply effect_then_wr; [eapply store_trans; [apply store_pow|apply store_mark]|apply effect_pow_mark].
Qed.
(** C16: without power they switch their cell off and store nothing. *)
Lemma C16_unpowered_l : forall E s n r col i,
  In i [I_ADD; I_MUL; I_DIV; I_MOD] -> executing (s_ctx s) n r col -> left_powered (s_ctx s) n r col false ->
  exists c', runs E i r col s E_OK c' /\ powered c' n r col false /\ effect (s_ctx s) c' [(n, r, col)] None [].
Proof.
  intros E s n r col i Hi He Hl. exists (put_pow n r col false (s_ctx s)). split; [|split; [apply powered_pow_here; fr|apply effect_pow]].
  destruct Hi as [<-|[<-|[<-|[<-|[]]]]]; (eapply runs_intro; [reflexivity|]);
    [exact (binop_off _ _ _ _ _ He _ Hl)|exact (binop_off _ _ _ _ _ He _ Hl)|exact (div_off _ _ _ _ _ He Hl)|exact (binop_off _ _ _ _ _ He _ Hl)].
Qed.
(** C16: SUB stores the exact difference and powers its own cell and, for an equal or smaller first operand, the
    cell one or two rows below. *)
Lemma C16_sub_l : forall E s n r col v0 v1 v2 a b row,
  fits (a - b) ->
  row = (match a ?= b with Gt => r | Eq => S r | Lt => S (S r) end) ->
  executing (s_ctx s) n r col -> left_powered (s_ctx s) n r col true -> cell_exists (s_ctx s) n row col ->
  operand_at (s_ctx s) n r col 0 v0 -> operand_at (s_ctx s) n r col 1 v1 -> operand_at (s_ctx s) n r col 2 v2 ->
  stores_ok (s_ctx s) -> reads (s_ctx s) v0 a -> reads (s_ctx s) v1 b ->
  exists c', runs E I_SUB r col s E_OK c'
    /\ powered c' n r col true /\ powered c' n row col true
    /\ stores (s_ctx s) v2 (a - b) c'
    /\ effect (s_ctx s) c' [(n, r, col); (n, row, col)] (Some v2) [v0; v1].
Proof.
  intros E s n r col v0 v1 v2 a b row Hf Hrow He Hl Hx H0 H1 H2 Hs R0 R1. apply fits_in in Hf.
  assert (row = sub_row r a b) as ->.
  { unfold sub_row. destruct (Z.compare_spec a b); subst row; destruct (b <? a) eqn:?; try destruct (a =? b) eqn:?; lia. }
  apply exists_has in Hx.
  eexists; split; [eapply runs_intro; [reflexivity|]|].
  { eapply sub_ok; eauto. eapply data_of; eauto. }
  assert (HS : same_store (s_ctx s) (put_pow n (sub_row r a b) col true (two (put_pow n r col true (s_ctx s)) v0 v1))).
  { eapply store_trans; [apply store_pow|]. eapply store_trans; [apply store_two|apply store_pow]. }
  split; [|split; [|split]].
  - apply powered_wr. destruct (Nat.eq_dec (sub_row r a b) r) as [->|Hne].
    + apply powered_pow_here. unfold two; fr.
    + apply powered_pow_other; [congruence|]. apply powered_two, powered_pow_here; fr.
  - apply powered_wr, powered_pow_here. unfold two; fr.
  - apply stores_wr; auto. eapply stores_same; eauto.
  - apply effect_then_wr; auto. apply (effect_then_pow _ _ _ _ _ _ [(n, r, col)]), effect_pow_two.
Qed.
(** C16: without power SUB only switches its cell off. *)
Lemma C16_sub_unpowered_l : forall E s n r col v0 v1 a b,
  executing (s_ctx s) n r col -> left_powered (s_ctx s) n r col false ->
  operand_at (s_ctx s) n r col 0 v0 -> operand_at (s_ctx s) n r col 1 v1 ->
  reads (s_ctx s) v0 a -> reads (s_ctx s) v1 b ->
  exists c', runs E I_SUB r col s E_OK c' /\ powered c' n r col false /\ effect (s_ctx s) c' [(n, r, col)] None [v0; v1].
Proof.
  intros. eexists; split; [eapply runs_intro; [reflexivity|]|].
  { eapply sub_off; eauto. }
  split; [apply powered_two, powered_pow_here; fr|apply effect_pow_two].
Qed.
(** C16: a data register receives exactly the mathematical result. *)
Lemma C16_data_register_l : forall c v w c',
  fits w -> stores c v w c' -> forall l, target c v = Some l -> In (v_type v) [R_D; R_IW; R_QW] -> holds c' l w.
Proof.
  intros c v w c' Hf Hs l Hl Ht. specialize (Hs l Hl).
  assert (kept (v_type v) w = w) as Hk; [|rewrite Hk in Hs; auto].
  unfold fits in Hf. change (2 ^ 31) with 2147483648 in *.
  destruct Ht as [<-|[<-|[<-|[]]]]; unfold kept; rewrite Z.mod_small; change (2 ^ 31) with 2147483648; change (2 ^ 32) with 4294967296; lia.
Qed.
(** C16, violated: a result that does not fit is undefined behaviour (signed overflow). *)
Lemma C16_overflow_undefined_l : forall E s n r col i v0 v1 a b w,
  In i [I_ADD; I_SUB; I_MUL; I_DIV] -> computes i a b = Some w -> ~ fits w ->
  executing (s_ctx s) n r col -> left_powered (s_ctx s) n r col true ->
  (forall row, (r <= row <= r + 2)%nat -> cell_exists (s_ctx s) n row col) ->
  operand_at (s_ctx s) n r col 0 v0 -> operand_at (s_ctx s) n r col 1 v1 ->
  reads (s_ctx s) v0 a -> reads (s_ctx s) v1 b ->
  undefined E i r col s UB_overflow.
Proof.
  intros E s n r col i v0 v1 a b w Hi Hw Hf He Hl Hx H0 H1 R0 R1. apply not_fits_in in Hf.
  destruct Hi as [<-|[<-|[<-|[<-|[]]]]]; (eapply undef_intro; [reflexivity|]); unfold computes in Hw.
  - inversion Hw; subst. refine (binop_bad _ _ _ _ _ He _ _ _ a b _ Hl H0 H1 R0 R1 _). intros; apply chk_bad; auto.
  - inversion Hw; subst. eapply sub_bad; eauto. apply exists_has, Hx. unfold sub_row; destruct (_ <? _); [|destruct (_ =? _)]; lia.
  - inversion Hw; subst. refine (binop_bad _ _ _ _ _ He _ _ _ a b _ Hl H0 H1 R0 R1 _). intros; apply chk_bad; auto.
  - destruct (b =? 0) eqn:Hb; [discriminate|]. inversion Hw; subst. eapply div_bad; eauto; lia.
Qed.
(** C16, violated: MOD by zero, and the remainder of the smallest integer by -1, are undefined behaviour. *)
Lemma C16_mod_undefined_l : forall E s n r col v0 v1 a b,
  executing (s_ctx s) n r col -> left_powered (s_ctx s) n r col true ->
  operand_at (s_ctx s) n r col 0 v0 -> operand_at (s_ctx s) n r col 1 v1 ->
  reads (s_ctx s) v0 a -> reads (s_ctx s) v1 b ->
  (b = 0 -> undefined E I_MOD r col s UB_div)
  /\ (a = - 2 ^ 31 -> b = -1 -> undefined E I_MOD r col s UB_overflow).
Proof.
  intros. split; intros; subst; (eapply undef_intro; [reflexivity|]); (eapply (binop_bad _ _ _ _ _ H mod_op); eauto).
Qed.
(** C16, violated: SUB leaves its first row powered also when the first operand is smaller. *)
Lemma C16_sub_rows_refuted_l : exists E s n r col v0 v1 a b c',
  executing (s_ctx s) n r col /\ left_powered (s_ctx s) n r col true
  /\ operand_at (s_ctx s) n r col 0 v0 /\ operand_at (s_ctx s) n r col 1 v1
  /\ reads (s_ctx s) v0 a /\ reads (s_ctx s) v1 b /\ a < b
  /\ runs E I_SUB r col s E_OK c' /\ powered c' n r col true.
Proof.
  set (c := demo [[cellv I_SUB [V R_D 1; V R_D 0; V R_D 3]]; [cellv I_MULTI []]; [cellv I_MULTI []]]).
  exists quiet_env, (start c), 0%nat, 0%nat, 0%nat, (V R_D 1), (V R_D 0), (-3), 10.
  exists (after quiet_env I_SUB 0 0 c). demo_case.
Qed.
(*EX
Example C16_case :
  let c := demo [[on (cellv I_NO [V R_M 0]); cellv I_MOD [V R_D 1; V R_D 0; V R_D 3]];
                 [on (cellv I_CONN []); cellv I_SUB [V R_D 1; V R_D 0; V R_D 3]]; [cellv I_NOP []; cellv I_MULTI []];
                 [cellv I_NOP []; cellv I_MULTI []]] in
  computes I_MOD (-3) 10 = Some (-3) /\ fits (-3)
  /\ executing c 0 0 1 /\ left_powered c 0 0 1 true
  /\ operand_at c 0 0 1 0 (V R_D 1) /\ operand_at c 0 0 1 1 (V R_D 0) /\ operand_at c 0 0 1 2 (V R_D 3) /\ stores_ok c
  /\ reads c (V R_D 1) (-3) /\ reads c (V R_D 0) 10 /\ target c (V R_D 3) = Some (LReg B_D 3)
  /\ executing c 0 1 1 /\ left_powered c 0 1 1 true /\ cell_exists c 0 3 1.
Proof. demo_case. Qed.
(* Overflow is met: D2 + D0 = 2^31 + 9. *)
Example C16_overflow_case :
  let c := demo [[cellv I_ADD [V R_D 2; V R_D 0; V R_D 3]]; [cellv I_NOP []]; [cellv I_NOP []]] in
  computes I_ADD 2147483647 10 = Some 2147483657 /\ ~ fits 2147483657
  /\ executing c 0 0 0 /\ left_powered c 0 0 0 true /\ reads c (V R_D 2) 2147483647 /\ reads c (V R_D 0) 10
  /\ undefined quiet_env I_ADD 0 0 (start c) UB_overflow.
Proof. demo_case. Qed.
EX*)

(** ** C17 *)
(** C17: powered OR and XOR store the bit-wise result of the operands. *)
Lemma C17_or_xor_l : forall E s n r col i f v0 v1 v2 a b,
  In i [I_OR; I_XOR] -> bitwise i = Some f ->
  executing (s_ctx s) n r col -> left_powered (s_ctx s) n r col true ->
  operand_at (s_ctx s) n r col 0 v0 -> operand_at (s_ctx s) n r col 1 v1 -> operand_at (s_ctx s) n r col 2 v2 ->
  stores_ok (s_ctx s) -> reads (s_ctx s) v0 a -> reads (s_ctx s) v1 b ->
  exists c' w, runs E i r col s E_OK c' /\ powered c' n r col true
    /\ (forall k, 0 <= k -> Z.testbit w k = f (Z.testbit a k) (Z.testbit b k))
    /\ stores (s_ctx s) v2 w c'
    /\ effect (s_ctx s) c' [(n, r, col)] (Some v2) [v0; v1].
Proof.
  intros E s n r col i f v0 v1 v2 a b Hi Hw He Hl H0 H1 H2 Hs R0 R1.
  destruct Hi as [<-|[<-|[]]]; inversion Hw; subst.
  - destruct (binop_full E (fun a b => ret (Z.lor a b)) s n r col v0 v1 v2 a b (Z.lor a b)) as (c' & A & B & C & D); auto.
    exists c', (Z.lor a b); split; [eapply runs_intro; [reflexivity|exact A]|].
    split; auto. split; auto. intros; apply Z.lor_spec.
  - destruct (binop_full E (fun a b => ret (Z.lxor a b)) s n r col v0 v1 v2 a b (Z.lxor a b)) as (c' & A & B & C & D); auto.
    exists c', (Z.lxor a b); split; [eapply runs_intro; [reflexivity|exact A]|].
    split; auto. split; auto. intros; apply Z.lxor_spec.
Qed.
(** C17: powered NOT stores the complement in operand 1. *)
Lemma C17_not_l : forall E s n r col v0 v1 a,
  executing (s_ctx s) n r col -> left_powered (s_ctx s) n r col true ->
  operand_at (s_ctx s) n r col 0 v0 -> operand_at (s_ctx s) n r col 1 v1 ->
  stores_ok (s_ctx s) -> reads (s_ctx s) v0 a ->
  exists c' w, runs E I_NOT r col s E_OK c' /\ powered c' n r col true
    /\ (forall k, 0 <= k -> Z.testbit w k = negb (Z.testbit a k))
    /\ stores (s_ctx s) v1 w c'
    /\ effect (s_ctx s) c' [(n, r, col)] (Some v1) [v0].
Proof.
  intros E s n r col v0 v1 a He Hl H0 H1 Hs R0. do 2 eexists; split; [eapply runs_intro; [reflexivity|]|].
  { eapply not_ok; eauto; eapply data_of; eauto. }
  split; [|split; [|split]].
  - apply powered_wr, powered_mark, powered_pow_here; fr.
  - intros. apply Z.lnot_spec; auto.
  - apply stores_wr; [eapply store_trans; [apply store_pow|apply store_mark]|fr].
  - apply effect_then_wr; [eapply store_trans; [apply store_pow|apply store_mark]|apply effect_pow_mark].
Qed.
(** C17: without power AND, OR, XOR and NOT switch their cell off and store nothing. *)
Lemma C17_unpowered_l : forall E s n r col i,
  In i [I_AND; I_OR; I_XOR; I_NOT] -> executing (s_ctx s) n r col -> left_powered (s_ctx s) n r col false ->
  exists c', runs E i r col s E_OK c' /\ powered c' n r col false /\ effect (s_ctx s) c' [(n, r, col)] None [].
Proof.
  intros E s n r col i Hi He Hl. exists (put_pow n r col false (s_ctx s)). split; [|split; [apply powered_pow_here; fr|apply effect_pow]].
  destruct Hi as [<-|[<-|[<-|[<-|[]]]]]; (eapply runs_intro; [reflexivity|]);
    [exact (binop_off _ _ _ _ _ He _ Hl)|exact (binop_off _ _ _ _ _ He _ Hl)|exact (binop_off _ _ _ _ _ He _ Hl)|exact (not_off _ _ _ _ _ He Hl)].
Qed.
(** C17, what AND really does: it stores 1 when both operands are exactly 1, and 0 otherwise. *)
Lemma C17_and_actual_l : forall E s n r col v0 v1 v2 a b,
  executing (s_ctx s) n r col -> left_powered (s_ctx s) n r col true ->
  operand_at (s_ctx s) n r col 0 v0 -> operand_at (s_ctx s) n r col 1 v1 -> operand_at (s_ctx s) n r col 2 v2 ->
  stores_ok (s_ctx s) -> reads (s_ctx s) v0 a -> reads (s_ctx s) v1 b ->
  exists c', runs E I_AND r col s E_OK c' /\ powered c' n r col true
    /\ stores (s_ctx s) v2 (if (a =? 1) && (b =? 1) then 1 else 0) c'
    /\ effect (s_ctx s) c' [(n, r, col)] (Some v2) [v0; v1].
Proof.
  intros E s n r col v0 v1 v2 a b He Hl H0 H1 H2 Hs R0 R1.
  destruct (binop_full E (fun a b => ret (Z.land (to_integer a) (to_integer b))) s n r col v0 v1 v2 a b
     (if (a =? 1) && (b =? 1) then 1 else 0)) as (c' & A & B); auto.
  { intros s'. unfold ret, to_integer. destruct (a =? 1) eqn:Ha, (b =? 1) eqn:Hb, (a =? 0) eqn:Ha0, (b =? 0) eqn:Hb0; auto; lia. }
  exists c'; split; auto. eapply runs_intro; [reflexivity|exact A].
Qed.
(** C17, the part of the claim AND satisfies: it is the bit-wise result when both operands are 0 or 1.
    Missing: every other pair of operands ([C17_and_refuted]). *)
Lemma C17_and_partial_l : forall E s n r col v0 v1 v2 a b,
  executing (s_ctx s) n r col -> left_powered (s_ctx s) n r col true ->
  operand_at (s_ctx s) n r col 0 v0 -> operand_at (s_ctx s) n r col 1 v1 -> operand_at (s_ctx s) n r col 2 v2 ->
  stores_ok (s_ctx s) -> reads (s_ctx s) v0 a -> reads (s_ctx s) v1 b -> 0 <= a <= 1 -> 0 <= b <= 1 ->
  exists c' w, runs E I_AND r col s E_OK c'
    /\ (forall k, 0 <= k -> Z.testbit w k = Z.testbit a k && Z.testbit b k)
    /\ stores (s_ctx s) v2 w c'.
Proof.
  intros E s n r col v0 v1 v2 a b He Hl H0 H1 H2 Hs R0 R1 Ha Hb.
  destruct (C17_and_actual_l E s n r col v0 v1 v2 a b) as (c' & A & _ & B & _); auto.
  exists c', (if (a =? 1) && (b =? 1) then 1 else 0). split; auto. split; auto. intros k Hk.
  assert (a = 0 \/ a = 1) as [-> | ->] by lia; assert (b = 0 \/ b = 1) as [-> | ->] by lia; cbn [Z.eqb andb];
    rewrite ?Z.bits_0, ?andb_false_r, ?andb_diag; auto.
Qed.
(** C17, violated: 2147483647 AND 10 stores 0 instead of 10. *)
Lemma C17_and_refuted_l : exists E s n r col v0 v1 v2 a b c' l w,
  executing (s_ctx s) n r col /\ left_powered (s_ctx s) n r col true
  /\ operand_at (s_ctx s) n r col 0 v0 /\ operand_at (s_ctx s) n r col 1 v1 /\ operand_at (s_ctx s) n r col 2 v2
  /\ stores_ok (s_ctx s) /\ reads (s_ctx s) v0 a /\ reads (s_ctx s) v1 b /\ target (s_ctx s) v2 = Some l
  /\ runs E I_AND r col s E_OK c' /\ holds c' l w /\ w <> Z.land a b.
Proof.
  set (c := demo [[cellv I_AND [V R_D 2; V R_D 0; V R_D 3]]]).
  exists quiet_env, (start c), 0%nat, 0%nat, 0%nat, (V R_D 2), (V R_D 0), (V R_D 3), 2147483647, 10.
  exists (after quiet_env I_AND 0 0 c), (LReg B_D 3), 0. demo_case.
Qed.
(*EX
Example C17_case :
  let c := demo [[cellv I_XOR [V R_D 1; V R_D 0; V R_Q 0]; cellv I_NOT [V R_C 1; V R_D 2]]] in
  bitwise I_XOR = Some xorb
  /\ executing c 0 0 0 /\ left_powered c 0 0 0 true /\ operand_at c 0 0 0 0 (V R_D 1) /\ operand_at c 0 0 0 1 (V R_D 0)
  /\ operand_at c 0 0 0 2 (V R_Q 0) /\ stores_ok c /\ reads c (V R_D 1) (-3) /\ reads c (V R_D 0) 10
  /\ operand_at c 0 0 1 0 (V R_C 1) /\ reads c (V R_C 1) 7.
Proof. demo_case. Qed.
EX*)

(** ** C18 *)
Lemma norm_amount_mod b : norm_amount b = b mod 32.
Proof.
  unfold norm_amount. pose proof (Z.quot_rem' b 32) as H. pose proof (Z.rem_bound_abs b 32).
  destruct (Z.rem b 32 <? 0) eqn:Hr.
  - apply (Z.mod_unique_pos b 32 (Z.quot b 32 - 1) (Z.rem b 32 + 32)); lia.
  - apply (Z.mod_unique_pos b 32 (Z.quot b 32) (Z.rem b 32)); lia.
Qed.
Lemma u32_range a : 0 <= u32 a < 2 ^ 32. Proof. apply Z.mod_pos_bound; lia. Qed.
Lemma shift_full E op s n r col v0 v1 a b w l :
  executing (s_ctx s) n r col -> left_powered (s_ctx s) n r col l ->
  operand_at (s_ctx s) n r col 0 v0 -> operand_at (s_ctx s) n r col 1 v1 -> stores_ok (s_ctx s) ->
  reads (s_ctx s) v0 a -> reads (s_ctx s) v1 b -> op (u32 a) (norm_amount b) = Ok w ->
  exists c', shiftop E op col r s = Ok (write_err (s_ctx s) v0, inc s c') /\ powered c' n r col l
    /\ stores (s_ctx s) v0 (i32 w) c' /\ effect (s_ctx s) c' [(n, r, col)] (Some v0) [v0; v1].
Proof.
  intros. eexists; split; [eapply shift_ok; eauto|]. split; [|split].
  - apply powered_pow_here. eapply has_same; [apply prog_wr; exact I|]. unfold two; fr.
  - intros t Ht. unfold holds. rewrite put_pow_frame. apply stores_wr with (c0 := s_ctx s); auto using store_two.
    + unfold two; fr. + intros ->. apply target_shape in Ht; destruct Ht.
  - apply (effect_then_pow (s_ctx s) _ n r col l [] (Some v0) [v0; v1]). apply effect_then_wr; [apply store_two|apply effect_two].
Qed.
Lemma kept_i32 t w : kept t (i32 w) = kept t w.
Proof.
  assert (H : forall m, (0 < m) -> (exists q, 2 ^ 32 = q * m) -> i32 w mod m = w mod m).
  { intros m Hm (q & Hq). unfold i32.
    rewrite (Z.mod_eq (w + 2 ^ 31) (2 ^ 32)) by lia. rewrite Hq.
    replace (w + 2 ^ 31 - q * m * ((w + 2 ^ 31) / (q * m)) - 2 ^ 31) with (w + (- (q * ((w + 2 ^ 31) / (q * m)))) * m) by ring.
    apply Z.mod_add; lia. }
  destruct t; unfold kept; try (apply H; [lia|exists (2 ^ 24); reflexivity]); try (apply H; [lia|exists 1; reflexivity]).
  all: f_equal; rewrite <- (Z.add_mod_idemp_l (i32 w)), (H (2 ^ 32)), Z.add_mod_idemp_l by (try lia; exists 1; reflexivity); auto.
Qed.
Lemma stores_i32 c v w c' : stores c v (i32 w) c' <-> stores c v w c'.
Proof. unfold stores. split; intros H l Hl; specialize (H l Hl); rewrite kept_i32 in *; auto. Qed.
(** C18: SHL multiplies the unsigned operand by 2^(amount mod 32) modulo 2^32. *)
Lemma C18_shl_l : forall E s n r col l v0 v1 a b,
  executing (s_ctx s) n r col -> left_powered (s_ctx s) n r col l ->
  operand_at (s_ctx s) n r col 0 v0 -> operand_at (s_ctx s) n r col 1 v1 -> stores_ok (s_ctx s) ->
  reads (s_ctx s) v0 a -> reads (s_ctx s) v1 b ->
  exists c', runs E I_SHL r col s (write_err (s_ctx s) v0) c' /\ powered c' n r col l
    /\ stores (s_ctx s) v0 ((a mod 2 ^ 32) * 2 ^ (b mod 32) mod 2 ^ 32) c'
    /\ effect (s_ctx s) c' [(n, r, col)] (Some v0) [v0; v1].
Proof.
  intros. edestruct (shift_full E shl32) as (c' & A & B & C & D); eauto.
  { rewrite norm_amount_mod. unfold shl32. pose proof (Z.mod_pos_bound b 32). replace ((0 <=? b mod 32) && (b mod 32 <? 32)) with true by lia. reflexivity. }
  exists c'; split; [eapply runs_intro; [reflexivity|exact A]|]. split; [exact B|]. split; [|exact D].
  apply (proj1 (stores_i32 _ _ _ _)) in C. rewrite <- Z.shiftl_mul_pow2 by (apply Z.mod_pos_bound; lia). exact C.
Qed.
(** C18: SHR divides the unsigned operand by 2^(amount mod 32). *)
Lemma C18_shr_l : forall E s n r col l v0 v1 a b,
  executing (s_ctx s) n r col -> left_powered (s_ctx s) n r col l ->
  operand_at (s_ctx s) n r col 0 v0 -> operand_at (s_ctx s) n r col 1 v1 -> stores_ok (s_ctx s) ->
  reads (s_ctx s) v0 a -> reads (s_ctx s) v1 b ->
  exists c', runs E I_SHR r col s (write_err (s_ctx s) v0) c' /\ powered c' n r col l
    /\ stores (s_ctx s) v0 ((a mod 2 ^ 32) / 2 ^ (b mod 32)) c'
    /\ effect (s_ctx s) c' [(n, r, col)] (Some v0) [v0; v1].
Proof.
  intros. edestruct (shift_full E shr32) as (c' & A & B & C & D); eauto.
  { rewrite norm_amount_mod. unfold shr32. pose proof (Z.mod_pos_bound b 32). replace ((0 <=? b mod 32) && (b mod 32 <? 32)) with true by lia. reflexivity. }
  exists c'; split; [eapply runs_intro; [reflexivity|exact A]|]. split; [exact B|]. split; [|exact D].
  apply (proj1 (stores_i32 _ _ _ _)) in C. rewrite <- Z.shiftr_div_pow2 by (apply Z.mod_pos_bound; lia). exact C.
Qed.
Lemma high_bits x k : 0 <= x < 2 ^ 32 -> 32 <= k -> Z.testbit x k = false.
Proof.
  intros (H1 & H2) Hk. destruct (Z.eq_dec x 0) as [->|]; [apply Z.bits_0|]. apply Z.bits_above_log2; auto.
  assert (Z.log2 x < 32); [|lia]. apply Z.log2_lt_pow2; lia.
Qed.
Lemma lt32 x : 0 <= x -> (forall k, 32 <= k -> Z.testbit x k = false) -> 0 <= x < 2 ^ 32.
Proof.
  intros H0 H. split; auto. destruct (Z.eq_dec x 0) as [->|]; [lia|]. apply Z.log2_lt_pow2; [lia|].
  destruct (Z_lt_ge_dec (Z.log2 x) 32); auto. specialize (H (Z.log2 x)). rewrite Z.bit_log2 in H by lia. specialize (H ltac:(lia)). discriminate.
Qed.
Definition rol (x k : Z) : Z := Z.lor (u32 (Z.shiftl x k)) (Z.shiftr x (32 - k)).
Lemma rol_bit x k j : 0 <= x < 2 ^ 32 -> 0 < k < 32 -> 0 <= j < 32 ->
  Z.testbit (rol x k) j = if j <? k then Z.testbit x (j + (32 - k)) else Z.testbit x (j - k).
Proof.
  intros Hx Hk Hj. unfold rol, u32. rewrite Z.lor_spec, Z.mod_pow2_bits_low, Z.shiftr_spec, Z.shiftl_spec by lia.
  destruct (j <? k) eqn:E.
  - rewrite (Z.testbit_neg_r x (j - k)) by lia. auto.
  - rewrite (high_bits x (j + (32 - k))) by (auto; lia). apply orb_false_r.
Qed.
Lemma rol_range x k : 0 <= x < 2 ^ 32 -> 0 < k < 32 -> 0 <= rol x k < 2 ^ 32.
Proof.
  intros Hx Hk. unfold rol. apply lt32.
  - apply Z.lor_nonneg. split; [apply u32_range|apply Z.shiftr_nonneg; lia].
  - intros j Hj. rewrite Z.lor_spec. unfold u32. rewrite Z.mod_pow2_bits_high, Z.shiftr_spec, high_bits by (auto; lia). auto.
Qed.
Lemma rol_rotated x k : 0 <= x < 2 ^ 32 -> 0 < k < 32 -> rotated x k (rol x k).
Proof.
  intros Hx Hk. split; [apply rol_range; auto|]. intros i Hi.
  destruct (Z_lt_ge_dec (i + k) 32) as [H|H].
  - rewrite Z.mod_small by lia. rewrite rol_bit by (auto; lia). replace (i + k <? k) with false by lia. f_equal; lia.
  - replace ((i + k) mod 32) with (i + k - 32).
    2:{ apply (Z.mod_unique_pos (i + k) 32 1); lia. }
    rewrite rol_bit by (auto; lia). replace (i + k - 32 <? k) with true by lia. f_equal; lia.
Qed.
(** C18: ROL by an amount that is not a multiple of 32 rotates the unsigned operand left. *)
Lemma C18_rol_partial_l : forall E s n r col l v0 v1 a b,
  b mod 32 <> 0 ->
  executing (s_ctx s) n r col -> left_powered (s_ctx s) n r col l ->
  operand_at (s_ctx s) n r col 0 v0 -> operand_at (s_ctx s) n r col 1 v1 -> stores_ok (s_ctx s) ->
  reads (s_ctx s) v0 a -> reads (s_ctx s) v1 b ->
  exists c' w, runs E I_ROL r col s (write_err (s_ctx s) v0) c' /\ powered c' n r col l
    /\ rotated (a mod 2 ^ 32) b w /\ stores (s_ctx s) v0 w c'
    /\ effect (s_ctx s) c' [(n, r, col)] (Some v0) [v0; v1].
Proof.
  intros E s n r col l v0 v1 a b Hb He Hl H0 H1 Hs R0 R1. pose proof (Z.mod_pos_bound b 32) as Hm.
  edestruct (shift_full E (fun v a => let? x := shl32 v a in let? y := shr32 v (32 - a) in Ok (Z.lor x y)) s n r col v0 v1 a b
     (rol (u32 a) (b mod 32))) as (c' & A & B & C & D); eauto.
  { rewrite norm_amount_mod. unfold shl32, shr32.
    replace ((0 <=? b mod 32) && (b mod 32 <? 32)) with true by lia.
    replace ((0 <=? 32 - b mod 32) && (32 - b mod 32 <? 32)) with true by lia. reflexivity. }
  exists c', (rol (u32 a) (b mod 32)); split; [eapply runs_intro; [reflexivity|exact A]|]. split; auto. split.
  - destruct (rol_rotated (u32 a) (b mod 32) (u32_range a) ltac:(lia)) as (Hw & Hr). split; auto.
    intros i Hi. rewrite <- Hr by auto. rewrite Z.add_mod_idemp_r; [auto|lia].
  - split; auto. apply (proj1 (stores_i32 _ _ _ _)); auto.
Qed.
(** C18: ROR likewise rotates right. *)
Lemma C18_ror_partial_l : forall E s n r col l v0 v1 a b,
  b mod 32 <> 0 ->
  executing (s_ctx s) n r col -> left_powered (s_ctx s) n r col l ->
  operand_at (s_ctx s) n r col 0 v0 -> operand_at (s_ctx s) n r col 1 v1 -> stores_ok (s_ctx s) ->
  reads (s_ctx s) v0 a -> reads (s_ctx s) v1 b ->
  exists c' w, runs E I_ROR r col s (write_err (s_ctx s) v0) c' /\ powered c' n r col l
    /\ rotated (a mod 2 ^ 32) (- b) w /\ stores (s_ctx s) v0 w c'
    /\ effect (s_ctx s) c' [(n, r, col)] (Some v0) [v0; v1].
Proof.
  intros E s n r col l v0 v1 a b Hb He Hl H0 H1 Hs R0 R1. pose proof (Z.mod_pos_bound b 32) as Hm.
  edestruct (shift_full E (fun v a => let? x := shr32 v a in let? y := shl32 v (32 - a) in Ok (Z.lor x y)) s n r col v0 v1 a b
     (rol (u32 a) (32 - b mod 32))) as (c' & A & B & C & D); eauto.
  { rewrite norm_amount_mod. unfold shl32, shr32.
    replace ((0 <=? b mod 32) && (b mod 32 <? 32)) with true by lia.
    replace ((0 <=? 32 - b mod 32) && (32 - b mod 32 <? 32)) with true by lia. cbn [rbind]. unfold rol.
    rewrite Z.lor_comm. do 3 f_equal. lia. }
  exists c', (rol (u32 a) (32 - b mod 32)); split; [eapply runs_intro; [reflexivity|exact A]|]. split; auto. split.
  - destruct (rol_rotated (u32 a) (32 - b mod 32) (u32_range a) ltac:(lia)) as (Hw & Hr). split; auto.
    intros i Hi. rewrite <- Hr by auto. f_equal. pose proof (Z.div_mod b 32 ltac:(lia)) as Hd.
    replace (i + - b) with (i + (32 - b mod 32) + (- (b / 32) - 1) * 32) by lia. rewrite Z.mod_add; [auto|lia].
  - split; auto. apply (proj1 (stores_i32 _ _ _ _)); auto.
Qed.
(** C18: rotating back gives the operand again, so no bit is lost. *)
Lemma C18_rotate_inverse_l : forall x k w y,
  0 <= x < 2 ^ 32 -> rotated x k w -> rotated w (- k) y -> y = x.
Proof.
  intros x k w y Hx (Hw & H1) (Hy & H2). apply Z.bits_inj'. intros i Hi.
  destruct (Z_lt_ge_dec i 32) as [Hlt|Hge]; [|rewrite !high_bits by (auto; lia); auto].
  rewrite <- (H1 i) by lia. rewrite <- (H2 ((i + k) mod 32)) by (apply Z.mod_pos_bound; lia).
  f_equal. rewrite Z.add_mod_idemp_l by lia. replace (i + k + - k) with i by lia. rewrite Z.mod_small; lia.
Qed.
(** C18, violated: rotating by a multiple of 32 shifts a 32-bit value by 32, which is undefined behaviour. *)
Lemma C18_rotate_zero_undefined_l : forall E s n r col i v0 v1 a b,
  In i [I_ROL; I_ROR] -> b mod 32 = 0 ->
  executing (s_ctx s) n r col -> operand_at (s_ctx s) n r col 0 v0 -> operand_at (s_ctx s) n r col 1 v1 ->
  reads (s_ctx s) v0 a -> reads (s_ctx s) v1 b ->
  undefined E i r col s UB_shift.
Proof.
  intros E s n r col i v0 v1 a b Hi Hb He H0 H1 R0 R1.
  destruct Hi as [<-|[<-|[]]]; (eapply undef_intro; [reflexivity|]);
    refine (shift_bad _ _ _ _ _ He _ _ _ a b _ H0 H1 R0 R1 _); rewrite norm_amount_mod, Hb; reflexivity.
Qed.
(** C18, violated: the shift is performed also when the power on the left is off. *)
Lemma C18_power_refuted_l : exists E s n r col v0 v1 c' l w w',
  executing (s_ctx s) n r col /\ left_powered (s_ctx s) n r col false
  /\ operand_at (s_ctx s) n r col 0 v0 /\ operand_at (s_ctx s) n r col 1 v1
  /\ runs E I_SHL r col s E_OK c' /\ target (s_ctx s) v0 = Some l
  /\ holds (s_ctx s) l w /\ holds c' l w' /\ w <> w'.
Proof.
  set (c := demo [[cellv I_NO [V R_M 1]; cellv I_SHL [V R_D 0; V R_NONE 2]]]).
  exists quiet_env, (start c), 0%nat, 0%nat, 1%nat, (V R_D 0), (V R_NONE 2).
  exists (after quiet_env I_SHL 0 1 c), (LReg B_D 0), 10, 40. demo_case.
Qed.
(*EX
Example C18_case :
  let c := demo [[on (cellv I_NO [V R_M 0]); cellv I_ROL [V R_D 1; V R_NONE (-29)]; cellv I_ROR [V R_D 1; V R_NONE 64]]] in
  (-29) mod 32 <> 0 /\ 64 mod 32 = 0
  /\ executing c 0 0 1 /\ left_powered c 0 0 1 true /\ operand_at c 0 0 1 0 (V R_D 1) /\ operand_at c 0 0 1 1 (V R_NONE (-29))
  /\ stores_ok c /\ reads c (V R_D 1) (-3) /\ reads c (V R_NONE (-29)) (-29) /\ write_err c (V R_D 1) = E_OK
  /\ executing c 0 0 2 /\ operand_at c 0 0 2 0 (V R_D 1) /\ operand_at c 0 0 2 1 (V R_NONE 64).
Proof. demo_case. Qed.
Example C18_rotated_case : rotated 2147483649 3 12 /\ rotated 12 (-3) 2147483649.
Proof.
  assert (H : forall f : Z -> Prop, (forall k, (0 <= k < 32)%nat -> f (Z.of_nat k)) -> forall i, 0 <= i < 32 -> f i).
  { intros f H i Hi. rewrite <- (Z2Nat.id i) by lia. apply H. lia. }
  split; (split; [lia|]); apply H; intros k Hk; do 32 (destruct k as [|k]; [reflexivity|]); lia.
Qed.
EX*)
