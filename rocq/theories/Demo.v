(** Concrete contexts for the examples beside the theorems, and decision procedures for their hypotheses. *)
From Verif Require Export Effects General.

(** ** Deciding the vocabulary on concrete contexts *)
Definition zof (o : option val) : option Z := match o with Some (VZ z) => Some z | _ => None end.
Definition flagof (o : option val) : option Z :=
  match o with Some (VZ z) => if (z =? 0) || (z =? 1) then Some z else None | _ => None end.
Definition f32z (u : Z) : option Z := match f32_to_i32 u with Ok z => Some z | _ => None end.
Definition nonnull (c : ctx) (v : value) : bool :=
  match v_type v with
  | R_T => negb (is_null (x_tm c))
  | t => match bank_of t with Some b => negb (is_null (bank_arr b c)) | None => true end
  end.
(** The value an operand reads as. *)
Definition readv (c : ctx) (v : value) : option Z :=
  if bad_b c v then (if nonnull c v then Some 0 else None) else
  let m := ix (v_module v) in let p := ix (v_port v) in
  match v_type v with
  | R_NONE => Some (v_raw v)
  | R_M => zof (peek c (LReg B_M (ix (v_raw v))))
  | R_Cd => flagof (peek c (LReg B_Cd (ix (v_raw v))))
  | R_Cr => flagof (peek c (LReg B_Cr (ix (v_raw v))))
  | R_Td => flagof (peek c (LReg B_Td (ix (v_raw v))))
  | R_Tr => flagof (peek c (LReg B_Tr (ix (v_raw v))))
  | R_C => option_map i32 (zof (peek c (LReg B_C (ix (v_raw v)))))
  | R_T => option_map (fun u => Z.min u (2 ^ 31 - 1)) (zof (peek c (LAcc (ix (v_raw v)))))
  | R_D => zof (peek c (LReg B_D (ix (v_raw v))))
  | R_R => obind (zof (peek c (LReg B_R (ix (v_raw v))))) f32z
  | R_Q => if v_module v <? Z.of_nat (io_wq (x_io c)) then zof (peek c (LOut m K_Q p)) else Some 0
  | R_QW => if v_module v <? Z.of_nat (io_wq (x_io c)) then zof (peek c (LOut m K_QW p)) else Some 0
  | R_I => if v_module v <? Z.of_nat (io_rq (x_io c)) then zof (peek c (LIn m K_I p)) else Some 0
  | R_IW => if v_module v <? Z.of_nat (io_rq (x_io c)) then zof (peek c (LIn m K_IW p)) else Some 0
  | R_S | R_INV | R_OTHER _ => Some 0
  end.
Lemma zof_holds c l z : zof (peek c l) = Some z <-> holds c l z.
Proof. unfold holds. destruct (peek c l) as [[]|]; simpl; split; congruence. Qed.
Lemma flagof_holds c l z : flagof (peek c l) = Some z <-> holds_flag c l z.
Proof.
  unfold holds_flag, holds. destruct (peek c l) as [[]|]; simpl; try (split; [discriminate|intros (H & _); discriminate]).
  destruct ((z0 =? 0) || (z0 =? 1)) eqn:Hz; split.
  - intros [= <-]; split; auto; lia.
  - intros ([= <-] & _); auto.
  - discriminate.
  - intros ([= <-] & H). lia.
Qed.
Lemma f32z_ok u z : f32z u = Some z <-> f32_to_i32 u = Ok z.
Proof. unfold f32z. destruct (f32_to_i32 u); split; congruence. Qed.
Lemma readv_reads c v z : readv c v = Some z <-> reads c v z.
Proof.
  unfold readv, reads. destruct (bad_b c v) eqn:Hb.
  - apply bad_b_spec in Hb. split.
    + destruct (nonnull c v) eqn:Hn; [|discriminate]. intros [= <-]. left; split; [auto|split; [auto|]].
      unfold nonnull in Hn. destruct (v_type v); simpl in *;
        try (intros b [= <-]; simpl in * ); try discriminate; try (intros H0; rewrite H0 in Hn; discriminate).
    + intros [(_ & -> & H)|(H & _)]; [|contradiction].
      assert (nonnull c v = true) as ->; auto. unfold nonnull. destruct (v_type v); simpl in *; auto;
        try (specialize (H _ eq_refl); simpl in H);
        match goal with |- negb (is_null ?p) = true => destruct p; [auto|congruence] end.
  - assert (Hg : ~ bad_index c v) by (rewrite <- bad_b_spec; congruence).
    transitivity (match v_type v with
   | R_NONE => z = v_raw v
   | R_M => holds c (LReg B_M (ix (v_raw v))) z
   | R_Cd => holds_flag c (LReg B_Cd (ix (v_raw v))) z
   | R_Cr => holds_flag c (LReg B_Cr (ix (v_raw v))) z
   | R_Td => holds_flag c (LReg B_Td (ix (v_raw v))) z
   | R_Tr => holds_flag c (LReg B_Tr (ix (v_raw v))) z
   | R_C => exists u, holds c (LReg B_C (ix (v_raw v))) u /\ z = i32 u
   | R_T => exists u, holds c (LAcc (ix (v_raw v))) u /\ z = Z.min u (2 ^ 31 - 1)
   | R_D => holds c (LReg B_D (ix (v_raw v))) z
   | R_R => exists u, holds c (LReg B_R (ix (v_raw v))) u /\ f32_to_i32 u = Ok z
   | R_Q => if v_module v <? Z.of_nat (io_wq (x_io c)) then holds c (LOut (ix (v_module v)) K_Q (ix (v_port v))) z else z = 0
   | R_QW => if v_module v <? Z.of_nat (io_wq (x_io c)) then holds c (LOut (ix (v_module v)) K_QW (ix (v_port v))) z else z = 0
   | R_I => if v_module v <? Z.of_nat (io_rq (x_io c)) then holds c (LIn (ix (v_module v)) K_I (ix (v_port v))) z else z = 0
   | R_IW => if v_module v <? Z.of_nat (io_rq (x_io c)) then holds c (LIn (ix (v_module v)) K_IW (ix (v_port v))) z else z = 0
   | R_S | R_INV | R_OTHER _ => z = 0
   end); [|tauto].
    destruct (v_type v); rewrite ?zof_holds, ?flagof_holds; try tauto; try (split; congruence).
    all: try (destruct (_ <? _); [apply zof_holds|split; congruence]).
    + split.
      * destruct (zof (peek c (LReg B_C (ix (v_raw v))))) as [u|] eqn:Hz; simpl; [|discriminate]. intros [= <-].
        exists u; split; auto. apply zof_holds; auto.
      * intros (u & H1 & ->). apply zof_holds in H1. rewrite H1; auto.
    + split.
      * destruct (zof (peek c (LAcc (ix (v_raw v))))) as [u|] eqn:Hz; [|discriminate]. intros [= <-].
        exists u; split; auto. apply zof_holds; auto.
      * intros (u & H1 & ->). apply zof_holds in H1. rewrite H1; auto.
    + split.
      * destruct (zof (peek c (LReg B_R (ix (v_raw v))))) as [u|] eqn:Hz; [|discriminate]. simpl.
        intros H. exists u; split; [apply zof_holds; auto|apply f32z_ok; auto].
      * intros (u & H1 & H2). apply zof_holds in H1. rewrite H1; simpl. apply f32z_ok; auto.
Qed.

(** Well-formed stores. *)
Definition arr_okb (p : arr) (n : nat) : bool := match p with Some l => (n <=? length l)%nat | None => false end.
Definition flagsb (p : arr) : bool := match p with Some l => forallb (fun z => (z =? 0) || (z =? 1)) l | None => true end.
Definition banks : list bank := [B_M; B_Cr; B_Cd; B_Tr; B_Td; B_Mh; B_Crh; B_Cdh; B_Trh; B_Tdh; B_C; B_D; B_R].
Definition inb (m : inmod) : bool :=
  ((i_iq m =? 0)%nat || arr_okb (i_I m) (i_iq m)) && ((i_iwq m =? 0)%nat || arr_okb (i_IW m) (i_iwq m)).
Definition outb (m : outmod) : bool :=
  ((o_qq m =? 0)%nat || arr_okb (o_Q m) (o_qq m)) && ((o_qwq m =? 0)%nat || arr_okb (o_QW m) (o_qwq m)).
Definition modsb {A} (n : nat) (p : option (list A)) (f : A -> bool) : bool :=
  match p with
  | None => (n =? 0)%nat
  | Some l => ((n =? 0) || (n <=? length l))%nat && forallb f l
  end.
Definition stores_okb (c : ctx) : bool :=
  forallb (fun b => arr_okb (bank_arr b c) (bank_qty b (x_q c))) banks
  && (match x_tm c with Some l => (q_t (x_q c) <=? length l)%nat | None => false end)
  && modsb (io_rq (x_io c)) (x_in c) inb && modsb (io_wq (x_io c)) (x_out c) outb.
Lemma arr_okb_ok p n : arr_okb p n = true -> arr_ok p n.
Proof. destruct p; simpl; [|discriminate]. intros H. exists l; split; auto; lia. Qed.
Lemma stores_okb_ok c : stores_okb c = true -> stores_ok c.
Proof.
  unfold stores_okb. rewrite !andb_true_iff. intros (((H1 & H3) & H4) & H5).
  rewrite forallb_forall in H1. split; constructor.
  - intros b. apply arr_okb_ok, H1. destruct b; simpl; auto 20.
  - destruct (x_tm c); [|discriminate]. eexists; split; eauto. lia.
  - unfold modsb in H4. destruct (x_in c); [|left; lia]. destruct (io_rq (x_io c) =? 0)%nat eqn:Hn; [left; lia|right].
    exists l; split; auto; lia.
  - unfold modsb in H5. destruct (x_out c); [|left; lia]. destruct (io_wq (x_io c) =? 0)%nat eqn:Hn; [left; lia|right].
    exists l; split; auto; lia.
  - intros m im Hm He. unfold modsb in H4. destruct (x_in c) as [l|]; simpl in He; [|discriminate].
    apply andb_true_iff in H4 as (_ & H4). rewrite forallb_forall in H4. apply nth_error_In, H4 in He. unfold inb in He.
    apply andb_true_iff in He as (A & B). apply orb_true_iff in A, B.
    split; [destruct A as [A|A]|destruct B as [B|B]]; try (right; apply arr_okb_ok; assumption); left; lia.
  - intros m im Hm He. unfold modsb in H5. destruct (x_out c) as [l|]; simpl in He; [|discriminate].
    apply andb_true_iff in H5 as (_ & H5). rewrite forallb_forall in H5. apply nth_error_In, H5 in He. unfold outb in He.
    apply andb_true_iff in He as (A & B). apply orb_true_iff in A, B.
    split; [destruct A as [A|A]|destruct B as [B|B]]; try (right; apply arr_okb_ok; assumption); left; lia.
Qed.
Definition flags_okb (c : ctx) : bool := forallb (fun b => flagsb (bank_arr b c)) [B_Cd; B_Cr; B_Td; B_Tr; B_Cdh; B_Crh; B_Tdh; B_Trh].
Lemma flags_okb_ok c : flags_okb c = true -> flags_ok c.
Proof.
  unfold flags_okb. rewrite forallb_forall. intros H2 b i z Hb Hz. apply H2 in Hb. apply holds_elem in Hz. unfold flagsb in Hb.
  destruct (bank_arr b c); simpl in Hz; [|discriminate]. rewrite forallb_forall in Hb. apply nth_error_In in Hz.
  apply Hb in Hz. lia.
Qed.
Ltac decide_stores := apply stores_okb_ok; vm_compute; reflexivity.
Ltac decide_reads := apply readv_reads; vm_compute; reflexivity.
Ltac decide_exec := split; [reflexivity|split; [do 3 eexists; split; [reflexivity|split; simpl; lia]|do 3 eexists; reflexivity]].
Ltac decide_op := split; [reflexivity|do 3 eexists; split; [reflexivity|simpl; lia]].

(** ** Building contexts *)
Definition V (t : reg) (z : Z) : value := mk_value t z None.
Definition cellv (i : ins) (vs : list value) : cell := mk_cell false false i (length vs) (Some vs).
Definition on (x : cell) : cell := set_c_state true x.
Definition bar (x : cell) : cell := set_c_bar true x.
Definition demo_args : init_args := mk_init_args 6 4 2 4 4 4 4 4 1 0 true false 1000 0.
(** What the memory of the context contained before initialisation. *)
Definition garbage : ctx :=
  mk_ctx S_INV true last0 (mk_qty 0 0 0 0 0 0 0 0) io0 hooks0 (mk_mem None None None None None)
    (mk_prev None None None None None) None None (mk_regs None None None) None
    (mk_scanint 0 0 0 0 0 0 0 0 0 false) None None (mk_foreign 0 None) None.
Definition demo_init : ctx := snd (ctx_init (fun _ => true) demo_args garbage).
Definition demo_in : inmod := mk_inmod 1 2 2 (Some [1; 0]) (Some [300; -5]) (Some [0; 1]) (Some [0; 0]).
Definition demo_out : outmod := mk_outmod 1 2 2 (Some [0; 1]) (Some [0; 0]) (Some [0; 1]) (Some [0; 0]).
(** A running context with an input and an output module, some register contents, and the given rows as network 0,
    being executed. *)
Definition demo (rows : list (list cell)) : ctx :=
  set_x_state S_RUNNING
  (set_x_cron None
  (set_x_exec (Some 0%nat)
  (set_x_net (Some [mk_network true (length rows) (length (nth 0 rows [])) (Some rows)])
  (set_x_q (set_q_nets 1 (x_q demo_init))
  (set_x_h (mk_hooks true true false false false false false false)
  (set_x_in (Some [demo_in]) (set_x_out (Some [demo_out])
  (set_x_io (mk_hwio 1 1 (Some [true]) (Some [true]) (Some [false]) (Some [false]))
  (set_x_regs (mk_regs (Some [0; 7; 0; 0]) (Some [10; -3; 2147483647; 0]) (Some [1069547520; 0; 0; 0]))
  (set_x_mem (set_m_M (Some [1; 0; 1; 0]) (x_mem demo_init))
  demo_init)))))))))).
(** An environment whose callbacks do nothing and whose clock advances 10 ms per call. *)
Definition quiet_env : env :=
  mk_env (fun k => 10 * Z.of_nat k) (fun _ _ c => c) (fun _ _ _ _ c => (E_OK, c)) (fun _ => mk_tm 0 0 0 1 0 0 120)
    (fun _ => true) (fun _ d => (true, d)).
Definition start (c : ctx) : st := mk_st c [].
(** The context after executing one instruction. *)
Definition after (E : env) (i : ins) (r col : nat) (c : ctx) : ctx :=
  match outcome E i r col (start c) with Some (Ok (_, s')) => s_ctx s' | _ => c end.
Ltac demo_goal := match goal with
  | |- executing _ _ _ _ => decide_exec
  | |- operand_at _ _ _ _ _ _ => decide_op
  | |- reads _ _ _ => decide_reads
  | |- stores_ok _ => decide_stores
  | |- flags_ok _ => apply flags_okb_ok; vm_compute; reflexivity
  | |- cell_exists _ _ _ _ => do 3 eexists; vm_compute; reflexivity
  | |- bad_index _ _ => apply bad_b_spec; vm_compute; reflexivity
  | |- ~ bad_index _ _ => rewrite <- bad_b_spec; vm_compute; discriminate
  | |- ~ in_qty _ _ => unfold in_qty; simpl; lia
  | |- in_qty _ _ => unfold in_qty; simpl; lia
  | |- fits _ => unfold fits; lia
  | |- ~ fits _ => unfold fits; lia
  | |- _ <> _ => vm_compute; discriminate
  | |- _ >= _ => vm_compute; discriminate
  | |- _ <= _ => vm_compute; discriminate
  | |- _ => vm_compute; reflexivity
  end.
Ltac demo_case := intros; repeat match goal with |- _ /\ _ => split end; demo_goal.

(** A history of executions of the block at cell (0, 1) with the given power on its left. *)
Definition feed (b : bool) (s : st) : st := mk_st (put_pow 0 0 0 b (s_ctx s)) (s_tr s).
Definition step1 (E : env) (i : ins) (s : st) : st := match outcome E i 0 1 s with Some (Ok (_, s')) => s' | _ => s end.
Fixpoint play (E : env) (i : ins) (on : nat -> bool) (c : ctx) (k : nat) : st :=
  match k with
  | O => feed (on 0%nat) (start c)
  | S k' => feed (on k) (step1 E i (play E i on c k'))
  end.
Definition timed_env (clock : nat -> Z) : env :=
  mk_env clock (fun _ _ c => c) (fun _ _ _ _ c => (E_OK, c)) (fun _ => mk_tm 0 0 0 1 0 0 120) (fun _ => true) (fun _ d => (true, d)).
Definition block (i : ins) (vs : list value) : ctx :=
  demo [[cellv I_CONN []; cellv i vs]; [cellv I_CONN []; cellv I_MULTI []]].
