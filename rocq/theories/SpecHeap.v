(** Specification: who owns the memory. *)
From Verif Require Export Heap.

(** The block [a] is allocated. *)
Definition live (h : list (nat * block)) (a : nat) : Prop := find_block h a <> None.
(** Blocks have different names, all given by earlier requests. *)
Definition sane (s : hst) : Prop := NoDup (map fst (s_heap s)) /\ (forall a, live (s_heap s) a -> (a < s_n s)%nat).
(** The pointers in a block and in the machine. *)
Definition val_ptr (v : hval) : ptr := match v with V_str p => p | V_other => None end.
Definition pointers (b : block) : list ptr :=
  match b with
  | B_raw _ | B_fns _ | B_any => []
  | B_nets l => map w_cells l
  | B_rows l => l
  | B_cells l => map k_data l
  | B_data l => map val_ptr l
  | B_mods l => flat_map (fun m => [d_1 m; d_2 m; d_3 m]) l
  | B_fors l => l
  | B_cron p => [p]
  end.
Definition roots (g : hctx) : list ptr :=
  g_net g :: g_reg g ++ [g_fn g; g_rd g; g_ird g; g_in g; g_wr g; g_iwr g; g_out g; g_cron g].
(** The machine reaches the block [a] by following pointers. *)
Inductive reach (h : list (nat * block)) (g : hctx) : nat -> Prop :=
| reach_root : forall a, In (Some a) (roots g) -> reach h g a
| reach_next : forall a b c, reach h g a -> find_block h a = Some b -> In (Some c) (pointers b) -> reach h g c.
(** Of the blocks [h], those of [h0] are untouched and out of reach, the others are exactly the ones the machine reaches: no pointer of
    the machine leads to released memory, and nothing is lost. *)
Definition owned (h0 h : list (nat * block)) (g : hctx) : Prop :=
  (forall a, live h0 a -> find_block h a = find_block h0 a /\ ~ reach h g a)
  /\ (forall a, live h a <-> live h0 a \/ reach h g a).
(** The same blocks with the same contents. *)
Definition same_memory (h h' : list (nat * block)) : Prop := forall a, find_block h' a = find_block h a.
(** A network with rows and without cells. *)
Definition hollow (s : hst) : Prop :=
  exists a l nt w, g_net (s_g s) = Some a /\ find_block (s_heap s) a = Some (B_nets l) /\ (nt < g_nets (s_g s))%nat
    /\ nth_error l nt = Some w /\ (0 < w_rows w)%nat /\ w_cells w = None.
(** A network of a document with rows, if it has any, and with cols and as many arrays as rows. *)
Definition whole_net (d : dnet) : Prop :=
  match d with
  | DN _ (Some (S r)) cols data => (exists c, cols = Some c) /\ (exists l, data = Some l /\ length l = S r)
  | _ => True
  end.
(** Instructions have at least one cell. *)
Definition spanned (k : hcall) : Prop := match k with K_cell _ _ _ _ cells _ => (1 <= cells)%nat | _ => True end.
(** Calls that are safe if there is memory for every request; calls that are always safe. *)
Definition harmless (k : hcall) : Prop :=
  match k with
  | K_load (Some l) => Forall whole_net l
  | K_cell _ _ _ _ cells _ => (1 <= cells)%nat
  | _ => True
  end.
Definition frugal (k : hcall) : Prop :=
  match k with
  | K_load (Some _) => False
  | K_cron q => q = 0%nat
  | K_cell _ _ _ _ cells _ => (1 <= cells)%nat
  | _ => True
  end.
(** From one state to another the blocks of the first are kept, and [n] others are left over. *)
Definition left_over (s s' : hst) (n : nat) : Prop :=
  (forall a, live (s_heap s) a -> find_block (s_heap s') a = find_block (s_heap s) a)
  /\ length (s_heap s') = (length (s_heap s) + n)%nat.
(** Request [k] after the state [s] is the first that is refused. *)
Definition first_refused (G : nat -> bool) (s : hst) (k : nat) : Prop :=
  G (s_n s + k)%nat = false /\ forall j, (j < k)%nat -> G (s_n s + j)%nat = true.
