(** Memory management: which blocks the library allocates, who points to them and when they are released. The functions are those
    of General.v, Json.v, Cron.v and Port.v seen from the side of malloc and free: values of registers are left out, pointers and the
    sizes of arrays are kept, and a block that was released is no longer there. *)
From Verif Require Export Types.

(** ** Blocks *)

(** A pointer: NULL or the number of a block. *)
Definition ptr := option nat.
(** Use of NULL, use outside a block, use or release of a block that is not allocated. *)
Inductive hub : Type := H_null | H_oob | H_freed.
Inductive hres (A : Type) : Type := HOk (a : A) | HBad (u : hub).
Arguments HOk {A} _. Arguments HBad {A} _.
(** ladder.h:246-254, ladder_value_t: a value with a string, or any other value. *)
Inductive hval : Type := V_other | V_str (p : ptr).
(** ladder.h: ladder_cell_t, without the fields that do not matter here. *)
Record hcell : Type := mk_hcell { k_code : ins; k_dq : nat; k_data : ptr }.
(** ladder.h: ladder_network_t. *)
Record hnet : Type := mk_hnet { w_rows : nat; w_cols : nat; w_cells : ptr }.
(** ladder.h: ladder_hw_input_vals_t (I, IW, Ih) and ladder_hw_output_vals_t (Q, QW, Qh); the port never allocates IWh and QWh. *)
Record hmod : Type := mk_hmod { d_1 : ptr; d_2 : ptr; d_3 : ptr }.
(** Contents of a block: an array of numbers with its size; of function pointers (which may be NULL); of networks; of pointers to rows;
    of cells; of operands; of modules; of foreign functions (the data pointer of each); the cron structure with its table;
    something that is never looked into (strings, arrays of a module, data of a foreign function, jobs). *)
Inductive block : Type :=
| B_raw (n : nat) | B_fns (l : list bool) | B_nets (l : list hnet) | B_rows (l : list ptr) | B_cells (l : list hcell)
| B_data (l : list hval) | B_mods (l : list hmod) | B_fors (l : list ptr) | B_cron (p : ptr) | B_any.

(** The pointers and quantities of ladder_ctx_t. [g_reg] are the fourteen arrays in the order in which ladder_ctx_init
    (ladder_general.c:359-440) allocates them: Mh M Crh Cr Cdh Cd Trh Tr Tdh Td C timers D R. *)
Record hctx : Type := mk_hctx {
  g_nets : nat; g_m : nat; g_c : nat; g_t : nat; g_net : ptr; g_reg : list ptr;
  g_fq : nat; g_fn : ptr;
  g_rq : nat; g_rd : ptr; g_ird : ptr; g_in : ptr;
  g_wq : nat; g_wr : ptr; g_iwr : ptr; g_out : ptr;
  g_cron : ptr }.
(** The machine, the allocated blocks and the number of requests so far, which is also the name of the next block. *)
Record hst : Type := mk_hst { s_n : nat; s_heap : list (nat * block); s_g : hctx }.

(** ** Sequences of statements *)

Definition H (A : Type) := hst -> hres (A * hst).
Definition hret {A} (a : A) : H A := fun s => HOk (a, s).
Definition hbad {A} (u : hub) : H A := fun _ => HBad u.
Definition hbind {A B} (m : H A) (f : A -> H B) : H B :=
  fun s => match m s with HOk (a, s') => f a s' | HBad u => HBad u end.
Notation "'do!' x <- a ; b" := (hbind a (fun x => b)) (at level 200, x name, a at level 100, b at level 200).
Notation "'run!' a ; b" := (hbind a (fun _ => b)) (at level 200, a at level 100, b at level 200).
Definition getg : H hctx := fun s => HOk (s_g s, s).
Definition modg (f : hctx -> hctx) : H unit := fun s => HOk (tt, mk_hst (s_n s) (s_heap s) (f (s_g s))).
(** [f] for the indexes [i], ..., [i + n - 1] *)
Fixpoint hfor (n i : nat) (f : nat -> H unit) : H unit :=
  match n with O => hret tt | S n' => run! f i; hfor n' (S i) f end.
(** ... as long as it answers [true] *)
Fixpoint hwhile (n i : nat) (f : nat -> H bool) : H bool :=
  match n with O => hret true | S n' => do! b <- f i; if b : bool then hwhile n' (S i) f else hret false end.
Definition hnth {A} (l : list A) (i : nat) : H A := match nth_error l i with Some x => hret x | None => hbad H_oob end.
Fixpoint put {A} (l : list A) (i : nat) (x : A) : list A :=
  match l, i with
  | [], _ => []
  | _ :: l', O => x :: l'
  | y :: l', S i' => y :: put l' i' x
  end.

(** ** The allocator *)

Definition find_block (h : list (nat * block)) (a : nat) : option block :=
  match find (fun e => (fst e =? a)%nat) h with Some e => Some (snd e) | None => None end.
Definition drop_block (h : list (nat * block)) (a : nat) : list (nat * block) := filter (fun e => negb (fst e =? a)%nat) h.
Definition h_load (p : ptr) : H block := fun s =>
  match p with
  | None => HBad H_null
  | Some a => match find_block (s_heap s) a with Some b => HOk (b, s) | None => HBad H_freed end
  end.
Definition h_store (p : ptr) (b : block) : H unit := fun s =>
  match p with
  | None => HBad H_null
  | Some a => match find_block (s_heap s) a with
              | Some _ => HOk (tt, mk_hst (s_n s) ((a, b) :: drop_block (s_heap s) a) (s_g s))
              | None => HBad H_freed
              end
  end.
(** free: nothing for NULL *)
Definition h_free (p : ptr) : H unit := fun s =>
  match p with
  | None => HOk (tt, s)
  | Some a => match find_block (s_heap s) a with
              | Some _ => HOk (tt, mk_hst (s_n s) (drop_block (s_heap s) a) (s_g s))
              | None => HBad H_freed
              end
  end.
(** realloc to a smaller size, with contents [b]; nothing remains for size 0. Simplified: it always succeeds, and the block moves. *)
Definition h_shrink (p : ptr) (n : nat) (b : block) : H ptr :=
  run! h_free p;
  match n with
  | O => hret None
  | _ => fun s => HOk (Some (s_n s), mk_hst (S (s_n s)) ((s_n s, b) :: s_heap s) (s_g s))
  end.

Definition as_nets (b : block) : H (list hnet) := match b with B_nets l => hret l | _ => hbad H_oob end.
Definition as_rows (b : block) : H (list ptr) := match b with B_rows l => hret l | _ => hbad H_oob end.
Definition as_cells (b : block) : H (list hcell) := match b with B_cells l => hret l | _ => hbad H_oob end.
Definition as_data (b : block) : H (list hval) := match b with B_data l => hret l | _ => hbad H_oob end.
Definition as_mods (b : block) : H (list hmod) := match b with B_mods l => hret l | _ => hbad H_oob end.
Definition as_fors (b : block) : H (list ptr) := match b with B_fors l => hret l | _ => hbad H_oob end.
Definition as_fns (b : block) : H (list bool) := match b with B_fns l => hret l | _ => hbad H_oob end.
Definition as_cron (b : block) : H ptr := match b with B_cron p => hret p | _ => hbad H_oob end.

(** network[nt], network[nt].cells[r], network[nt].cells[r][c] *)
Definition get_net (nt : nat) : H hnet := do! g <- getg; do! b <- h_load (g_net g); do! l <- as_nets b; hnth l nt.
Definition set_net (nt : nat) (w : hnet) : H unit :=
  do! g <- getg; do! b <- h_load (g_net g); do! l <- as_nets b; do! o <- hnth l nt; h_store (g_net g) (B_nets (put l nt w)).
Definition get_row (p : ptr) (r : nat) : H ptr := do! b <- h_load p; do! l <- as_rows b; hnth l r.
Definition set_row (p : ptr) (r : nat) (q : ptr) : H unit :=
  do! b <- h_load p; do! l <- as_rows b; do! o <- hnth l r; h_store p (B_rows (put l r q)).
Definition get_cell (p : ptr) (c : nat) : H hcell := do! b <- h_load p; do! l <- as_cells b; hnth l c.
Definition set_cell (p : ptr) (c : nat) (x : hcell) : H unit :=
  do! b <- h_load p; do! l <- as_cells b; do! o <- hnth l c; h_store p (B_cells (put l c x)).

(** ** Releasing *)

(** The operands of a cell and their strings: ladder_general.c:262-269, 474-486, 793-801, ladder_program_json.c:649-655, 859-864,
    876-882. That the string pointers are set to NULL is left out, the array goes with the next statement. *)
Definition free_value (l : list hval) (d : nat) : H unit :=
  do! v <- hnth l d; match v with V_str p => h_free p | V_other => hret tt end.
Definition free_data (x : hcell) : H unit :=
  do! b <- h_load (k_data x); do! l <- as_data b; run! hfor (k_dq x) 0 (free_value l); h_free (k_data x).
Definition is_nil (p : ptr) : bool := match p with None => true | Some _ => false end.

(** ladder_clear_program, ladder_general.c:254-276 *)
Definition clear_one (nt r c : nat) : H unit :=
  do! w <- get_net nt; do! p <- get_row (w_cells w) r; do! x <- get_cell p c;
  if is_nil (k_data x) then set_cell p c (mk_hcell I_NOP (k_dq x) None)
  else run! free_data x; set_cell p c (mk_hcell I_NOP 0 None).
Definition h_clear_program : H unit :=
  do! g <- getg;
  hfor (g_nets g) 0 (fun nt => do! w <- get_net nt; hfor (w_rows w) 0 (fun r => hfor (w_cols w) 0 (clear_one nt r))).
(** ladder_clear_memory, ladder_general.c:233-252: memset of the array [i] for [q] elements *)
Definition h_wipe (i q : nat) : H unit :=
  do! g <- getg; do! p <- hnth (g_reg g) i;
  do! b <- h_load p; match b with B_raw n => if (q <=? n)%nat then hret tt else hbad H_oob | _ => hbad H_oob end.
Definition h_clear_memory : H unit :=
  do! g <- getg;
  run! (if (0 <? g_m g)%nat then run! h_wipe 0 (g_m g); h_wipe 1 (g_m g) else hret tt);
  run! (if (0 <? g_c g)%nat then run! h_wipe 4 (g_c g); run! h_wipe 5 (g_c g); run! h_wipe 2 (g_c g); h_wipe 3 (g_c g) else hret tt);
  if (0 <? g_t g)%nat then run! h_wipe 8 (g_t g); run! h_wipe 9 (g_t g); run! h_wipe 6 (g_t g); h_wipe 7 (g_t g) else hret tt.

(** port_dummy.c:336-351 and 400-414, dummy_init_read and dummy_init_write with init false, for the module [m] *)
Definition mod_release (m : hmod) : H hmod := run! h_free (d_1 m); run! h_free (d_2 m); run! h_free (d_3 m); hret (mk_hmod None None None).
Definition h_mod_off (p : ptr) (id : nat) : H unit :=
  do! b <- h_load p; do! l <- as_mods b; do! m <- hnth l id; do! m' <- mod_release m; h_store p (B_mods (put l id m')).

(** ladder_ctx_deinit, ladder_general.c:466-575. The pointer to the networks keeps its value. *)
Definition free_one (nt r c : nat) : H unit :=
  do! w <- get_net nt; do! p <- get_row (w_cells w) r; do! x <- get_cell p c;
  if is_nil (k_data x) then hret tt else run! free_data x; set_cell p c (mk_hcell (k_code x) (k_dq x) None).
Definition free_row (nt r : nat) : H unit := do! w <- get_net nt; do! p <- get_row (w_cells w) r; h_free p.
Definition h_free_networks : H unit :=
  do! g <- getg;
  if is_nil (g_net g) then hret tt else
  run! hfor (g_nets g) 0 (fun nt =>
    do! w <- get_net nt;
    run! hfor (w_rows w) 0 (fun r => run! hfor (w_cols w) 0 (free_one nt r); free_row nt r);
    do! w1 <- get_net nt; h_free (w_cells w1));
  h_free (g_net g).
(** free of the array [i] and its pointer set to NULL *)
Definition h_drop (i : nat) : H unit :=
  do! g <- getg; do! p <- hnth (g_reg g) i; run! h_free p;
  modg (fun g => mk_hctx (g_nets g) (g_m g) (g_c g) (g_t g) (g_net g) (put (g_reg g) i None) (g_fq g) (g_fn g)
                  (g_rq g) (g_rd g) (g_ird g) (g_in g) (g_wq g) (g_wr g) (g_iwr g) (g_out g) (g_cron g)).
(** ladder_general.c:528-534, with the deinit function of fn_dummy.c:65-69 *)
Definition h_free_foreign : H unit :=
  do! g <- getg;
  run! hfor (g_fq g) 0 (fun f => do! b <- h_load (g_fn g); do! l <- as_fors b; do! d <- hnth l f; h_free d);
  run! h_free (g_fn g);
  modg (fun g => mk_hctx (g_nets g) (g_m g) (g_c g) (g_t g) (g_net g) (g_reg g) (g_fq g) None
                  (g_rq g) (g_rd g) (g_ird g) (g_in g) (g_wq g) (g_wr g) (g_iwr g) (g_out g) (g_cron g)).
(** ladder_general.c:536-545: modules without an init function are left alone *)
Definition h_mods_off (q : nat) (ini mods : ptr) : H unit :=
  hfor q 0 (fun f => do! b <- h_load ini; do! l <- as_fns b; do! i <- hnth l f; if i : bool then h_mod_off mods f else hret tt).
(** ladderlib_cron_deinit, ladderlib_cron.c:56-61, and ladder_general.c:560-565 *)
Definition h_free_cron : H unit :=
  do! g <- getg;
  run! (if is_nil (g_cron g) then hret tt else do! b <- h_load (g_cron g); do! j <- as_cron b; h_free j);
  h_free (g_cron g).
Definition h_deinit : H unit :=
  run! h_clear_memory;
  run! h_clear_program;
  run! h_free_networks;
  run! h_drop 1; run! h_drop 3; run! h_drop 5; run! h_drop 7; run! h_drop 9;
  run! h_drop 0; run! h_drop 2; run! h_drop 4; run! h_drop 6; run! h_drop 8;
  run! h_drop 10; run! h_drop 12; run! h_drop 13; run! h_drop 11;
  run! h_free_foreign;
  do! g <- getg;
  run! h_mods_off (g_rq g) (g_ird g) (g_in g);
  run! h_mods_off (g_wq g) (g_iwr g) (g_out g);
  run! h_free (g_rd g); run! h_free (g_wr g); run! h_free (g_ird g); run! h_free (g_iwr g); run! h_free (g_in g); run! h_free (g_out g);
  run! h_free_cron;
  modg (fun g => mk_hctx (g_nets g) (g_m g) (g_c g) (g_t g) (g_net g) (g_reg g) (g_fq g) (g_fn g)
                  (g_rq g) None None None (g_wq g) None None None None).

(** ** Building. [G k] tells whether the k-th request for memory is granted. *)
Section Building.
Variable G : nat -> bool.

(** malloc, calloc, strdup *)
Definition h_alloc (b : block) : H ptr := fun s =>
  if G (s_n s) then HOk (Some (s_n s), mk_hst (S (s_n s)) ((s_n s, b) :: s_heap s) (s_g s))
  else HOk (None, mk_hst (S (s_n s)) (s_heap s) (s_g s)).
(** realloc to a larger size; [f] gives the new contents, with the new element already assigned. The block moves; on failure it stays.
    For NULL it is malloc. *)
Definition h_grow (p : ptr) (f : option block -> block) : H ptr :=
  match p with
  | None => h_alloc (f None)
  | Some _ => do! b <- h_load p; do! q <- h_alloc (f (Some b)); if is_nil q then hret None else run! h_free p; hret q
  end.

(** ladder_ctx_init, ladder_general.c:278-464 *)
Definition cell_new : hcell := mk_hcell I_NOP 0 None.
Definition hctx0 : hctx := mk_hctx 0 0 0 0 None (repeat None 14) 0 None 0 None None None 0 None None None None.
Definition set_gnet (p : ptr) (g : hctx) : hctx :=
  mk_hctx (g_nets g) (g_m g) (g_c g) (g_t g) p (g_reg g) (g_fq g) (g_fn g)
    (g_rq g) (g_rd g) (g_ird g) (g_in g) (g_wq g) (g_wr g) (g_iwr g) (g_out g) (g_cron g).
Definition set_greg (i : nat) (p : ptr) (g : hctx) : hctx :=
  mk_hctx (g_nets g) (g_m g) (g_c g) (g_t g) (g_net g) (put (g_reg g) i p) (g_fq g) (g_fn g)
    (g_rq g) (g_rd g) (g_ird g) (g_in g) (g_wq g) (g_wr g) (g_iwr g) (g_out g) (g_cron g).
Definition set_gcron (p : ptr) (g : hctx) : hctx :=
  mk_hctx (g_nets g) (g_m g) (g_c g) (g_t g) (g_net g) (g_reg g) (g_fq g) (g_fn g)
    (g_rq g) (g_rd g) (g_ird g) (g_in g) (g_wq g) (g_wr g) (g_iwr g) (g_out g) p.
Definition set_gqty (n m c t : nat) (g : hctx) : hctx :=
  mk_hctx n m c t (g_net g) (g_reg g) (g_fq g) (g_fn g)
    (g_rq g) (g_rd g) (g_ird g) (g_in g) (g_wq g) (g_wr g) (g_iwr g) (g_out g) (g_cron g).
(** ladder_general.c:337-346: calloc of the row [r], stored and tested *)
Definition new_row (nt cols r : nat) : H bool :=
  do! p <- h_alloc (B_cells (repeat cell_new cols));
  do! w <- get_net nt; run! set_row (w_cells w) r p;
  hret (negb (is_nil p)).
(** ladder_general.c:326-356: one network; that the fields of the cells are set to zero once more is left out. *)
Definition new_net (rows cols nt : nat) : H bool :=
  run! set_net nt (mk_hnet rows cols None);
  do! p <- h_alloc (B_rows (repeat None rows));
  run! set_net nt (mk_hnet rows cols p);
  if is_nil p then hret false else hwhile rows 0 (new_row nt cols).
(** ladder_general.c:359-440: the array [i] *)
Definition new_reg (sizes : list nat) (i : nat) : H bool :=
  do! n <- hnth sizes i; do! p <- h_alloc (B_raw n); run! modg (set_greg i p); hret (negb (is_nil p)).
Record hargs : Type := mk_hargs {
  j_cols : nat; j_rows : nat; j_nets : nat; j_m : nat; j_c : nat; j_t : nat; j_d : nat; j_r : nat; j_init : bool }.
Definition hargs_ok (a : hargs) : bool :=
  ((j_rows a <=? 32) && (1 <=? j_cols a) && (1 <=? j_rows a) && (1 <=? j_nets a) && (1 <=? j_m a)
   && (1 <=? j_c a) && (1 <=? j_t a) && (1 <=? j_d a) && (1 <=? j_r a))%nat.
Definition reg_sizes (a : hargs) : list nat :=
  [j_m a; j_m a; j_c a; j_c a; j_c a; j_c a; j_t a; j_t a; j_t a; j_t a; j_c a; j_t a; j_d a; j_r a].
(** Everything up to the label cleanup; [false] is a jump to it. *)
Definition init_body (a : hargs) : H bool :=
  do! b1 <- (if j_init a then
               do! p <- h_alloc (B_nets (repeat (mk_hnet 0 0 None) (j_nets a)));
               run! modg (set_gnet p);
               if is_nil p then hret false else hwhile (j_nets a) 0 (new_net (j_rows a) (j_cols a))
             else hret true);
  if negb b1 then hret false else
  do! b2 <- hwhile 14 0 (new_reg (reg_sizes a));
  if negb b2 then hret false else
  do! p <- h_alloc (B_cron None);
  run! modg (set_gcron p);
  if is_nil p then hret false else
  run! modg (set_gqty (j_nets a) (j_m a) (j_c a) (j_t a)); hret true.
Definition h_init (a : hargs) : H bool :=
  if negb (hargs_ok a) then hret false else
  run! modg (fun _ => hctx0);
  do! b <- init_body a;
  if b : bool then hret true else run! h_deinit; hret false.

(** port_dummy.c:285-334 and 357-398, dummy_init_read and dummy_init_write with init true *)
Definition h_mod_on (p : ptr) (id : nat) : H bool :=
  do! b <- h_load p; do! l <- as_mods b; do! m <- hnth l id; run! mod_release m;
  do! x1 <- h_alloc B_any;
  if is_nil x1 then run! h_store p (B_mods (put l id (mk_hmod None None None))); hret false else
  do! x2 <- h_alloc B_any;
  if is_nil x2 then run! h_free x1; run! h_store p (B_mods (put l id (mk_hmod None None None))); hret false else
  do! x3 <- h_alloc B_any;
  if is_nil x3 then run! h_free x1; run! h_free x2; run! h_store p (B_mods (put l id (mk_hmod None None None))); hret false else
  run! h_store p (B_mods (put l id (mk_hmod x1 x2 x3))); hret true.

(** ladder_add_read_fn, ladder_general.c:577-639; [ini] tells whether the init function of the port is given. *)
Definition grow_fns (v : bool) (b : option block) : block := match b with Some (B_fns l) => B_fns (l ++ [v]) | _ => B_fns [v] end.
Definition grow_mods (b : option block) : block :=
  match b with Some (B_mods l) => B_mods (l ++ [mk_hmod None None None]) | _ => B_mods [mk_hmod None None None] end.
Definition cut_fns (n : nat) (p : ptr) : H ptr := do! b <- h_load p; do! l <- as_fns b; h_shrink p n (B_fns (firstn n l)).
Definition cut_mods (n : nat) (p : ptr) : H ptr := do! b <- h_load p; do! l <- as_mods b; h_shrink p n (B_mods (firstn n l)).
Definition set_read (n : nat) (a b c : ptr) (g : hctx) : hctx :=
  mk_hctx (g_nets g) (g_m g) (g_c g) (g_t g) (g_net g) (g_reg g) (g_fq g) (g_fn g)
    n a b c (g_wq g) (g_wr g) (g_iwr g) (g_out g) (g_cron g).
Definition set_write (n : nat) (a b c : ptr) (g : hctx) : hctx :=
  mk_hctx (g_nets g) (g_m g) (g_c g) (g_t g) (g_net g) (g_reg g) (g_fq g) (g_fn g)
    (g_rq g) (g_rd g) (g_ird g) (g_in g) n a b c (g_cron g).
Definition h_add_read (ini : bool) : H bool :=
  do! g <- getg;
  let n := g_rq g in
  if (255 <=? n)%nat then hret false else
  do! a <- h_grow (g_rd g) (grow_fns true);
  if is_nil a then hret false else
  run! modg (set_read n a (g_ird g) (g_in g));
  do! b <- h_grow (g_ird g) (grow_fns ini);
  if is_nil b then do! a' <- cut_fns n a; run! modg (set_read n a' (g_ird g) (g_in g)); hret false else
  run! modg (set_read n a b (g_in g));
  do! c <- h_grow (g_in g) grow_mods;
  if is_nil c then
    do! a' <- cut_fns n a; run! modg (set_read n a' b (g_in g));
    do! b' <- cut_fns n b; run! modg (set_read n a' b' (g_in g)); hret false else
  run! modg (set_read n a b c);
  do! good <- (if ini then h_mod_on c n else hret true);
  if good : bool then run! modg (set_read (S n) a b c); hret true else
  run! h_mod_off c n;
  do! a' <- cut_fns n a; run! modg (set_read n a' b c);
  do! b' <- cut_fns n b; run! modg (set_read n a' b' c);
  do! c' <- cut_mods n c; run! modg (set_read n a' b' c'); hret false.
(** ladder_add_write_fn, ladder_general.c:641-703 *)
Definition h_add_write (ini : bool) : H bool :=
  do! g <- getg;
  let n := g_wq g in
  if (255 <=? n)%nat then hret false else
  do! a <- h_grow (g_wr g) (grow_fns true);
  if is_nil a then hret false else
  run! modg (set_write n a (g_iwr g) (g_out g));
  do! b <- h_grow (g_iwr g) (grow_fns ini);
  if is_nil b then do! a' <- cut_fns n a; run! modg (set_write n a' (g_iwr g) (g_out g)); hret false else
  run! modg (set_write n a b (g_out g));
  do! c <- h_grow (g_out g) grow_mods;
  if is_nil c then
    do! a' <- cut_fns n a; run! modg (set_write n a' b (g_out g));
    do! b' <- cut_fns n b; run! modg (set_write n a' b' (g_out g)); hret false else
  run! modg (set_write n a b c);
  do! good <- (if ini then h_mod_on c n else hret true);
  if good : bool then run! modg (set_write (S n) a b c); hret true else
  run! h_mod_off c n;
  do! a' <- cut_fns n a; run! modg (set_write n a' b c);
  do! b' <- cut_fns n b; run! modg (set_write n a' b' c);
  do! c' <- cut_mods n c; run! modg (set_write n a' b' c'); hret false.

(** ladder_add_foreign, ladder_general.c:705-742, with the function of fn_dummy.c:44-69: its data may be NULL, its init function
    always succeeds. [q] is the argument qty. *)
Definition grow_fors (d : ptr) (b : option block) : block := match b with Some (B_fors l) => B_fors (l ++ [d]) | _ => B_fors [d] end.
Definition set_gfor (n : nat) (p : ptr) (g : hctx) : hctx :=
  mk_hctx (g_nets g) (g_m g) (g_c g) (g_t g) (g_net g) (g_reg g) n p
    (g_rq g) (g_rd g) (g_ird g) (g_in g) (g_wq g) (g_wr g) (g_iwr g) (g_out g) (g_cron g).
Definition h_add_foreign (q : nat) : H bool :=
  do! g <- getg;
  if (q =? 0)%nat || (100 <? g_fq g + q)%nat then hret false else
  do! d <- h_alloc B_any;
  do! t <- (if (g_fq g =? 0)%nat then h_alloc (B_fors [d]) else h_grow (g_fn g) (grow_fors d));
  if is_nil t then run! h_free d; hret false else
  run! modg (set_gfor (S (g_fq g)) t); hret true.

(** ladderlib_cron_init, ladderlib_cron.c:42-54 *)
Definition h_cron_init (q : nat) : H bool :=
  do! g <- getg; do! b <- h_load (g_cron g); do! j <- as_cron b;
  if negb (is_nil j) then hret false else
  do! p <- h_alloc B_any;
  run! h_store (g_cron g) (B_cron p);
  if (0 <? q)%nat && is_nil p then hbad H_null else hret true.

(** ladder_fn_cell, ladder_general.c:744-842; [cells] and [dq] are the cells and operands of the instruction. That the codes of the
    lower cells and the bars are set is kept as accesses to those cells. *)
Definition at_cell (nt r c : nat) : H hcell := do! w <- get_net nt; do! p <- get_row (w_cells w) r; get_cell p c.
Definition put_cell (nt r c : nat) (x : hcell) : H unit := do! w <- get_net nt; do! p <- get_row (w_cells w) r; set_cell p c x.
Definition span_free (nt row c r : nat) : H bool :=
  do! x <- at_cell nt (row + r) c; hret (match k_code x with I_NOP => true | _ => false end).
Definition span_wipe (nt row c r : nat) : H unit :=
  do! x <- at_cell nt (row + r) c;
  if is_nil (k_data x) then hret tt else run! free_data x; put_cell nt (row + r) c (mk_hcell (k_code x) 0 None).
Definition span_code (i : ins) (nt row c r : nat) : H unit :=
  do! x <- at_cell nt (row + r) c; put_cell nt (row + r) c (mk_hcell i (k_dq x) (k_data x)).
Definition h_fn_cell (nt row c : nat) (i : ins) (cells dq : nat) : H bool :=
  do! g <- getg;
  if (g_nets g <=? nt)%nat then hret false else
  do! w <- get_net nt;
  if (w_rows w <=? row)%nat then hret false else
  if (w_cols w <=? c)%nat then hret false else
  if (w_rows w - row <? cells)%nat then hret false else
  do! ok <- hwhile cells 0 (span_free nt row c);
  if negb ok then hret false else
  run! hfor cells 0 (span_wipe nt row c);
  do! x <- at_cell nt row c;
  run! put_cell nt row c (mk_hcell i dq (k_data x));
  if (dq =? 0)%nat then run! put_cell nt row c (mk_hcell i dq None); hret true else
  do! p <- h_alloc (B_data (repeat V_other dq));
  run! put_cell nt row c (mk_hcell i dq p);
  if is_nil p then run! hfor cells 0 (fun r => put_cell nt (row + r) c (mk_hcell I_INV 0 None)); hret false else
  run! hfor (cells - 1) 1 (span_code I_MULTI nt row c);
  do! y <- (if (row + cells =? 0)%nat then hbad H_oob else at_cell nt (row + cells - 1) c); hret true.

(** ** ladder_json_to_program, ladder_program_json.c:602-904 *)

(** What the parser finds. An operand: refused, a string, or something else. A cell: refused before its operands, or with an
    instruction and operands. A row: not an array, or an array of cells. A network: refused before its number is known; or its number,
    rows, cols and networkData, each missing or not of the right type. The document: unreadable, or an array of networks. *)
Inductive dval : Type := DV_bad | DV_str | DV_other.
Inductive dcell : Type := DC_bad | DC (i : ins) (l : list dval).
Inductive drow : Type := DR_bad | DR (l : list dcell).
Inductive dnet : Type := DN_bad | DN (id : nat) (rows cols : option nat) (data : option (list drow)).

(** ladder_program_json.c:647-661 and 873-887: the rows and the array of rows of a network; the pointers keep their values. *)
Definition json_cell (p : ptr) (c : nat) : H unit :=
  do! x <- get_cell p c; if (0 <? k_dq x)%nat && negb (is_nil (k_data x)) then free_data x else hret tt.
Definition json_row (p : ptr) (cols r : nat) : H unit :=
  run! hfor cols 0 (fun c => do! q <- get_row p r; json_cell q c); do! q <- get_row p r; h_free q.
Definition json_drop (w : hnet) : H unit :=
  run! hfor (w_rows w) 0 (json_row (w_cells w) (w_cols w)); h_free (w_cells w).
(** ladder_program_json.c:771-856: operand [d] of the cell whose operands are at [p] *)
Definition json_value (p : ptr) (l : list dval) (d : nat) : H bool :=
  do! v <- hnth l d;
  match v with
  | DV_bad => hret false
  | DV_other => hret true
  | DV_str =>
      do! q <- h_alloc B_any; do! b <- h_load p; do! o <- as_data b; do! u <- hnth o d;
      run! h_store p (B_data (put o d (V_str q))); hret (negb (is_nil q))
  end.
(** ladder_program_json.c:721-868: one cell at [p]; the fields set before a refusal are left out, the network is released. *)
Definition json_parse_cell (p : ptr) (l : list dcell) (c : nat) : H bool :=
  do! x <- hnth l c;
  match x with
  | DC_bad => hret false
  | DC i vs =>
      if (length vs =? 0)%nat then run! set_cell p c (mk_hcell i 0 None); hret true else
      do! q <- h_alloc (B_data (repeat V_other (length vs)));
      run! set_cell p c (mk_hcell i (length vs) q);
      if is_nil q then hret false else
      do! ok <- hwhile (length vs) 0 (json_value q vs);
      if ok : bool then hret true else
      do! y <- get_cell p c; run! free_data y; run! set_cell p c (mk_hcell i 0 None); hret false
  end.
(** ladder_program_json.c:713-870 *)
Definition json_parse_row (p : ptr) (cols : nat) (l : list drow) (r : nat) : H bool :=
  do! x <- hnth l r;
  match x with
  | DR_bad => hret false
  | DR cs => if (length cs =? cols)%nat then do! q <- get_row p r; hwhile cols 0 (json_parse_cell q cs) else hret false
  end.
(** ladder_program_json.c:690-711 *)
Definition json_new_row (p : ptr) (cols r : nat) : H bool :=
  do! q <- h_alloc (B_cells (repeat cell_new cols)); run! set_row p r q; hret (negb (is_nil q)).
(** ladder_program_json.c:623-894: one network of the document *)
Definition json_net (d : dnet) : H bool :=
  match d with
  | DN_bad => hret false
  | DN id rows cols data =>
      do! g <- getg;
      if (g_nets g <=? id)%nat then hret false else
      do! w <- get_net id;
      run! json_drop w;
      run! set_net id (mk_hnet 0 0 None);
      match rows with
      | None => hret false
      | Some r =>
          run! set_net id (mk_hnet r 0 None);
          match cols with
          | None => hret false
          | Some c =>
              run! set_net id (mk_hnet r c None);
              match data with
              | None => hret false
              | Some l =>
                  if negb (length l =? r)%nat then hret false else
                  do! p <- h_alloc (B_rows (repeat None r));
                  run! set_net id (mk_hnet r c p);
                  if is_nil p then hret false else
                  do! ok <- hwhile r 0 (json_new_row p c);
                  if negb ok then
                    run! hfor r 0 (fun k => do! q <- get_row p k; h_free q);
                    run! h_free p; run! set_net id (mk_hnet 0 0 None); hret false
                  else
                    do! good <- hwhile r 0 (json_parse_row p c l);
                    if good : bool then hret true else
                    do! w1 <- get_net id; run! json_drop w1; run! set_net id (mk_hnet 0 0 None); hret false
              end
          end
      end
  end.
Definition h_load_json (doc : option (list dnet)) : H bool :=
  match doc with
  | None => hret false
  | Some l =>
      run! h_clear_program;
      do! ok <- hwhile (length l) 0 (fun i => do! d <- hnth l i; json_net d);
      if ok : bool then hret true else run! h_clear_program; hret false
  end.

(** ** Calls made between ladder_ctx_init and ladder_ctx_deinit *)
Inductive hcall : Type :=
| K_read (ini : bool) | K_write (ini : bool) | K_foreign (q : nat) | K_cron (q : nat)
| K_cell (nt row c : nat) (i : ins) (cells dq : nat) | K_clear | K_load (doc : option (list dnet)).
Definition h_call (k : hcall) : H bool :=
  match k with
  | K_read i => h_add_read i
  | K_write i => h_add_write i
  | K_foreign q => h_add_foreign q
  | K_cron q => h_cron_init q
  | K_cell nt r c i cells dq => h_fn_cell nt r c i cells dq
  | K_clear => run! h_clear_program; hret true
  | K_load d => h_load_json d
  end.
Fixpoint h_calls (l : list hcall) : H unit :=
  match l with [] => hret tt | k :: l' => do! b <- h_call k; h_calls l' end.

End Building.
