(** Vocabulary for program files (C68). *)
From Verif Require Export Files SpecJson.

(** The library prints the tree as text without NUL and reads that text as the tree again. *)
Definition prints (K : codec) (j : json) (t : list Z) : Prop := ~ In 0 t /\ k_parse K t = Some j.
(** Everything that is written reaches the disk. *)
Definition delivers (W : world) : Prop := forall t, w_sent W t = t.
(** The file can be read now. *)
Definition can_read (W : world) (p : path) : Prop := w_read W p = true /\ w_mem W p = true.
(** Two disks hold the same files, except possibly those at the given path. *)
Definition same_but (p : path) (d d' : disk) : Prop := forall q, q <> p -> d' q = d q.
