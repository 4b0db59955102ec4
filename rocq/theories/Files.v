(** The files of programs: utils/ladder_program_json.c:238-262, 603-613, 903-907, 1044-1127. A disk maps paths to bytes. Printing and
    parsing are done by the cJSON library, which is a parameter. Regular files only: fseek and ftell succeed, and a file that is
    read is not changed by others meanwhile. *)
From Verif Require Export Schema.

Definition path : Type := list Z.
Definition disk : Type := path -> option (list Z).
Definition put_file (p : path) (t : list Z) (d : disk) : disk := fun q => if same_text q p then Some t else d q.

(** cJSON_Parse, cJSON_Print, cJSON_PrintUnformatted; [None] is NULL. *)
Record codec : Type := mk_codec { k_parse : list Z -> option json; k_pretty : json -> option (list Z); k_compact : json -> option (list Z) }.
(** What the operating system does during a call: which files can be opened for reading and for writing, which texts there
    is memory for, and the bytes of a text that reach the disk. *)
Record world : Type := mk_world { w_read : path -> bool; w_write : path -> bool; w_mem : path -> bool; w_sent : list Z -> list Z }.

(** The bytes of a C string: those before the first NUL. *)
Fixpoint cstr (t : list Z) : list Z :=
  match t with [] => [] | x :: t => if x =? 0 then [] else x :: cstr t end.
(** ladder_program_json.c:238-252 *)
Definition read_file (W : world) (d : disk) (p : path) : option (list Z) :=
  match d p with Some t => if w_read W p && w_mem W p then Some (cstr t) else None | None => None end.
(** ladder_program_json.c:254-261: fprintf and fclose are not checked. *)
Definition write_file (W : world) (d : disk) (p : path) (t : list Z) : bool * disk :=
  if w_write W p then (true, put_file p (w_sent W (cstr t)) d) else (false, d).

(** ladder_program_json.c:604-613, 1066-1076, 1097-1118: the file as the functions over trees see it. *)
Definition file_of (K : codec) (W : world) (d : disk) (p : path) : file :=
  match read_file W d p with
  | None => F_missing
  | Some t => match k_parse K t with None => F_garbage | Some j => F_doc j end
  end.
(** ladder_program_json.c:603-901, from the path on *)
Definition load_path (K : codec) (W : world) (d : disk) (L : outside) (al : site -> bool) (p : path) (c : ctx) : res (jerr * ctx) :=
  json_to_program L al (file_of K W d p) c.
(** ladder_program_json.c:1096-1127, from the paths on *)
Definition validate_path (K : codec) (W : world) (d : disk) (cmp : comparison) (p q : path) : res bool :=
  validate_file cmp (file_of K W d p) (file_of K W d q).

(** Results of saving and compacting; [ST_create k] stands for the codes JSON_ERROR_CREATE*. *)
Inductive fstat : Type := ST_ok | ST_openfile | ST_parse | ST_compact | ST_write | ST_create (k : nat) | ST_print.
(** ladder_program_json.c:1058-1094 *)
Definition compact_path (K : codec) (W : world) (d : disk) (p q : path) : fstat * disk :=
  match read_file W d p with
  | None => (ST_openfile, d)
  | Some t =>
      match k_parse K t with
      | None => (ST_parse, d)
      | Some j =>
          match k_compact K j with
          | None => (ST_compact, d)
          | Some u => let (ok, d') := write_file W d q u in (if ok then ST_ok else ST_write, d')
          end
      end
  end.
(** ladder_program_json.c:903-1056. The file is opened, hence emptied, before the tree is built. [refused] is the code returned when a
    node of the tree cannot be allocated; it is taken to come before an operand whose text is indeterminate. cJSON_Add* that
    fail for want of memory are not modelled. *)
Definition save_path (K : codec) (W : world) (d : disk) (L : outside) (refused : option nat) (p : path) (c : ctx) : res (fstat * disk) :=
  if w_write W p then
    let d1 := put_file p [] d in
    match refused with
    | Some k => Ok (ST_create k, d1)
    | None =>
        let? j := program_to_json L c in
        match k_pretty K j with
        | None => Ok (ST_print, d1)
        | Some t => Ok (ST_ok, put_file p (w_sent W (cstr t)) d)
        end
    end
  else Ok (ST_openfile, d).
