(** The store that keeps migrations in files.
    Models butane_core/src/migrations/fsmigrations.rs.

    Simplifications: file contents are kept as the values written, not as JSON text
    (reading back JSON that was written completely gives the value; a partly written
    file is [FTorn] and does not parse); names are single path components; lock files
    and locking are left out; [read_dir] may list a directory in any order. *)
From Verif Require Import Base SqlVal Adb Chain Store.

(** [MigrationInfo], fsmigrations.rs:19-41 *)
Record Info := {
  in_from : option string;
  in_bases : smap string string;
  in_backends : list string }.
Definition info_new : Info := {| in_from := None; in_bases := []; in_backends := [] |}.

Inductive file :=
| FInfo (i : Info)
| FTable (t : ATable)
| FTypes (ts : smap TypeKey DeferredSqlType)
| FSql (s : string)
| FState (latest : option string)
| FTorn (s : string).

(** The root directory: one directory per migration (and "current"), [state.json],
    and whether [.gitignore] exists. *)
Definition Dir := smap string file.
Record FS := { fs_dirs : smap string Dir; fs_state : option file; fs_gitignore : bool }.

(** Code that writes files: its result, the new contents and all the contents on the
    way, in order: what is found if the process stops there. *)
Definition FsM (A : Type) := FS -> outcome A * FS * list FS.
Definition fret {A} (a : A) : FsM A := fun fs => (Ok a, fs, []).
Definition flift {A} (o : outcome A) : FsM A := fun fs => (o, fs, []).
Definition fbind {A B} (x : FsM A) (f : A -> FsM B) : FsM B :=
  fun fs => let '(o, fs1, t1) := x fs in
            match o with
            | Ok a => let '(o2, fs2, t2) := f a fs1 in (o2, fs2, t1 ++ t2)
            | Err e => (Err e, fs1, t1)
            | Panic => (Panic, fs1, t1)
            end.
Notation "'fdo' x <- e ; f" := (fbind e (fun x => f))
  (at level 200, x pattern, right associativity).
(** Reading does not change anything. *)
Definition fread {A} (f : FS -> outcome A) : FsM A := fun fs => (f fs, fs, []).
Definition fstep (f : FS -> FS) : FsM unit := fun fs => (Ok tt, f fs, [f fs]).

Definition set_file (d n : string) (f : file) (fs : FS) : FS :=
  match mget d (fs_dirs fs) with
  | Some dir => {| fs_dirs := mput d (mput n f dir) (fs_dirs fs); fs_state := fs_state fs;
                   fs_gitignore := fs_gitignore fs |}
  | None => fs
  end.
Definition del_file (d n : string) (fs : FS) : FS :=
  match mget d (fs_dirs fs) with
  | Some dir => {| fs_dirs := mput d (mdel n dir) (fs_dirs fs); fs_state := fs_state fs;
                   fs_gitignore := fs_gitignore fs |}
  | None => fs
  end.
Definition get_file (d n : string) (fs : FS) : option file :=
  match mget d (fs_dirs fs) with Some dir => mget n dir | None => None end.

(** [ensure_dir], fs.rs:28-30: creates the directory when missing. *)
Definition ensure_dir (d : string) : FsM unit :=
  fstep (fun fs => match mget d (fs_dirs fs) with
                   | Some _ => fs
                   | None => {| fs_dirs := mput d [] (fs_dirs fs); fs_state := fs_state fs;
                                fs_gitignore := fs_gitignore fs |}
                   end).
(** What a file contains while it is being written (fs.rs:36-38 truncates it, then
    the contents follow): the prefixes of a text, and for JSON something that does
    not parse. *)
Fixpoint prefixes (s : string) : list string :=
  match s with
  | EmptyString => [""]
  | String c r => "" :: map (String c) (prefixes r)
  end.
Definition partials (f : file) : list file :=
  match f with
  | FSql s => map FTorn (prefixes s)
  | _ => [FTorn ""]
  end.
Fixpoint fsteps (l : list (FS -> FS)) : FsM unit :=
  match l with
  | [] => fret tt
  | f :: r => fdo _ <- fstep f; fsteps r
  end.
Definition write_file (d n : string) (f : file) : FsM unit :=
  fsteps (map (set_file d n) (partials f) ++ [set_file d n f]).

(** [contents[contents.len() - 1] != b'\n'], fsmigrations.rs:118: indexing an empty
    text panics; a missing final newline is added. *)
Definition newline : string := String (ascii_of_nat 10) "".
Definition ends_nl (s : string) : bool := ends_with s newline.
Definition nl_terminated (f : file) : outcome file :=
  match f with
  | FSql s => if String.eqb s "" then Panic
              else Ok (FSql (if ends_nl s then s else (s ++ newline)%string))
  | _ => Ok f
  end.
(** [write_contents], fsmigrations.rs:114-127 *)
Definition write_contents (d n : string) (f : file) : FsM unit :=
  fdo _ <- ensure_dir d;
  fdo f <- flift (nl_terminated f);
  write_file d n f.
(** [info], fsmigrations.rs:133-140 *)
Definition read_info (d : string) (fs : FS) : outcome Info :=
  match get_file d "info.json" fs with
  | None => Ok info_new
  | Some (FInfo i) => Ok i
  | Some _ => Err SerdeJson
  end.
(** [write_info], fsmigrations.rs:79-83 *)
Definition write_info (d : string) (i : Info) : FsM unit := write_contents d "info.json" (FInfo i).
(** [sql_path], fsmigrations.rs:103-105 *)
Definition sql_name (b dir : string) : string := (b ++ "_" ++ dir ++ ".sql")%string.
Definition table_file (t : string) : string := (t ++ ".table")%string.
(** [read_sql], fsmigrations.rs:93-101: any text is returned, also a partial one. *)
Definition read_sql (d b dir : string) (fs : FS) : outcome (option string) :=
  match get_file d (sql_name b dir) fs with
  | None => Ok None
  | Some (FSql s) | Some (FTorn s) => Ok (Some s)
  | Some _ => Err IOError
  end.

(** * [MigrationsState] and the collection *)

(** [get_state], fsmigrations.rs:361-374 *)
Definition get_state (fs : FS) : outcome (option string) :=
  match fs_state fs with
  | None => Ok None
  | Some (FState l) => Ok l
  | Some _ => Err SerdeJson
  end.
(** [save_state], fsmigrations.rs:375-386 *)
Definition set_state (f : file) (fs : FS) : FS :=
  {| fs_dirs := fs_dirs fs; fs_state := Some f; fs_gitignore := fs_gitignore fs |}.
Definition save_state (l : option string) : FsM unit :=
  fdo _ <- fstep (fun fs => {| fs_dirs := fs_dirs fs; fs_state := fs_state fs; fs_gitignore := true |});
  fsteps (map set_state (partials (FState l)) ++ [set_state (FState l)]).
(** [get_migration], fsmigrations.rs:429-440 *)
Definition fs_get (fs : FS) (n : string) : option string :=
  match mget n (fs_dirs fs) with Some _ => Some n | None => None end.
(** [latest], fsmigrations.rs:442-447: an unreadable state counts as none. *)
Definition fs_latest (fs : FS) : option string :=
  match get_state fs with
  | Ok (Some n) => fs_get fs n
  | _ => None
  end.
Definition fs_coll (fs : FS) : Coll string :=
  {| cl_get := fs_get fs; cl_latest := fs_latest fs;
     cl_from := fun d => omap in_from (read_info d fs);
     cl_name := fun d => d;
     cl_up := fun d b => read_sql d b "up" fs;
     cl_down := fun d b => read_sql d b "down" fs;
     cl_bound := length (fs_dirs fs) |}.

(** * [MigrationMut for FsMigration], fsmigrations.rs:179-271 *)

(** [add_modified_table], 180-185 *)
Definition fs_add_modified (d : string) (t : ATable) : FsM unit :=
  write_contents d (table_file (t_name t)) (FTable t).
(** [add_unmodified_table], 187-212 *)
Definition fs_add_unmodified (d : string) (t : ATable) (from : string) : FsM unit :=
  fdo ms <- fread (fun fs => all_migrations (fs_coll fs));
  fdo from_info <- fread (fun fs =>
      match find (fun m => String.eqb m from) ms with
      | None => Err (MigrationError "Migration not found")
      | Some m => read_info m fs
      end);
  let base := match mget (t_name t) (in_bases from_info) with Some b => b | None => from end in
  fdo i <- fread (read_info d);
  write_info d {| in_from := in_from i; in_bases := mput (t_name t) base (in_bases i);
                  in_backends := in_backends i |}.
(** [delete_table], 214-220 *)
Definition fs_delete_table (d t : string) : FsM unit :=
  fdo _ <- ensure_dir d;
  fdo o <- fread (fun fs => Ok (get_file d (table_file t) fs));
  match o with
  | None => flift (Err IOError)
  | Some _ => fstep (del_file d (table_file t))
  end.
(** [add_sql], 222-232 *)
Definition fs_add_sql (d b up down : string) : FsM unit :=
  fdo _ <- write_contents d (sql_name b "up") (FSql up);
  fdo _ <- write_contents d (sql_name b "down") (FSql down);
  fdo i <- fread (read_info d);
  if existsb (String.eqb b) (in_backends i) then fret tt
  else write_info d {| in_from := in_from i; in_bases := in_bases i;
                       in_backends := in_backends i ++ [b] |}.
(** [delete_file], 107-112 *)
Definition fs_delete_file (d n : string) : FsM unit :=
  fdo _ <- ensure_dir d;
  fdo o <- fread (fun fs => Ok (get_file d n fs));
  match o with
  | None => flift (Err IOError)
  | Some _ => fstep (del_file d n)
  end.
(** [remove_sql], 234-241 *)
Definition fs_remove_sql (d b : string) : FsM unit :=
  fdo _ <- fs_delete_file d (sql_name b "up");
  fdo _ <- fs_delete_file d (sql_name b "down");
  fdo i <- fread (read_info d);
  write_info d {| in_from := in_from i; in_bases := in_bases i;
                  in_backends := filter (fun x => negb (String.eqb x b)) (in_backends i) |}.
(** [add_type], 243-263: a file that cannot be opened counts as empty. *)
Definition fs_add_type (d : string) (k : TypeKey) (t : DeferredSqlType) : FsM unit :=
  fdo ts <- fread (fun fs => match get_file d "types.json" fs with
                             | None => Ok []
                             | Some (FTypes ts) => Ok ts
                             | Some _ => Err SerdeJson
                             end);
  write_contents d "types.json" (FTypes (mput k t ts)).
(** [set_migration_from], 266-270 *)
Definition fs_set_from (d : string) (o : option string) : FsM unit :=
  fdo i <- fread (read_info d);
  write_info d {| in_from := o; in_bases := in_bases i; in_backends := in_backends i |}.

(** [db], 274-313.  [ls] is the order in which the directory is listed. *)
Definition read_table (d n : string) (fs : FS) : outcome ATable :=
  match get_file d n fs with
  | None => Err IOError
  | Some (FTable t) => Ok t
  | Some _ => Err SerdeJson
  end.
Definition fs_entry (d : string) (fs : FS) (db : ADB) (n : string) : outcome ADB :=
  if ends_with n ".table" then omap (replace_table db) (read_table d n fs)
  else if String.eqb n "types.json" then
    match get_file d "types.json" fs with
    | Some (FTypes ts) => Ok (fold_left (fun db p => add_type db (fst p) (snd p)) ts db)
    | Some _ => Err SerdeJson
    | None => Err IOError
    end
  else Ok db.
Definition dir_files (d : string) (fs : FS) : list string :=
  match mget d (fs_dirs fs) with Some dir => mkeys dir | None => [] end.
Definition fs_read_db (ls : list string -> list string) (d : string) (fs : FS) : outcome ADB :=
  do i <- read_info d fs;
  do db <- ofold (fun db p => omap (replace_table db) (read_table (snd p) (table_file (fst p)) fs))
                 (in_bases i) adb_new;
  do db <- ofold (fs_entry d fs) (ls (dir_files d fs)) db;
  do p <- resolve_types db;
  let '(db, r) := p in do _ <- r; Ok db.
Definition fs_db (ls : list string -> list string) (d : string) : FsM ADB :=
  fdo _ <- ensure_dir d;
  fread (fs_read_db ls d).

(** [add_migration], fsmigrations.rs:467-476 *)
Definition fs_add (d : string) : FsM unit :=
  fdo i <- fread (read_info d);
  fdo l <- fread get_state;
  if match l with None => true | Some _ => false end
     || match l, in_from i with
        | Some a, Some b => String.eqb a b
        | _, _ => false
        end
  then save_state (Some d)
  else fret tt.

(** * [create_migration_to], mod.rs:224-296, on this store *)
Definition fs_call (d : string) (c : Call) : FsM unit :=
  match c with
  | CModified t => fs_add_modified d t
  | CUnmodified t f => fs_add_unmodified d t f
  | CSql b u w => fs_add_sql d b u w
  | CFrom o => fs_set_from d o
  end.
Fixpoint fs_calls (d : string) (l : list (outcome Call)) : FsM unit :=
  match l with
  | [] => fret tt
  | c :: r => fdo x <- flift c; fdo _ <- fs_call d x; fs_calls d r
  end.
Definition fs_create_to (ls : list string -> list string) (bs : list Backend) (name : string)
    (from : option string) (to_db : ADB) : FsM bool :=
  fdo from_db <- match from with None => fret adb_new | Some m => fs_db ls m end;
  fdo calls <- flift (create_calls bs from from_db to_db);
  match calls with
  | None => fret false
  | Some l => fdo _ <- fs_calls name l; fdo _ <- fs_add name; fret true
  end.

(** [detach_latest_migration], fsmigrations.rs:390-405 *)
Definition fs_detach : FsM unit :=
  fdo l <- fread (fun fs => match fs_latest fs with
                            | Some m => Ok m
                            | None => Err (MigrationError "There are no migrations")
                            end);
  fdo f <- fread (fun fs => do o <- omap in_from (read_info l fs);
                            match o with
                            | Some n => Ok n
                            | None => Err (MigrationError "There is no previous migration")
                            end);
  fdo _ <- fread get_state;
  save_state (Some f).

(** The view of a stored migration that [copy_migration] reads. *)
Definition fs_view (ls : list string -> list string) (d : string) (fs : FS) : MigrationView :=
  {| mv_from := omap in_from (read_info d fs); mv_db := fs_read_db ls d fs;
     mv_backends := omap in_backends (read_info d fs);
     mv_up := fun b => read_sql d b "up" fs; mv_down := fun b => read_sql d b "down" fs |}.
