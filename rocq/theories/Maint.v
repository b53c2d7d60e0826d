(** The commands of the CLI that maintain stored migrations.
    Models butane_cli/src/lib.rs:79-100, 231-264, 428-636 and the parts of
    butane_core/src/migrations/fsmigrations.rs only they use.

    A message on stderr followed by [std::process::exit(1)] is an error with that
    message, as in [Cli].  Messages on stdout, [update_embedded] (which copies the
    stored migrations into a source file and changes nothing in the store; see [Embed]),
    loading the settings and connecting are left out.  [ls] is the order in which directories are
    listed. *)
From Verif Require Import Base SqlVal Adb Chain Store FsStore Cli.

Section Maint.
  Variable ls : list string -> list string.
  (** [db::get_backend]: the backends compiled in. *)
  Variable get_backend : string -> option Backend.

  (** * Backends *)

  (** [for backend_name in backend_names { backends.push(..) }], lib.rs:541-546 *)
  Fixpoint find_backends (l : list string) : outcome (list Backend) :=
    match l with
    | [] => Ok []
    | n :: r => match get_backend n with
                | Some b => do bs <- find_backends r; Ok (b :: bs)
                | None => Err (Internal "Backend not found")
                end
    end.
  (** [load_latest_migration_backends], lib.rs:529-552 ([sql_backends] is
      fsmigrations.rs:321-323) *)
  Definition latest_backends (fs : FS) : outcome (list Backend) :=
    match fs_latest fs with
    | None => Err (Internal "There are no exiting migrations.")
    | Some m =>
        do i <- read_info m fs;
        match in_backends i with
        | [] => Panic
        | names => find_backends names
        end
    end.
  (** [load_backends], lib.rs:556-571.  [spec] is the backend of the saved connection
      settings; [unwrap] panics when it is not compiled in. *)
  Definition load_backends (spec : option string) (fs : FS) : outcome (list Backend) :=
    match latest_backends fs with
    | Ok bs => Ok bs
    | Panic => Panic
    | Err _ => match spec with
               | Some n => match get_backend n with Some b => Ok [b] | None => Panic end
               | None => Err (Internal "No Butane connection info found. Run `butane init`")
               end
    end.
  (** [create_migration], mod.rs:211-219, on this store *)
  Definition fs_create (bs : list Backend) (name : string) (from : option string) : FsM bool :=
    fdo to_db <- fs_db ls "current";
    fs_create_to ls bs name from to_db.
  (** [make_migration], lib.rs:79-100; [name] is the full name. *)
  Definition cli_make (spec : option string) (name : string) : FsM bool :=
    fdo all <- fread (fun fs => all_migrations (fs_coll fs));
    if existsb (fun m => String.eqb m name) all then flift (Err (Internal "already exists"))
    else fdo bs <- fread (load_backends spec);
         fdo l <- fread (fun fs => Ok (fs_latest fs));
         fs_create bs name l.

  (** The loop of [add_backend], lib.rs:444-463 *)
  Fixpoint add_scripts (b : Backend) (from_db : ADB) (l : list string) : FsM unit :=
    match l with
    | [] => fret tt
    | m :: r =>
        fdo to_db <- fs_db ls m;
        fdo ops <- flift (diff_out from_db to_db);
        match ops with
        | [] => flift Panic
        | _ =>
            let ops := match a_tables from_db with
                       | [] => ops ++ [AddTableIfNotExists migrations_table]
                       | _ => ops
                       end in
            fdo up <- flift (b_sql b from_db ops);
            fdo dops <- flift (diff_out to_db from_db);
            fdo down <- flift (b_sql b to_db dops);
            fdo _ <- fs_add_sql m (b_name b) up down;
            add_scripts b to_db r
        end
    end.
  (** [add_backend], lib.rs:428-468 *)
  Definition cli_add_backend (name : string) : FsM unit :=
    fdo bs <- fread latest_backends;
    if existsb (fun b => String.eqb (b_name b) name) bs
    then flift (Err (Internal "already present in migrations"))
    else match get_backend name with
         | None => flift (Err (Internal "Backend not found"))
         | Some b =>
             fdo all <- fread (fun fs => all_migrations (fs_coll fs));
             add_scripts b adb_new all
         end.

  (** The loop of [remove_backend], lib.rs:484-487 *)
  Fixpoint remove_scripts (b : string) (l : list string) : FsM unit :=
    match l with
    | [] => fret tt
    | m :: r => fdo _ <- fs_remove_sql m b; remove_scripts b r
    end.
  (** [remove_backend], lib.rs:471-492 *)
  Definition cli_remove_backend (name : string) : FsM unit :=
    fdo bs <- fread latest_backends;
    if Nat.eqb (length bs) 1 then flift (Err (Internal "Can not remove the last backend."))
    else match get_backend name with
         | None => flift (Err (Internal "Backend not found"))
         | Some b =>
             fdo all <- fread (fun fs => all_migrations (fs_coll fs));
             remove_scripts (b_name b) all
         end.

  (** * Regenerating *)

  (** [self.fs.delete(&entry)?] *)
  Definition delete_entry (d n : string) : FsM unit :=
    fdo o <- fread (fun fs => Ok (get_file d n fs));
    match o with
    | None => flift (Err IOError)
    | Some _ => fstep (del_file d n)
    end.
  (** The loop of [delete_db], fsmigrations.rs:155-174 *)
  Fixpoint delete_entries (d : string) (l : list string) : FsM unit :=
    match l with
    | [] => fret tt
    | n :: r =>
        fdo _ <- (if String.eqb n "info.json" then
                    fdo i <- fread (read_info d);
                    write_info d {| in_from := in_from i; in_bases := []; in_backends := [] |}
                  else delete_entry d n);
        delete_entries d r
    end.
  (** [delete_db], fsmigrations.rs:153-176 *)
  Definition fs_delete_db (d : string) : FsM unit :=
    fdo l <- fread (fun fs => match mget d (fs_dirs fs) with
                              | Some dir => Ok (ls (mkeys dir))
                              | None => Err IOError
                              end);
    delete_entries d l.
  (** The loop of [regenerate_migrations], lib.rs:503-520 *)
  Fixpoint regenerate_each (bs : list Backend) (prev : option string) (l : list string) : FsM unit :=
    match l with
    | [] => fret tt
    | m :: r =>
        fdo to_db <- fs_db ls m;
        fdo from <- fread (fun fs => Ok (match prev with Some p => fs_get fs p | None => None end));
        fdo _ <- fs_delete_db m;
        fdo _ <- fs_create_to ls bs m from to_db;
        regenerate_each bs (Some m) r
    end.
  (** [regenerate_migrations], lib.rs:495-525 *)
  Definition cli_regenerate : FsM unit :=
    fdo bs <- fread latest_backends;
    fdo all <- fread (fun fs => all_migrations (fs_coll fs));
    regenerate_each bs None all.

  (** * Deleting *)

  (** [std::fs::remove_dir_all]: the files one by one, then the directory. *)
  Definition drop_dir (d : string) (fs : FS) : FS :=
    {| fs_dirs := mdel d (fs_dirs fs); fs_state := fs_state fs; fs_gitignore := fs_gitignore fs |}.
  Definition remove_dir_all (d : string) : FsM unit :=
    fdo l <- fread (fun fs => match mget d (fs_dirs fs) with
                              | Some dir => Ok (ls (mkeys dir))
                              | None => Err IOError
                              end);
    fdo _ <- fsteps (map (del_file d) l);
    fstep (drop_dir d).
  Definition root_entries (fs : FS) : list string :=
    mkeys (fs_dirs fs)
    ++ (match fs_state fs with Some _ => ["state.json"%string] | None => [] end)
    ++ (if fs_gitignore fs then [".gitignore"%string] else []).
  Definition remove_root_file (n : string) (fs : FS) : FS :=
    {| fs_dirs := fs_dirs fs;
       fs_state := if String.eqb n "state.json" then None else fs_state fs;
       fs_gitignore := if String.eqb n ".gitignore" then false else fs_gitignore fs |}.
  (** The loop of [delete_migrations], fsmigrations.rs:483-493 *)
  Fixpoint delete_root (l : list string) : FsM unit :=
    match l with
    | [] => fret tt
    | n :: r =>
        fdo _ <- (if String.eqb n "current" then fret tt
                  else fdo d <- fread (fun fs => Ok (mget n (fs_dirs fs)));
                       match d with
                       | Some _ => remove_dir_all n
                       | None => fstep (remove_root_file n)
                       end);
        delete_root r
    end.
  (** [delete_migrations], fsmigrations.rs:478-495 *)
  Definition fs_delete_migrations : FsM unit :=
    fdo l <- fread (fun fs => Ok (ls (root_entries fs)));
    delete_root l.
  (** [clear_current], fsmigrations.rs:454-458, which is all of [clean], lib.rs:667-670 *)
  Definition fs_clear_current : FsM unit := remove_dir_all "current".

  (** * Commands that also use the database *)
  Context {S : Type}.
  Variable plan : nat -> fault.

  (** Result, the files and the connection, and both at all the points on the way: what
      is found if the process stops there. *)
  Definition World := (FS * Conn S)%type.
  Definition CliM (A : Type) := World -> res A * World * list World.
  Definition cret {A} (a : A) : CliM A := fun w => (Val a, w, []).
  Definition cbind {A B} (x : CliM A) (f : A -> CliM B) : CliM B :=
    fun w => let '(r, w1, t1) := x w in
             match r with
             | Val a => let '(r2, w2, t2) := f a w1 in (r2, w2, t1 ++ t2)
             | Fail e => (Fail e, w1, t1)
             | Stop => (Stop, w1, t1)
             end.
  Definition of_outcome {A} (o : outcome A) : res A :=
    match o with Ok a => Val a | Err e => Fail e | Panic => Stop end.
  Definition on_files {A} (x : FsM A) : CliM A :=
    fun w => let '(o, fs, t) := x (fst w) in
             (of_outcome o, (fs, snd w), map (fun f => (f, snd w)) t).
  Definition on_conn {A} (x : FS -> @Run S A) : CliM A :=
    fun w => let '(r, c) := x (fst w) (snd w) in (r, (fst w, c), [(fst w, c)]).
  Definition exits {A} (msg : string) : CliM A := fun w => (Fail (Internal msg), w, []).

  (** A statement outside a transaction. *)
  Definition on_db (f : DBS S -> outcome (DBS S)) : @Run S unit :=
    call plan (fun s => do d <- f (cn_db s);
                        Ok (tt, {| cn_db := d; cn_work := cn_work s; cn_step := cn_step s |})).
  (** [delete_where(ButaneMigration::TABLE, BoolExpr::True)], mod.rs:202 *)
  Definition forget_all (d : DBS S) : outcome (DBS S) :=
    match dbs_mig d with
    | None => Err (DbError 1)
    | Some _ => Ok {| dbs_rest := dbs_rest d; dbs_mig := Some [] |}
    end.
  (** [clear_migrations], mod.rs:200-204 *)
  Definition cli_clear : CliM unit :=
    cbind (on_files fs_delete_migrations) (fun _ => on_conn (fun _ => on_db forget_all)).

  (** [collapse_migrations], lib.rs:591-636; [name] is the full name.  [latest] may
      only be missing here when the new migration was not created; the [unwrap] then
      panics. *)
  Definition cli_collapse (name : string) : CliM unit :=
    cbind (on_files (fread (fun fs => all_migrations (fs_coll fs)))) (fun all =>
    cbind (on_files (fread (fun fs => Ok (fs_latest fs)))) (fun latest =>
    match all, latest with
    | [], _ => exits "There are no migrations to collapse"
    | _ :: _, None => fun w => (Stop, w, [])
    | initial :: _, Some latest =>
        if String.eqb initial latest then exits "Can not collapse a single migration"
        else
          cbind (on_files (fread latest_backends)) (fun bs =>
          cbind (on_conn (fun fs => last_applied plan (fs_coll fs))) (fun applied =>
          match applied with
          | None => exits "There are no applied migrations to collapse"
          | Some m =>
              cbind (on_files (fs_db ls m)) (fun latest_db =>
              cbind cli_clear (fun _ =>
              cbind (on_files (fs_create_to ls bs name None latest_db)) (fun _ =>
              cbind (on_files (fread (fun fs => Ok (fs_latest fs)))) (fun new =>
              match new with
              | None => fun w => (Stop, w, [])
              | Some n => on_conn (fun _ => on_db (insert_mig n))
              end))))
          end))
    end)).

  (** [detach_latest_migration], lib.rs:231-264.  [connected]: the connection settings
      could be loaded. *)
  Definition cli_detach (connected : bool) : CliM unit :=
    cbind (on_files (fread (fun fs => all_migrations (fs_coll fs)))) (fun all =>
    cbind (on_files (fread (fun fs => Ok (fs_latest fs)))) (fun latest =>
    match all, latest with
    | [], _ => exits "There are no migrations"
    | _ :: _, None => fun w => (Stop, w, [])
    | initial :: _, Some latest =>
        if String.eqb initial latest then exits "Can not detach initial migration"
        else
          cbind (if connected then on_conn (fun fs => last_applied plan (fs_coll fs)) else cret None) (fun applied =>
          if match applied with Some m => String.eqb m latest | None => false end
          then exits "Can not detach an applied migration"
          else on_files fs_detach)
    end)).
End Maint.
