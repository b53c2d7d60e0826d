(** Replaying the migrations of the repository: each migration of an example project is
    made again by the model, from the migrations before it and its own schema, for the
    backends it was made for. *)
From Verif Require Import Base SqlVal Adb Chain Store FsStore Embed RepoFiles RepoModel SqliteDdl PgDdl.

Section Replay.
  Variable kw : string -> bool.
  Variable show : f64 -> string.
  Variable ls : list string -> list string.
  Definition backend_named (n : string) : Backend :=
    {| b_name := n;
       b_sql := if String.eqb n "sqlite" then sqlite_migration_sql kw show
                else if String.eqb n "turso" then turso_migration_sql kw show
                else pg_migration_sql kw show |}.
  (** The project before the migration was made. *)
  Definition before (fs : FS) (n : string) (from : option string) : FS :=
    {| fs_dirs := mdel n (fs_dirs fs);
       fs_state := option_map (fun l => FState (Some l)) from;
       fs_gitignore := fs_gitignore fs |}.
  (** The directory of the migration, made again. *)
  Definition replay (fs : FS) (n : string) : outcome (option Dir * option file) :=
    do i <- read_info n fs;
    do d <- fs_read_db ls n fs;
    let '(o, fs', _) := fs_create_to ls (map backend_named (in_backends i)) n (in_from i) d (before fs n (in_from i)) in
    do made <- o;
    if made : bool then Ok (mget n (fs_dirs fs'), fs_state fs') else Err (MigrationError "nothing to do").
  (** Every migration of the project. *)
  Definition replay_all (r : repo_project) : outcome (list (outcome (option Dir * option file))) :=
    do p <- load show r;
    do l <- all_migrations (fs_coll (pj_fs p));
    Ok (map (replay (pj_fs p)) l).
  (** What is in the repository. *)
  Definition committed (r : repo_project) : outcome (list (outcome (option Dir * option file))) :=
    do p <- load show r;
    do l <- all_migrations (fs_coll (pj_fs p));
    Ok (map (fun n => Ok (mget n (fs_dirs (pj_fs p)), Some (FState (Some n)))) l).
End Replay.
