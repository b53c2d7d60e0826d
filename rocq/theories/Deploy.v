(** Migration scripts executed by the database: the script that a migration hands to
    [ConnectionMethods::execute] is read and run by the engine, on a database of which
    the table of applied migrations is a part. *)
From Verif Require Import Base SqlVal Sql LiteralSpec Ddl Backend SqliteDdl SqliteSem Chain Store.

(** The table [butane_migrations] (mod.rs:300-314) as it lies in the database. *)
Definition mig_name : string := "butane_migrations".
Definition mig_tab (strict : bool) (l : list string) : etab :=
  {| b_cols := [{| k_name := "name"; k_type := ["TEXT"]; k_notnull := true; k_pk := true; k_unique := false; k_default := None |}];
     b_fks := []; b_strict := strict; b_rows := map (fun n => [("name"%string, LText n)]) l |}.
(** The database of a connection as the engine has it: with that table in it. *)
Definition whole (strict : bool) (d : DBS edb) : edb :=
  match dbs_mig d with Some l => mput mig_name (mig_tab strict l) (dbs_rest d) | None => dbs_rest d end.
Definition row_name (r : row) : option string :=
  match get r "name" with Some (LText s) => Some s | _ => None end.
Definition parted (db : edb) : outcome (DBS edb) :=
  match mget mig_name db with
  | None => Ok {| dbs_rest := db; dbs_mig := None |}
  | Some t => match mapm row_name (b_rows t) with
              | Some l => Ok {| dbs_rest := mdel mig_name db; dbs_mig := Some l |}
              | None => Err (DbError 3)
              end
  end.

Section Engine.
Variable conv : bool -> list string -> lvalue -> option lvalue.
Variable veq : lvalue -> lvalue -> bool.
Variable read : bool -> string -> f64.
(** [execute]: the statements [reads] finds in the script, one after the other; the
    first that fails fails the call. *)
Definition engine_exec (strict : bool) (reads : string -> option (list ddl)) (sql : string) (d : DBS edb) : outcome (DBS edb) :=
  match reads sql with
  | None => Err (DbError 4)
  | Some stmts => match run conv veq read (whole strict d) stmts with
                  | Some db => parted db
                  | None => Err (DbError 5)
                  end
  end.
(** db/sqlite.rs:228-234: [execute_batch] hands the whole text to SQLite. *)
Definition sqlite_reads (dl : dialect) (sql : string) : option (list ddl) := parse_script dl (fun s => s) sql.
Definition sqlite_exec (dl : dialect) := engine_exec true (sqlite_reads dl).
(** db/turso.rs:322-336: the text is split at semicolons and each piece is sent. *)
Definition turso_reads (dl : dialect) (sql : string) : option (list ddl) := mapm (parse_ddl dl (fun s => s)) (turso_statements sql).
Definition turso_exec (dl : dialect) := engine_exec false (turso_reads dl).
End Engine.

(** The two backends whose engine is modelled, as [create_migration] uses them
    (db/sqlite.rs:36, 76-86; db/turso.rs [BACKEND_NAME], [create_migration_sql]). *)
Inductive dbms := OnSqlite | OnTurso.
Definition strict_of (e : dbms) : bool := match e with OnSqlite => true | OnTurso => false end.
Definition backend_of (kw : string -> bool) (show : f64 -> string) (e : dbms) : Backend :=
  match e with
  | OnSqlite => {| b_name := "sqlite"; b_sql := sqlite_migration_sql kw show |}
  | OnTurso => {| b_name := "turso"; b_sql := turso_migration_sql kw show |}
  end.
Definition exec_of conv veq read (dl : dialect) (e : dbms) : string -> DBS edb -> outcome (DBS edb) :=
  match e with OnSqlite => sqlite_exec conv veq read dl | OnTurso => turso_exec conv veq read dl end.
