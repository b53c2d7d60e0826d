(** Migration scripts executed by PostgreSQL: the catalogue of a database and, of its
    rows, those of the table of applied migrations. *)
From Verif Require Import Base SqlVal Sql LiteralSpec Ddl Backend Chain Store Deploy PgDdl PgSem.

(** The table [butane_migrations] (mod.rs:300-314) as PostgreSQL lists it. *)
Definition pg_mig_key : string := "butane_migrations_pkey".
Definition pg_mig_tab : ptab :=
  {| p_cols := [{| p_name := "name"; p_type := ["TEXT"%string]; p_notnull := true; p_default := None |}];
     p_cons := [(pg_mig_key, PKey "name")] |}.

Section Engine.
Variable pick : pdb -> string -> string.
Variable allows : pdb -> ddl -> bool.
(** [execute] (db/pg.rs:166-174): [batch_execute] hands the whole text to PostgreSQL.
    [dbs_rest] is the whole catalogue.  The rows of the table of applied migrations stay
    while the table does; a new one has none.  Simplified: a script that drops the table
    and makes it again would keep them.  None does unless a schema has a table of that
    name. *)
Definition pg_exec (dl : dialect) (sql : string) (d : DBS pdb) : outcome (DBS pdb) :=
  match parse_script dl lower sql with
  | None => Err (DbError 4)
  | Some stmts =>
      match prun pick allows (dbs_rest d) stmts with
      | Some db => Ok {| dbs_rest := db;
                         dbs_mig := match mget mig_name db with
                                    | Some _ => Some (match dbs_mig d with Some l => l | None => [] end)
                                    | None => None
                                    end |}
      | None => Err (DbError 5)
      end
  end.
End Engine.

(** The backend (db/pg.rs:27, 50-58), as [create_migration] uses it. *)
Definition pg_backend (kw : string -> bool) (show : f64 -> string) : Backend :=
  {| b_name := "pg"; b_sql := pg_migration_sql kw show |}.
