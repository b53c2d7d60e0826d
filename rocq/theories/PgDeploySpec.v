(** What it means that a PostgreSQL database follows the stored migrations.
    Specification only. *)
From Verif Require Import Base SqlVal Sql Adb AdbSpec LiteralSpec Ddl DdlSpec Backend Chain ChainSpec Store StoreSpec FsStore FsSpec
  Deploy DeploySpec PgSem PgSpec PgDeploy.

Section Spec.
Variable kw : string -> bool.
Variable read : bool -> string -> f64.
(** The tables of the database that butane has nothing to do with. *)
Variable others : pdb.
Notation cat := (cat kw).

(** A change of schema that PostgreSQL's scripts can express, with names that are not in
    each other's way, nor in that of the other tables or the table of applied migrations. *)
Record pg_change_fine (old new : ADB) : Prop := {
  pf_old : wf_schema old; pf_new : wf_schema new;
  pf_old_fine : pg_schema_fine old; pf_new_fine : pg_schema_fine new;
  pf_defaults : pg_defaults_fine old new;
  pf_change : pg_change old new;
  pf_zeros : plain_zeros new;
  pf_names : names_clear kw old new others;
  pf_apart : forall n, table_named old new n -> mget (cat n) others = None /\ cat n <> mig_name /\ cat n <> pg_mig_key;
  pf_keys : forall n c x, named old new n c -> cons_col x = cat c -> usual_name (cat n) x <> mig_name /\ usual_name (cat n) x <> pg_mig_key }.

(** The database has the tables of the schema [d], the other tables, and the table of
    applied migrations if any are recorded. *)
Record pg_database_is (d : ADB) (s : DBS pdb) : Prop := {
  pi_sorted : msorted (dbs_rest s);
  pi_has : pg_has kw d (dbs_rest s);
  pi_others : forall m, m <> mig_name -> (forall n, has_table d n -> cat n <> m) -> mget m (dbs_rest s) = mget m others;
  pi_mig : mget mig_name (dbs_rest s) = match dbs_mig s with Some _ => Some pg_mig_tab | None => None end }.

(** The database is migrated; the table of applied migrations may be new. *)
Definition pg_carried (old new : ADB) (db db' : pdb) : Prop :=
  exists db1, pg_migrated kw read old new db db1
    /\ (db' = db1 \/ (mget mig_name db1 = None /\ db' = mput mig_name pg_mig_tab db1)).

(** No other table or constraint of one has the name of the key of the table of applied migrations. *)
Definition others_apart : Prop :=
  msorted others /\ mget mig_name others = None /\ ~ taken others pg_mig_key.
End Spec.
