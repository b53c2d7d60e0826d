(** What creating and copying migrations has to achieve. *)
From Verif Require Import Base SqlVal Adb AdbSpec ResolveSpec Chain ChainSpec Store.

(** A schema in which everything is resolved: column types are known, references
    name a table and column, and every table has a key or is a many-to-many table. *)
Definition settled_column (c : AColumn) : Prop :=
  (exists i, type_denotes (c_type c) = inl i) /\
  (c_ref c = None \/ exists l, c_ref c = Some (RefLiteral l)).
Definition settled_table (t : ATable) : Prop :=
  (forall c, In c (t_cols t) -> settled_column c) /\
  ((exists c, primary_key t c) \/ many_name (t_name t)).
Definition settled (d : ADB) : Prop := forall n t, In (n, t) (a_tables d) -> settled_table t.

(** The in-memory store files every migration under its name, and its latest
    migration exists. *)
Definition mem_wf (s : MemStore) : Prop :=
  msorted (ms_migs s) /\
  (forall n m, In (n, m) (ms_migs s) -> mm_name m = n) /\
  (forall n, ms_latest s = Some n -> exists m, In (n, m) (ms_migs s)).

(** The scripts of a migration from [from_db] to [to_db]: what the backend writes for
    the difference, and for the difference back; the very first migration also creates
    the bookkeeping table. *)
Definition first_ops (from : option string) (ops : list Operation) : list Operation :=
  match from with
  | None => ops ++ [AddTableIfNotExists migrations_table]
  | Some _ => ops
  end.
Definition scripts_of (bs : list Backend) (from : option string) (from_db to_db : ADB) (b : Backend)
    (up down : string) : Prop :=
  In b bs /\ exists ops dops, diff_out from_db to_db = Ok ops /\ diff_out to_db from_db = Ok dops /\
    b_sql b from_db (first_ops from ops) = Ok up /\ b_sql b to_db dops = Ok down.

(** The schema a new migration starts from. *)
Definition from_db_of (from : option MemMigration) (d : ADB) : Prop :=
  match from with None => d = adb_new | Some m => mm_read_db m = Ok d end.

(** Creating migrations one after the other, each from the latest. *)
Fixpoint mem_create_all (bs : list Backend) (s : MemStore) (steps : list (string * ADB)) : outcome MemStore :=
  match steps with
  | [] => Ok s
  | (n, to) :: r => do p <- mem_create_to s bs n (mem_latest s) to; mem_create_all bs (snd p) r
  end.
(** Which migrations a history leaves behind, given the schema it starts from. *)
Inductive history : ADB -> list (string * ADB) -> list MemMigration -> Prop :=
| hi_nil d : history d [] []
| hi_skip d n to steps ms : same_schema d to -> history d steps ms -> history d ((n, to) :: steps) ms
| hi_make d n to steps m ms : ~ same_schema d to -> mm_name m = n ->
    mm_read_db m = Ok {| a_tables := a_tables to; a_types := [] |} ->
    history {| a_tables := a_tables to; a_types := [] |} steps ms -> history d ((n, to) :: steps) (m :: ms).
Definition schema_of_latest (s : MemStore) (d : ADB) : Prop := from_db_of (mem_latest s) d.

(** Schemas that reading a migration can return. *)
Definition resolution_result (d : ADB) : Prop :=
  exists d0, msorted (a_tables d0) /\ msorted (a_types d0) /\ resolve_types d0 = Ok (d, Ok tt).
