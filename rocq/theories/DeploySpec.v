(** What it means that a database follows the stored migrations.  Specification only. *)
From Verif Require Import Base SqlVal Adb AdbSpec LiteralSpec Literal Ddl DdlSpec Backend SqliteSem MigrateSpec
  Chain ChainSpec Store StoreSpec FsStore FsSpec Deploy.

(** A change of schema that the backends can express: tables that can be declared, none
    of them named as the table of applied migrations, added columns with a default whose
    literal is exact and without a reference, nothing referring to a temporary table. *)
Record change_fine (strict : bool) (old new : ADB) : Prop := {
  cf_old : wf_schema old; cf_new : wf_schema new;
  cf_old_fine : schema_fine old; cf_new_fine : schema_fine new;
  cf_defaults : defaults_fine old new;
  cf_exact : forall n c, added_column old new n c -> default_exact c;
  cf_refs : added_unreferring old new;
  cf_temporary : forall m t c f n, In (m, t) (a_tables new) -> In c (t_cols t) -> refers c f -> fk_table f <> temporary n;
  cf_old_name : ~ has_table old mig_name; cf_new_name : ~ has_table new mig_name;
  (* Turso splits scripts at semicolons *)
  cf_plain : strict = false -> defaults_plain old new }.
(** One schema after the other, and back; [ok] tells which changes are. *)
Section Changes.
  Variable ok : ADB -> ADB -> Prop.
  Fixpoint changes (d : ADB) (tos : list ADB) : Prop :=
    match tos with
    | [] => True
    | to :: r => ok d to /\ changes to r
    end.
  Fixpoint changes_back (d : ADB) (tos : list ADB) : Prop :=
    match tos with
    | [] => True
    | to :: r => ok to d /\ changes_back to r
    end.
End Changes.
Notation changes_fine strict := (changes (change_fine strict)).
Notation changes_back_fine strict := (changes_back (change_fine strict)).

(** No default is minus zero, which butane does not tell from zero. *)
Definition plain_zeros (d : ADB) : Prop :=
  forall n t c r, In (n, t) (a_tables d) -> In c (t_cols t) -> c_default c = Some (VReal r) -> f64_mag r <> 0%Z \/ r = 0%Z.

(** The collection has, for each of the migrations with their schemas, the scripts that
    the backend writes for the change from the schema before. *)
Section Scripted.
  Context {M : Type} (c : Coll M) (bs : list Backend) (b : Backend).
  Definition kept_as (text : string) (o : outcome (option string)) : Prop :=
    o = Ok (Some text) \/ o = Ok (Some (with_newline text)).
  Inductive scripted : option string -> ADB -> list (M * ADB) -> Prop :=
  | sd_nil from d : scripted from d []
  | sd_cons from d m to r before up down :
      same_schema before d -> wf_schema before -> plain_zeros before ->
      scripts_of bs from before to b up down ->
      kept_as up (cl_up c m (b_name b)) -> kept_as down (cl_down c m (b_name b)) ->
      scripted (Some (cl_name c m)) to r -> scripted from d ((m, to) :: r).
End Scripted.

Section Data.
Variable conv : bool -> list string -> lvalue -> option lvalue.
Variable strict : bool.

(** The database has the tables of the schema [d]; the table of applied migrations is
    kept apart, and nothing refers to a temporary table. *)
Record database_is (d : ADB) (s : DBS edb) : Prop := {
  di_sorted : msorted (dbs_rest s);
  di_apart : mget mig_name (dbs_rest s) = None;
  di_has : realises conv strict d (dbs_rest s);
  di_temporary : forall m b f n, mget m (dbs_rest s) = Some b -> In f (b_fks b) -> fk_table f <> temporary n }.
End Data.

(** The schema after the migrations [l]. *)
Definition schema_after {A} (l : list (A * ADB)) : ADB := last (map snd l) adb_new.
(** The schemas before that one, newest first. *)
Definition before_it {A} (l : list (A * ADB)) : list ADB := tl (rev (adb_new :: map snd l)).

(** * One change after the other *)
Section Steps.
  Context {D : Type}.
  (** What a change makes of the data. *)
  Variable step : ADB -> ADB -> D -> D -> Prop.
  (** The data of [db], carried through the schemas [tos], is that of [db']. *)
  Inductive carried_by : ADB -> list ADB -> D -> D -> Prop :=
  | ca_nil d db : carried_by d [] db db
  | ca_cons d to r db db1 db2 : step d to db db1 -> carried_by to r db1 db2 -> carried_by d (to :: r) db db2.
  (** The database is ready for each of the changes, whatever the ones before make of it. *)
  Fixpoint ready_by (rdy : ADB -> ADB -> D -> Prop) (d : ADB) (tos : list ADB) (db : D) : Prop :=
    match tos with
    | [] => True
    | to :: r => rdy d to db /\ forall db', step d to db db' -> ready_by rdy to r db'
    end.
  (** The data of [db] taken, one schema of the history [h] at a time, up or down, from
      the [i]th schema to the [j]th. *)
  Inductive walked (h : list ADB) : nat -> nat -> D -> D -> Prop :=
  | st_end i db : walked h i i db db
  | st_next i j a b db db1 db2 : nth_error h i = Some a -> nth_error h (S i) = Some b ->
      step a b db db1 -> walked h (S i) j db1 db2 -> walked h i j db db2
  | st_back i j a b db db1 db2 : nth_error h i = Some a -> nth_error h (S i) = Some b ->
      step b a db db1 -> walked h i j db1 db2 -> walked h (S i) j db db2.
End Steps.
Notation carried conv strict := (carried_by (migrated conv strict)).
Notation ready_for conv veq strict := (ready_by (migrated conv strict) (ready conv veq strict)).
Notation stepped conv strict := (walked (migrated conv strict)).

(** * Commands *)
(** Deploying and undoing, each run with its own failures. *)
Inductive command := Deploy_all (plan : nat -> fault) | Undo_all (plan : nat -> fault).
Section Commands.
  Context {M D : Type} (c : Coll M) (exec : string -> DBS D -> outcome (DBS D)) (bk : string).
  Fixpoint commands (cs : list command) (s : DBS D) : DBS D :=
    match cs with
    | [] => s
    | Deploy_all plan :: r => commands r (cn_db (snd (migrate exec bk plan c (conn_on s))))
    | Undo_all plan :: r => commands r (cn_db (snd (unmigrate exec bk plan c (conn_on s))))
    end.
End Commands.

(** A database that butane has not touched yet, and one with nothing in it. *)
Definition untouched {D} (db : D) : DBS D := {| dbs_rest := db; dbs_mig := None |}.
Notation nothing_yet := (untouched (@nil (string * etab))).
(** The database records the migrations of these names as applied. *)
Definition recorded_as {D} (s : DBS D) (l : list string) : Prop :=
  match dbs_mig s with Some rows => rows = l | None => l = [] end.
(** The schema asked for last. *)
Definition asked (steps : list (string * ADB)) : ADB := last (map snd steps) adb_new.
(** The migrations made of the schemas asked for, each with its name; the database after
    any commands, starting from [db0].  [is] tells when a database has a schema. *)
Section Follows.
  Context {D : Type} (is : ADB -> DBS D -> Prop) (step : ADB -> ADB -> D -> D -> Prop) (db0 : D).
  Definition follows_by {M} (c : Coll M) (exec : string -> DBS D -> outcome (DBS D)) (bk : string) (steps : list (string * ADB)) : Prop :=
    forall cs, let s := commands c exec bk cs (untouched db0) in
    (exists made i, made_of adb_new steps made /\ i <= length made /\ recorded_as s (map fst (firstn i made))
       /\ is (schema_after (firstn i made)) s
       /\ walked step (adb_new :: map snd made) 0 i db0 (dbs_rest s))
    /\ (forall plan s', migrate exec bk plan c (conn_on s) = (Val tt, s') ->
          is (asked steps) (cn_db s') /\ exists made, made_of adb_new steps made /\ recorded_as (cn_db s') (map fst made))
    /\ (forall plan s', unmigrate exec bk plan c (conn_on s) = (Val tt, s') -> is adb_new (cn_db s') /\ recorded_as (cn_db s') []).
End Follows.
Notation follows conv e := (follows_by (database_is conv (strict_of e)) (migrated conv (strict_of e)) (@nil (string * etab))).
