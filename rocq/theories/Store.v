(** Creating migrations, and the in-memory store.
    Models butane_core/src/migrations/mod.rs:224-343 and memmigrations.rs. *)
From Verif Require Import Base SqlVal Adb Chain.

(** [Backend], as far as creating a migration uses it: db/mod.rs [Backend::name] and
    [Backend::create_migration_sql]. *)
Record Backend := { b_name : string; b_sql : ADB -> list Operation -> outcome string }.

(** [migrations_table], mod.rs:300-314 *)
Definition migrations_table : ATable :=
  replace_column {| t_name := "butane_migrations"; t_cols := [] |}
    {| c_name := "name"; c_type := KnownId (TyId TText); c_nullable := false; c_pk := true;
       c_auto := false; c_unique := false; c_default := None; c_ref := None |}.

(** The calls of [MigrationMut] that [create_migration_to] makes on the new
    migration. *)
Inductive Call :=
| CModified (t : ATable)
| CUnmodified (t : ATable) (from : string)
| CSql (b up down : string)
| CFrom (o : option string).

(** The table an operation modifies, mod.rs:246-258 *)
Definition op_modifies (op : Operation) : list string :=
  match op with
  | AddTable t | AddTableConstraints t | AddTableIfNotExists t => [t_name t]
  | AddColumn n _ | RemoveColumn n _ | ChangeColumn n _ _ => [n]
  | RemoveTable _ | RemoveTableConstraints _ => []
  end.

(** The body of [create_migration_to] between the difference and [add_migration],
    mod.rs:235-292: [None] when there is nothing to do, otherwise the calls in order.
    A call that cannot be built is an error at that point, after the calls before it
    have been made. *)
Definition create_calls (bs : list Backend) (from : option string) (from_db to_db : ADB)
    : outcome (option (list (outcome Call))) :=
  do ops <- diff_out from_db to_db;
  if match ops with [] => true | _ => false end then Ok None
  else
    let modified := flat_map op_modifies ops in
    let ops := match from with
               | None => ops ++ [AddTableIfNotExists migrations_table]
               | Some _ => ops
               end in
    let tables := map (fun t => if kmem (t_name t) modified then Ok (CModified t)
                                else match from with
                                     | None => Err (MigrationError "unmodified requires a from")
                                     | Some f => Ok (CUnmodified t f)
                                     end) (mvals (a_tables to_db)) in
    let sqls := map (fun b => do up <- b_sql b from_db ops;
                              do dops <- diff_out to_db from_db;
                              do down <- b_sql b to_db dops;
                              Ok (CSql (b_name b) up down)) bs in
    Ok (Some (tables ++ sqls ++ [Ok (CFrom from)])).

(** * The in-memory store, memmigrations.rs *)

(** memmigrations.rs:12-18 *)
Record MemMigration := {
  mm_name : string;
  mm_db : ADB;
  mm_from : option string;
  mm_up : smap string string;
  mm_down : smap string string }.
(** memmigrations.rs:21-29 *)
Definition mem_migration (n : string) : MemMigration :=
  {| mm_name := n; mm_db := adb_new; mm_from := None; mm_up := []; mm_down := [] |}.
Definition mm_with_db (m : MemMigration) (d : ADB) : MemMigration :=
  {| mm_name := mm_name m; mm_db := d; mm_from := mm_from m; mm_up := mm_up m; mm_down := mm_down m |}.

(** [db], memmigrations.rs:33-37 *)
Definition mm_read_db (m : MemMigration) : outcome ADB :=
  do p <- resolve_types (mm_db m);
  let '(d, r) := p in do _ <- r; Ok d.
(** [add_modified_table], memmigrations.rs:69-73 ([add_unmodified_table] is the same,
    74-77) *)
Definition mm_add_table (m : MemMigration) (t : ATable) : outcome MemMigration :=
  do p <- resolve_types (replace_table (mm_db m) t);
  let '(d, r) := p in do _ <- r; Ok (mm_with_db m d).
(** [delete_table], memmigrations.rs:78-81 *)
Definition mm_delete_table (m : MemMigration) (t : string) : MemMigration :=
  mm_with_db m (remove_table (mm_db m) t).
(** [add_sql], memmigrations.rs:82-87 *)
Definition mm_add_sql (m : MemMigration) (b up down : string) : MemMigration :=
  {| mm_name := mm_name m; mm_db := mm_db m; mm_from := mm_from m;
     mm_up := mput b up (mm_up m); mm_down := mput b down (mm_down m) |}.
(** [remove_sql], memmigrations.rs:88-92 *)
Definition mm_remove_sql (m : MemMigration) (b : string) : MemMigration :=
  {| mm_name := mm_name m; mm_db := mm_db m; mm_from := mm_from m;
     mm_up := mdel b (mm_up m); mm_down := mdel b (mm_down m) |}.
(** [add_type], memmigrations.rs:93-97 *)
Definition mm_add_type (m : MemMigration) (k : TypeKey) (t : DeferredSqlType) : outcome MemMigration :=
  do p <- resolve_types (add_type (mm_db m) k t);
  let '(d, r) := p in do _ <- r; Ok (mm_with_db m d).
(** [set_migration_from], memmigrations.rs:98-101 *)
Definition mm_set_from (m : MemMigration) (o : option string) : MemMigration :=
  {| mm_name := mm_name m; mm_db := mm_db m; mm_from := o; mm_up := mm_up m; mm_down := mm_down m |}.

Definition mm_call (m : MemMigration) (c : Call) : outcome MemMigration :=
  match c with
  | CModified t | CUnmodified t _ => mm_add_table m t
  | CSql b u d => Ok (mm_add_sql m b u d)
  | CFrom o => Ok (mm_set_from m o)
  end.
Fixpoint mm_calls (m : MemMigration) (l : list (outcome Call)) : outcome MemMigration :=
  match l with
  | [] => Ok m
  | c :: r => do x <- c; do m' <- mm_call m x; mm_calls m' r
  end.

(** memmigrations.rs:106-110 *)
Record MemStore := {
  ms_migs : smap string MemMigration;
  ms_current : MemMigration;
  ms_latest : option string }.
(** memmigrations.rs:113-119 *)
Definition mem_new : MemStore :=
  {| ms_migs := []; ms_current := mem_migration "current"; ms_latest := None |}.
(** memmigrations.rs:131-140 *)
Definition mem_get (s : MemStore) (n : string) : option MemMigration := mget n (ms_migs s).
Definition mem_latest (s : MemStore) : option MemMigration :=
  match ms_latest s with None => None | Some n => mem_get s n end.
Definition mem_coll (s : MemStore) : Coll MemMigration :=
  {| cl_get := mem_get s; cl_latest := mem_latest s; cl_from := fun m => Ok (mm_from m);
     cl_name := mm_name; cl_up := fun m b => Ok (mget b (mm_up m));
     cl_down := fun m b => Ok (mget b (mm_down m)); cl_bound := length (ms_migs s) |}.
(** [add_migration], memmigrations.rs:155-169 *)
Definition mem_add (s : MemStore) (m : MemMigration) : MemStore :=
  let new_latest := match ms_latest s with
                    | None => true
                    | Some l => match mm_from m with
                                | None => false
                                | Some n => String.eqb n l
                                end
                    end in
  {| ms_migs := mput (mm_name m) m (ms_migs s);
     ms_current := ms_current s;
     ms_latest := if new_latest then Some (mm_name m) else ms_latest s |}.
(** [delete_migrations], memmigrations.rs:171-175 *)
Definition mem_delete (s : MemStore) : MemStore :=
  {| ms_migs := []; ms_current := ms_current s; ms_latest := None |}.

(** [create_migration_to], mod.rs:224-296, on this store.  [from] is the migration
    given by the caller.  An error leaves the store as it was: only the last call
    changes it. *)
Definition mem_create_to (s : MemStore) (bs : list Backend) (name : string)
    (from : option MemMigration) (to_db : ADB) : outcome (bool * MemStore) :=
  do from_db <- match from with None => Ok adb_new | Some m => mm_read_db m end;
  do calls <- create_calls bs (option_map mm_name from) from_db to_db;
  match calls with
  | None => Ok (false, s)
  | Some l => do m <- mm_calls (mem_migration name) l; Ok (true, mem_add s m)
  end.
(** [create_migration], mod.rs:211-219 *)
Definition mem_create (s : MemStore) (bs : list Backend) (name : string)
    (from : option MemMigration) : outcome (bool * MemStore) :=
  do to_db <- mm_read_db (ms_current s);
  mem_create_to s bs name from to_db.

(** * [copy_migration], mod.rs:326-343, into the in-memory store.

    The source is any migration: [src] says what it returns. *)
Record MigrationView := {
  mv_from : outcome (option string);
  mv_db : outcome ADB;
  mv_backends : outcome (list string);
  mv_up : string -> outcome (option string);
  mv_down : string -> outcome (option string) }.
Definition mm_view (m : MemMigration) : MigrationView :=
  {| mv_from := Ok (mm_from m); mv_db := mm_read_db m; mv_backends := Ok (mkeys (mm_up m));
     mv_up := fun b => Ok (mget b (mm_up m)); mv_down := fun b => Ok (mget b (mm_down m)) |}.
Fixpoint ofold {A B} (f : B -> A -> outcome B) (l : list A) (b : B) : outcome B :=
  match l with
  | [] => Ok b
  | x :: r => do b' <- f b x; ofold f r b'
  end.
Definition copy_migration (src : MigrationView) (to : MemMigration) : outcome MemMigration :=
  do f <- mv_from src;
  let to := mm_set_from to f in
  do db <- mv_db src;
  do to <- ofold mm_add_table (mvals (a_tables db)) to;
  do to <- ofold (fun m p => mm_add_type m (fst p) (snd p)) (a_types db) to;
  do bs <- mv_backends src;
  ofold (fun m b => do u <- mv_up src b; do d <- mv_down src b;
                    match u, d with
                    | Some u, Some d => Ok (mm_add_sql m b u d)
                    | _, _ => Ok m
                    end) bs to.
