(** The current schema: what building models, deriving field types and the CLI do to it.
    Models butane_core/src/codegen/migration.rs:12-33, codegen/mod.rs:655-668,
    butane_cli/src/lib.rs:104-225, 638-665 (the text printed is not modelled, only what
    is told by it). *)
From Verif Require Import Base SqlVal Adb Chain Store FsStore Codegen Maint.

(** How the desynt crate resolves a type path; any resolver is allowed, as in [Codegen]. *)
Notation resolver := (bool -> list string -> string -> option string).

Section Current.
Variable resolve : resolver.
Variable ls : list string -> list string.

(** The directory [FsMigrations::current] is kept in, fsmigrations.rs:336-344 *)
Notation current := "current"%string.

(** The loop of [write_table_to_disk], migration.rs:21-23 *)
Fixpoint add_tables (ts : list ATable) : FsM unit :=
  match ts with
  | [] => fret tt
  | t :: r => fdo _ <- fs_add_modified current t; add_tables r
  end.
(** migration.rs:24-30: none or one. *)
Fixpoint add_types (l : list (TypeKey * DeferredSqlType)) : FsM unit :=
  match l with
  | [] => fret tt
  | (k, t) :: r => fdo _ <- fs_add_type current k t; add_types r
  end.
(** [write_table_to_disk], migration.rs:12-33: what [#[model]] does when a struct is
    compiled. *)
Definition write_table_to_disk (s : sdef) : FsM unit :=
  fdo ts <- flift (create_atables resolve s);
  fdo _ <- add_tables ts;
  add_types (recorded_types s).
(** [add_custom_type], codegen/mod.rs:655-668: what the derive macros for field types
    do. *)
Definition add_custom_type (name : string) (t : DeferredSqlType) : FsM unit :=
  fs_add_type current (CustomType name) t.
(** [delete_table], lib.rs:638-643 *)
Definition cli_delete_table (n : string) : FsM unit := fs_delete_table current n.
(** [clean], lib.rs:662-665 *)
Definition cli_clean : FsM unit := fs_clear_current ls.

(** The things done to a project, one after the other; one that fails does not keep
    the next from being done. *)
Inductive command :=
| Build (s : sdef)
| Derive (name : string) (d : derived)
| DeleteTable (n : string)
| Clean.
Definition run_command (c : command) : FsM unit :=
  match c with
  | Build s => write_table_to_disk s
  | Derive n d => add_custom_type n (snd (derived_record n d))
  | DeleteTable n => cli_delete_table n
  | Clean => cli_clean
  end.
Fixpoint run_commands (l : list command) (fs : FS) : FS * list FS :=
  match l with
  | [] => (fs, [])
  | c :: r => let '(_, fs1, t1) := run_command c fs in
              let '(fs2, t2) := run_commands r fs1 in (fs2, t1 ++ t2)
  end.

(** * Describing a migration *)

(** [describe_current_migration], lib.rs:184-194 *)
Definition describe_current : FsM (list Operation) :=
  fdo to_db <- fs_db ls current;
  fdo l <- fread (fun fs => Ok (fs_latest fs));
  fdo from_db <- match l with Some m => fs_db ls m | None => fret adb_new end;
  flift (diff_out from_db to_db).
(** [describe_migration], lib.rs:196-225 *)
Definition describe_migration (n : string) : FsM (list Operation) :=
  if String.eqb n current then describe_current else
  fdo m <- fread (fun fs => match fs_get fs n with
                            | Some m => Ok m
                            | None => Err (Internal "No such migration!")
                            end);
  fdo to_db <- fs_db ls m;
  fdo f <- fread (fun fs => omap in_from (read_info m fs));
  fdo from_db <- match f with
                 | None => fret adb_new
                 | Some p => fdo q <- fread (fun fs => match fs_get fs p with
                                                       | Some q => Ok q
                                                       | None => Panic
                                                       end);
                             fs_db ls q
                 end;
  flift (diff_out from_db to_db).
End Current.

(** ** What is told about an operation, [print_ops] and [print_column_diff],
    lib.rs:104-181 *)
Inductive line :=
| NoChanges
| NewTable (n : string)
| TableColumn (n : string) (t : TypeIdentifier)
| TableRemoved (n : string)
| NewColumn (tn cn : string) (t : TypeIdentifier)
| ColumnRemoved (tn cn : string)
| ColumnChanged (tn cn : string)
| TypeIs (a b : TypeIdentifier)
| PkIs (a b : bool)
| AutoIs (a b : bool)
| NullableIs (a b : bool)
| UniqueIs (a b : bool)
| DefaultIs (a b : option SqlVal)
| ReferenceIs (a b : option ARefLiteral).

(** The reference shown, lib.rs:126-141: one that is not resolved is an error. *)
Definition shown_ref (r : option ARef) : outcome (option ARefLiteral) :=
  match r with
  | None => Ok None
  | Some (RefLiteral l) => Ok (Some l)
  | Some (RefDeferred _) => Err (Internal "ADB failed to resolve ARef.")
  end.
(** [print_column_diff], lib.rs:104-144 *)
Definition column_diff_lines (old new : AColumn) : outcome (list line) :=
  do a <- typeid old;
  do b <- typeid new;
  do refs <- (if opt_eqb aref_eqb (c_ref old) (c_ref new) then Ok []
              else do x <- shown_ref (c_ref old);
                   do y <- shown_ref (c_ref new);
                   Ok [ReferenceIs x y]);
  Ok ((if typeid_eqb a b then [] else [TypeIs a b])
      ++ (if Bool.eqb (c_pk old) (c_pk new) then [] else [PkIs (c_pk old) (c_pk new)])
      ++ (if Bool.eqb (c_auto old) (c_auto new) then [] else [AutoIs (c_auto old) (c_auto new)])
      ++ (if Bool.eqb (c_nullable old) (c_nullable new) then [] else [NullableIs (c_nullable old) (c_nullable new)])
      ++ (if Bool.eqb (c_unique old) (c_unique new) then [] else [UniqueIs (c_unique old) (c_unique new)])
      ++ (if opt_eqb sqlval_eqb (c_default old) (c_default new) then []
          else [DefaultIs (c_default old) (c_default new)])
      ++ refs).
Fixpoint column_lines (l : list AColumn) : outcome (list line) :=
  match l with
  | [] => Ok []
  | c :: r => do t <- typeid c; do r <- column_lines r; Ok (TableColumn (c_name c) t :: r)
  end.
(** The body of the loop of [print_ops], lib.rs:153-179 *)
Definition op_lines (op : Operation) : outcome (list line) :=
  match op with
  | AddTable t | AddTableIfNotExists t => do l <- column_lines (t_cols t); Ok (NewTable (t_name t) :: l)
  | AddTableConstraints _ | RemoveTableConstraints _ => Ok []
  | RemoveTable n => Ok [TableRemoved n]
  | AddColumn n c => do t <- typeid c; Ok [NewColumn n (c_name c) t]
  | RemoveColumn n c => Ok [ColumnRemoved n c]
  | ChangeColumn n old new =>
      if String.eqb (c_name old) (c_name new)
      then do l <- column_diff_lines old new; Ok (ColumnChanged n (c_name old) :: l)
      else Panic
  end.
Fixpoint ops_lines (ops : list Operation) : outcome (list line) :=
  match ops with
  | [] => Ok []
  | op :: r => do l <- op_lines op; do k <- ops_lines r; Ok (l ++ k)
  end.
(** [print_ops], lib.rs:147-181.  The lines before one that cannot be printed are left
    out: the result is then the error. *)
Definition print_ops (ops : list Operation) : outcome (list line) :=
  match ops with [] => Ok [NoChanges] | _ => ops_lines ops end.

(** * The in-memory store as it is edited, memmigrations.rs:68-102

    The calls of [MigrationMut] on the current schema or on a stored migration.  A call
    that fails has already changed the schema. *)
Inductive edit :=
| EdTable (t : ATable)
| EdNoTable (n : string)
| EdSql (b up down : string)
| EdNoSql (b : string)
| EdType (k : TypeKey) (t : DeferredSqlType)
| EdFrom (o : option string).
Definition mm_resolved (m : MemMigration) (d : ADB) : outcome (MemMigration * outcome unit) :=
  do p <- resolve_types d; Ok (mm_with_db m (fst p), snd p).
Definition mem_edit (m : MemMigration) (e : edit) : outcome (MemMigration * outcome unit) :=
  match e with
  | EdTable t => mm_resolved m (replace_table (mm_db m) t)
  | EdNoTable n => Ok (mm_delete_table m n, Ok tt)
  | EdSql b u d => Ok (mm_add_sql m b u d, Ok tt)
  | EdNoSql b => Ok (mm_remove_sql m b, Ok tt)
  | EdType k t => mm_resolved m (add_type (mm_db m) k t)
  | EdFrom o => Ok (mm_set_from m o, Ok tt)
  end.
Fixpoint mem_edits (m : MemMigration) (l : list edit) : outcome MemMigration :=
  match l with
  | [] => Ok m
  | e :: r => do p <- mem_edit m e; mem_edits (fst p) r
  end.
