(** The statements that bring a PostgreSQL database to a new schema.
    Models butane_core/src/db/pg.rs:50-58, 588-867. *)
From Verif Require Import Base SqlVal Adb Query Literal SqliteDdl.

Section Render.
(** helper.rs:23-29: sqlparser's keyword list. *)
Variable kw : string -> bool.
(** Rust's Display for f64. *)
Variable show : f64 -> string.
Notation q := (q kw).

(** [col_sqltype], pg.rs:699-730 *)
Definition pg_type (t : SqlType) : string :=
  match t with
  | TBool => "BOOLEAN"
  | TInt => "INTEGER"
  | TBigInt => "BIGINT"
  | TReal => "DOUBLE PRECISION"
  | TText => "TEXT"
  | TDate => "DATE"
  | TTimestamp => "TIMESTAMP"
  | TBlob => "BYTEA"
  | TJson => "JSONB"
  | TCustom n => n
  end%string.
Definition pg_col_type (c : AColumn) : outcome string :=
  do i <- typeid c;
  match i with
  | TyName n => Ok n
  | TyId t =>
      if c_auto c then
        match t with
        | TInt => Ok "SERIAL"%string
        | TBigInt => Ok "BIGSERIAL"%string
        | _ => Err (InvalidAuto (c_name c))
        end
      else Ok (pg_type t)
  end.
(** [define_column], pg.rs:649-673 *)
Definition pg_constraints (c : AColumn) : list string :=
  (if c_nullable c then [] else ["NOT NULL"])
  ++ (if c_pk c then ["PRIMARY KEY"] else [])
  ++ (if c_unique c then ["UNIQUE"] else []).
Definition pg_define_column (c : AColumn) : outcome string :=
  match pg_constraints c with
  | [] => do ty <- pg_col_type c; Ok (q (c_name c) ++ " " ++ ty)%string
  | l => do ty <- pg_col_type c; Ok (q (c_name c) ++ " " ++ ty ++ " " ++ join " " l)%string
  end.
(** [define_fkey_constraint], pg.rs:675-692 *)
Definition pg_fkey (tbl : string) (c : AColumn) : outcome string :=
  match c_ref c with
  | Some (RefLiteral r) =>
      Ok ("ALTER TABLE " ++ q tbl ++ " ADD FOREIGN KEY (" ++ q (c_name c) ++ ") REFERENCES "
          ++ q (rl_table r) ++ "(" ++ q (rl_column r) ++ ");")%string
  | _ => Panic
  end.
(** [create_table], pg.rs:613-627 *)
Definition pg_create_table (t : ATable) (allow_exists : bool) : outcome string :=
  do defs <- omapm pg_define_column (t_cols t);
  let modifier := (if allow_exists then "IF NOT EXISTS " else "")%string in
  Ok ("CREATE TABLE " ++ modifier ++ q (t_name t) ++ " (" ++ nl ++ join ("," ++ nl) defs ++ nl ++ ");")%string.
(** [create_table_fkey_constraints], pg.rs:629-637 *)
Definition pg_table_fkeys (t : ATable) : outcome string :=
  do l <- omapm (pg_fkey (t_name t)) (with_ref_cols t); Ok (join nl l).
(** [drop_table], pg.rs:732-734 *)
Definition pg_drop_table (n : string) : string := ("DROP TABLE " ++ q n ++ ";")%string.
(** [add_column], pg.rs:736-749 *)
Definition pg_add_column (tbl : string) (c : AColumn) : outcome string :=
  do v <- column_default c;
  do def <- pg_define_column c;
  do l <- sql_literal_value show v;
  let stmt := ("ALTER TABLE " ++ q tbl ++ " ADD COLUMN " ++ def ++ " DEFAULT " ++ l ++ ";")%string in
  match c_ref c with
  | Some _ => do f <- pg_fkey tbl c; Ok (join nl [stmt; f])
  | None => Ok (join nl [stmt])
  end.
(** [remove_column], pg.rs:751-757 *)
Definition pg_remove_column (tbl n : string) : string :=
  ("ALTER TABLE " ++ q tbl ++ " DROP COLUMN " ++ q n ++ ";")%string.
(** [change_column], pg.rs:759-867.  Of the table only its name is used. *)
Definition pg_change_column (tbl : string) (old new : AColumn) : outcome string :=
  let alter := ("ALTER TABLE " ++ q tbl)%string in
  let column := (" ALTER COLUMN " ++ q (c_name old))%string in
  let renamed := if String.eqb (c_name old) (c_name new) then []
    else [(alter ++ " RENAME COLUMN " ++ q (c_name old) ++ " TO " ++ q (c_name new) ++ ";")%string] in
  do i <- typeid old;
  do j <- typeid new;
  do typed <- (if typeid_eqb i j then Ok []
    else do ty <- pg_col_type new; Ok [(alter ++ column ++ " SET DATA TYPE " ++ ty ++ ";")%string]);
  let nulled := if Bool.eqb (c_nullable old) (c_nullable new) then []
    else [(alter ++ column ++ (if c_nullable new then " DROP" else " SET") ++ " NOT NULL;")%string] in
  let keyed := if Bool.eqb (c_pk old) (c_pk new) then []
    else if c_pk new then
      [(alter ++ " DROP CONSTRAINT IF EXISTS " ++ tbl ++ "_pkey;")%string;
       (alter ++ " ADD PRIMARY KEY (" ++ q (c_name new) ++ ");")%string]
    else [] in
  let uniqued := if Bool.eqb (c_unique old) (c_unique new) then []
    else if c_unique new then [(alter ++ " ADD UNIQUE (" ++ q (c_name new) ++ ");")%string]
    else [(alter ++ " DROP CONSTRAINT " ++ tbl ++ "_" ++ c_name old ++ "_key;")%string] in
  do defaulted <- (if opt_eqb sqlval_eqb (c_default old) (c_default new) then Ok []
    else match c_default new with
         | None => Ok [(alter ++ column ++ " DROP DEFAULT;")%string]
         | Some v => do l <- sql_literal_value show v; Ok [(alter ++ column ++ " SET DEFAULT " ++ l ++ ";")%string]
         end);
  do referred <- (if opt_eqb aref_eqb (c_ref old) (c_ref new) then Ok []
    else
      let gone := match c_ref old with
                  | Some _ => [(alter ++ " DROP CONSTRAINT " ++ tbl ++ "_" ++ c_name old ++ "_fkey;")%string]
                  | None => []
                  end in
      match c_ref new with
      | Some _ => do f <- pg_fkey tbl new; Ok (gone ++ [f])
      | None => Ok gone
      end);
  Ok (join nl (renamed ++ typed ++ nulled ++ keyed ++ uniqued ++ defaulted ++ referred)).
(** [drop_fkey_constraints], [remove_table_fkey_constraints], pg.rs:639-647, 694-698 *)
Definition pg_drop_fkey (tbl : string) (c : AColumn) : outcome string :=
  pg_change_column tbl c (with_ref c None).
Definition pg_drop_fkeys (t : ATable) : outcome string :=
  do l <- omapm (pg_drop_fkey (t_name t)) (with_ref_cols t); Ok (join nl l).
(** [sql_for_op], pg.rs:588-611: the current schema is only looked at *)
Definition pg_sql_for_op (current : ADB) (op : Operation) : outcome string :=
  match op with
  | AddTable t => pg_create_table t false
  | AddTableConstraints t => pg_table_fkeys t
  | AddTableIfNotExists t => pg_create_table t true
  | RemoveTable n => Ok (pg_drop_table n)
  | RemoveTableConstraints t => pg_drop_fkeys t
  | AddColumn t c => pg_add_column t c
  | RemoveColumn t n => Ok (pg_remove_column t n)
  | ChangeColumn t old new =>
      match get_table current t with
      | Some tb => pg_change_column (t_name tb) old new
      | None => Ok ""%string
      end
  end.
(** [create_migration_sql], pg.rs:50-58 *)
Definition pg_migration_sql (current : ADB) (ops : list Operation) : outcome string :=
  do l <- omapm (pg_sql_for_op current) ops; Ok (script_of_lines l).
End Render.
