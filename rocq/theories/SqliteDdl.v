(** The statements that bring a database to a new schema, for SQLite and for Turso.
    Models butane_core/src/db/sqlite.rs:84-96, 662-875 and
    butane_core/src/db/turso.rs:112-125, 322-335, 942-1176.
    [Custom] types exist only with the pg feature; choosing one panics. *)
From Verif Require Import Base SqlVal Adb Query Literal.

Definition nl : string := String (ascii_of_nat 10) "".

Section Render.
(** helper.rs:23-29: sqlparser's keyword list. *)
Variable kw : string -> bool.
(** Rust's Display for f64. *)
Variable show : f64 -> string.

Definition q (w : string) : string := quote_reserved_word kw w.

(** * SQLite *)

(** [sqltype], sqlite.rs:766-783 and turso.rs:1048-1066 *)
Definition sqlite_type (t : SqlType) : outcome string :=
  match t with
  | TBool | TInt | TBigInt => Ok "INTEGER"
  | TReal => Ok "REAL"
  | TText => Ok "TEXT"
  | TBlob => Ok "BLOB"
  | TJson | TDate | TTimestamp => Ok "TEXT"
  | TCustom _ => Panic
  end%string.
(** [col_sqltype], sqlite.rs:756-764, turso.rs:1040-1046: an unknown type is left out. *)
Definition sqlite_col_type (c : AColumn) : outcome string :=
  match typeid c with
  | Ok (TyId t) => sqlite_type t
  | Ok (TyName n) => Ok n
  | Err _ => Ok ""%string
  | Panic => Panic
  end.
(** [define_column], sqlite.rs:706-736, turso.rs:992-1020 *)
Definition sqlite_constraints (c : AColumn) : list string :=
  (if c_nullable c then [] else ["NOT NULL"])
  ++ (if c_pk c then ["PRIMARY KEY"] else [])
  ++ (if c_auto c && negb (c_pk c) then ["AUTOINCREMENT"] else [])
  ++ (if c_unique c then ["UNIQUE"] else []).
Definition sqlite_define_column (c : AColumn) : outcome string :=
  do ty <- sqlite_col_type c;
  match sqlite_constraints c with
  | [] => Ok (q (c_name c) ++ " " ++ ty)%string
  | l => Ok (q (c_name c) ++ " " ++ ty ++ " " ++ join " " l)%string
  end.
(** [define_constraint], sqlite.rs:738-754, turso.rs:1022-1038, of a column that has
    a reference. *)
Definition sqlite_define_constraint (c : AColumn) : outcome string :=
  match c_ref c with
  | Some (RefLiteral r) =>
      Ok ("FOREIGN KEY (" ++ q (c_name c) ++ ") REFERENCES " ++ q (rl_table r)
          ++ "(" ++ q (rl_column r) ++ ")")%string
  | _ => Panic
  end.
Definition with_ref_cols (t : ATable) : list AColumn :=
  filter (fun c => match c_ref c with Some _ => true | None => false end) (t_cols t).
(** [create_table_constraints], sqlite.rs:696-704 *)
Definition sqlite_table_constraints (t : ATable) : outcome string :=
  do l <- omapm sqlite_define_constraint (with_ref_cols t);
  Ok (join nl l).
(** [create_table], sqlite.rs:675-694 *)
Definition sqlite_create_table (t : ATable) (allow_exists : bool) : outcome string :=
  do defs <- omapm sqlite_define_column (t_cols t);
  let coldefs := join ("," ++ nl) defs in
  let modifier := (if allow_exists then "IF NOT EXISTS " else "")%string in
  do constraints <- sqlite_table_constraints t;
  let constraints := if String.eqb constraints "" then constraints else ("," ++ nl ++ constraints)%string in
  Ok ("CREATE TABLE " ++ modifier ++ q (t_name t) ++ " (" ++ nl ++ coldefs ++ constraints ++ nl
      ++ ") STRICT;")%string.
(** [drop_table], sqlite.rs:785-787, turso.rs:1067-1069 *)
Definition sqlite_drop_table (n : string) : string := ("DROP TABLE " ++ q n ++ ";")%string.
(** [add_column], sqlite.rs:789-797, turso.rs:1071-1079 *)
Definition sqlite_add_column (t : string) (c : AColumn) : outcome string :=
  do v <- column_default c;
  do def <- sqlite_define_column c;
  do l <- sql_literal_value show v;
  Ok ("ALTER TABLE " ++ q t ++ " ADD COLUMN " ++ def ++ " DEFAULT " ++ l ++ ";")%string.
(** [copy_table], sqlite.rs:820-833 *)
Definition sqlite_copy_table (old new : ATable) : string :=
  ("INSERT INTO " ++ q (t_name new) ++ " SELECT " ++ join ", " (map (fun c => q (c_name c)) (t_cols new))
   ++ " FROM " ++ q (t_name old) ++ ";")%string.
(** [tmp_table_name], sqlite.rs:835-837, turso.rs:1130-1132 *)
Definition tmp_table_name (n : string) : string := (n ++ "__butane_tmp")%string.
Definition rename (t : ATable) (n : string) : ATable := {| t_name := n; t_cols := t_cols t |}.
(** The table that [change_column] makes, sqlite.rs:855-860, turso.rs:1149-1154 *)
Definition changed_table (t : ATable) (old : AColumn) (new : option AColumn) : ATable :=
  match new with
  | Some c => replace_column t c
  | None => remove_column t (c_name old)
  end.
(** [change_column], sqlite.rs:839-875.  Returns the text and the schema, in which the
    table is replaced. *)
Definition sqlite_change_column (current : ADB) (tbl : string) (old : AColumn) (new : option AColumn)
    : outcome (string * ADB) :=
  match get_table current tbl with
  | None => Ok (""%string, current)
  | Some old_table =>
      let new_table := changed_table (rename old_table (tmp_table_name (t_name old_table))) old new in
      do create <- sqlite_create_table new_table false;
      let stmts := [create; sqlite_copy_table old_table new_table; sqlite_drop_table (t_name old_table);
                    ("ALTER TABLE " ++ q (t_name new_table) ++ " RENAME TO " ++ q tbl ++ ";")%string] in
      Ok (join nl stmts, replace_table current (rename new_table (t_name old_table)))
  end.
(** [remove_column], sqlite.rs:799-818, turso.rs:1081-1098 ([change] is the backend's
    [change_column]) *)
Definition remove_column_sql (change : ADB -> string -> AColumn -> option AColumn -> outcome (string * ADB))
    (current : ADB) (tbl name : string) : outcome (string * ADB) :=
  match get_table current tbl with
  | None => Err (TableNotFound tbl)
  | Some t =>
      match col_by_name (t_cols t) name with
      | None => Err (ColumnNotFound tbl name)
      | Some c =>
          match c_ref c with
          | Some _ => change current tbl c None
          | None => Ok (("ALTER TABLE " ++ q tbl ++ " DROP COLUMN " ++ q name ++ ";")%string, current)
          end
      end
  end.
(** [sql_for_op], sqlite.rs:662-673, turso.rs:942-960, with the functions that differ *)
Definition sql_for_op (create : ATable -> bool -> outcome string)
    (change : ADB -> string -> AColumn -> option AColumn -> outcome (string * ADB))
    (current : ADB) (op : Operation) : outcome (string * ADB) :=
  match op with
  | AddTable t => do s <- create t false; Ok (s, current)
  | AddTableConstraints _ => Ok (""%string, current)
  | AddTableIfNotExists t => do s <- create t true; Ok (s, current)
  | RemoveTable n => Ok (sqlite_drop_table n, current)
  | RemoveTableConstraints _ => Ok (""%string, current)
  | AddColumn t c => do s <- sqlite_add_column t c; Ok (s, current)
  | RemoveColumn t n => remove_column_sql change current t n
  | ChangeColumn t old new => change current t old (Some new)
  end.
(** [create_migration_sql], sqlite.rs:84-96, turso.rs:112-125 *)
Fixpoint lines_for_ops (sql : ADB -> Operation -> outcome (string * ADB)) (current : ADB) (ops : list Operation)
    : outcome (list string) :=
  match ops with
  | [] => Ok []
  | o :: r => do p <- sql current o;
              do l <- lines_for_ops sql (transform_with (snd p) o) r;
              Ok (fst p :: l)
  end.
Definition script_of_lines (l : list string) : string :=
  (join nl (filter (fun s => negb (String.eqb s "")) l) ++ nl)%string.
Definition sqlite_sql_for_op := sql_for_op sqlite_create_table sqlite_change_column.
Definition sqlite_migration_sql (current : ADB) (ops : list Operation) : outcome string :=
  do l <- lines_for_ops sqlite_sql_for_op current ops; Ok (script_of_lines l).

(** * Turso *)

(** [create_table], turso.rs:961-990: [len] counts bytes. *)
Definition turso_create_table (t : ATable) (if_not_exists : bool) : outcome string :=
  do defs <- omapm sqlite_define_column (t_cols t);
  do constraints <- omapm sqlite_define_constraint (with_ref_cols t);
  let defs := defs ++ constraints in
  let prefix := ((if if_not_exists then "CREATE TABLE IF NOT EXISTS " else "CREATE TABLE ")
                 ++ q (t_name t) ++ " (")%string in
  let single_line := (prefix ++ join ", " defs ++ ");")%string in
  Ok (if (String.length single_line <=? 120)%nat then single_line
      else (prefix ++ nl ++ join ("," ++ nl) (map (fun s => "    " ++ s) defs) ++ nl ++ ");"))%string.
(** [copy_table], turso.rs:1100-1128 *)
Definition turso_copy_table (old new : ATable) : string :=
  let names := map (fun c => q (c_name c)) (t_cols new) in
  let single_line := ("INSERT INTO " ++ q (t_name new) ++ " SELECT " ++ join ", " names
                      ++ " FROM " ++ q (t_name old) ++ ";")%string in
  if (String.length single_line <=? 120)%nat then single_line
  else ("INSERT INTO " ++ q (t_name new) ++ " SELECT" ++ nl ++ "    " ++ join ("," ++ nl ++ "    ") names
        ++ nl ++ "FROM " ++ q (t_name old) ++ ";")%string.
(** [change_column], turso.rs:1134-1176 *)
Definition turso_change_column (current : ADB) (tbl : string) (old : AColumn) (new : option AColumn)
    : outcome (string * ADB) :=
  match get_table current tbl with
  | None => Ok (""%string, current)
  | Some old_table =>
      let new_table := changed_table (rename old_table (tmp_table_name (t_name old_table))) old new in
      do create <- turso_create_table new_table false;
      let stmts := [create; turso_copy_table old_table new_table; sqlite_drop_table (t_name old_table);
                    ("ALTER TABLE " ++ q (t_name new_table) ++ " RENAME TO " ++ q tbl ++ ";")%string] in
      Ok (join nl stmts, replace_table current (rename new_table (t_name old_table)))
  end.
Definition turso_sql_for_op := sql_for_op turso_create_table turso_change_column.
Definition turso_migration_sql (current : ADB) (ops : list Operation) : outcome string :=
  do l <- lines_for_ops turso_sql_for_op current ops; Ok (script_of_lines l).
End Render.

(** [str::split(';')] *)
Fixpoint split_semi (s : string) : list string :=
  match s with
  | "" => [""]
  | String c r => if Ascii.eqb c ";" then "" :: split_semi r
                  else match split_semi r with
                       | x :: l => String c x :: l
                       | [] => [String c ""]
                       end
  end%string.
(** [str::trim], for the white space that is ASCII *)
Definition is_ws (c : ascii) : bool :=
  match c with " " | "009" | "010" | "011" | "012" | "013" => true | _ => false end%char.
Fixpoint trim_start (s : string) : string :=
  match s with
  | String c r => if is_ws c then trim_start r else s
  | "" => ""
  end%string.
Fixpoint trim_end (s : string) : string :=
  match s with
  | "" => ""
  | String c r => match trim_end r with
                  | "" => if is_ws c then "" else String c ""
                  | r' => String c r'
                  end
  end%string.
Definition trim (s : string) : string := trim_end (trim_start s).
(** [execute], turso.rs:322-335: the statements it sends, one by one. *)
Definition turso_statements (sql : string) : list string :=
  filter (fun s => negb (String.eqb s "")) (map trim (split_semi sql)).
