(** Inserting a row and returning its key, on SQLite and Turso.
    Models butane_core/src/db/sqlite.rs:284-313 and butane_core/src/db/turso.rs:418-468. *)
From Verif Require Import Base SqlVal Sql SqlStmt Query Stmt LiteralSpec Ddl Backend Turso SqliteSem SqliteData SqliteKey DataCalls.

Section Key.
Variable json_text : string -> option string.
Variable kw : string -> bool.
Variable dl : dialect.
Variable conv : bool -> list string -> lvalue -> option lvalue.
Variable veq : lvalue -> lvalue -> bool.
Variable read : bool -> string -> f64.
Variable E : engine.
Variable fresh : etab -> Z.

(** The text of the second statement: sqlite.rs:305-309. *)
Definition key_text (table pk : string) : string :=
  "SELECT " ++ quote_reserved_word kw pk ++ " FROM " ++ quote_reserved_word kw table
  ++ " WHERE ROWID = last_insert_rowid()".

(** [query_row_and_then], sqlite.rs:304-311: the first row; [DbError 3] when there is none
    (rusqlite's [QueryReturnedNoRows]).  [DbError 2] and [DbError 1] as in [data_call]. *)
Definition read_key (db db' : edb) (table pk : string) (ty : SqlType) : outcome SqlVal :=
  match parse_by_number dl (key_text table pk) with
  | None => Err (DbError 2)
  | Some (c, t) =>
      match mget t db, mget t db' with
      | Some b, Some b' =>
          match col_at b' c, last_number fresh b b' with
          | Some _, Some z =>
              match by_number veq b' z with
              | r :: _ => match get r c with Some l => sqlite_read json_text l ty | None => Err (DbError 1) end
              | [] => Err (DbError 3)
              end
          | _, _ => Err (DbError 1)
          end
      | _, _ => Err (DbError 1)
      end
  end.
(** [insert_returning_pk], sqlite.rs:284-313.  [ty] is the key column's type.  The row
    stays inserted when reading its key fails. *)
Definition insert_returning_pk (db : edb) (table : string) (cols : list string) (pk : string) (ty : SqlType) (vs : list SqlVal)
  : outcome SqlVal * edb :=
  match data_call kw dl conv veq read E fresh db (InsertOnly table cols vs) with
  | Ok db' => (read_key db db' table pk ty, db')
  | Err e => (Err e, db)
  | Panic => (Panic, db)
  end.

(** turso.rs:445: the text of the second statement. *)
Definition turso_key_text : string := "SELECT last_insert_rowid()".
(** turso.rs:446-467: the number, as a value of the key's kind. *)
Definition turso_read_key (db db' : edb) (table : string) (ty : SqlType) : outcome SqlVal :=
  if parse_last turso_key_text then
    match mget table db, mget table db' with
    | Some b, Some b' =>
        match last_number fresh b b' with
        | Some z => turso_value_to_sqlval_typed json_text (TvInteger z) ty
        | None => Err (DbError 1)
        end
    | _, _ => Err (DbError 1)
    end
  else Err (DbError 2).
(** [insert_returning_pk], turso.rs:418-468 (the parameters as in [data_call]) *)
Definition turso_insert_returning_pk (db : edb) (table : string) (cols : list string) (ty : SqlType) (vs : list SqlVal)
  : outcome SqlVal * edb :=
  match data_call kw dl conv veq read E fresh db (InsertOnly table cols vs) with
  | Ok db' => (turso_read_key db db' table ty, db')
  | Err e => (Err e, db)
  | Panic => (Panic, db)
  end.
End Key.
