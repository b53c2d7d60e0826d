(** The connection's methods that change rows, on SQLite.
    Models butane_core/src/db/sqlite.rs:284-390 (and the same methods of
    butane_core/src/db/turso.rs, whose statements and parameters are the same; there a
    filter with a subquery is first rewritten, see [Turso]). *)
From Verif Require Import Base SqlVal Sql SqlStmt Query Stmt LiteralSpec Ddl Backend Turso SqliteSem SqliteData.

(** A call: the method and its arguments.  A column is represented by its name.
    [insert_returning_pk] sends the statement of [insert_only] and then reads the key. *)
Inductive call :=
| InsertOnly (table : string) (cols : list string) (values : list SqlVal)
| InsertOrReplace (table : string) (cols : list string) (pk : string) (values : list SqlVal)
| UpdateRow (table pk : string) (key : SqlVal) (cols : list string) (values : list SqlVal)
| DeleteWhere (table : string) (e : BoolExpr).

(** The text and the parameters: sqlite.rs:291-302,315-329 (insert), 330-342 (upsert),
    343-367 (update), 368-390 (delete). *)
Definition call_sql (kw : string -> bool) (c : call) : outcome (string * list SqlVal) :=
  match c with
  | InsertOnly t cols vs => do s <- insert_sql Sqlite kw t cols ; Ok (s, vs)
  | InsertOrReplace t cols pk vs => Ok (upsert_sql Sqlite kw t cols pk, vs)
  | UpdateRow t pk k cols vs => do s <- update_sql Sqlite kw t pk cols ; Ok (s, update_values vs k)
  | DeleteWhere t e => delete_sql Sqlite kw (set_filter e (q_new t))
  end.

Section Call.
Variable kw : string -> bool.
Variable dl : dialect.
Variable conv : bool -> list string -> lvalue -> option lvalue.
Variable veq : lvalue -> lvalue -> bool.
Variable read : bool -> string -> f64.
Variable E : engine.
Variable fresh : etab -> Z.

(** [self.execute(&sql, params)]: the parameters are converted (sqlite.rs:513-541), the
    engine reads the text and runs the statement.  [DbError 2]: the text is no statement;
    [DbError 1]: the engine refuses it. *)
Definition data_call (db : edb) (c : call) : outcome edb :=
  do sv <- call_sql kw c ;
  do ps <- collect_all sqlite_write (snd sv) ;
  match parse_stmt dl (fst sv) with
  | None => Err (DbError 2)
  | Some st => match change conv veq read E fresh db (snd sv) st with
               | Some db' => Ok db'
               | None => Err (DbError 1)
               end
  end.

(** The rows of a query, converted with the kinds of the columns asked for
    (sqlite.rs:618-660). *)
Definition read_row (json_text : string -> option string) (tys : list SqlType) (r : list SqlVal) : outcome (list SqlVal) :=
  collect_all (fun p => do l <- sqlite_write (snd p) ; sqlite_read json_text l (fst p)) (combine tys r).

(** Call after call; a statement that is refused changes nothing. *)
Definition after_call (db : edb) (c : call) : edb := match data_call db c with Ok db' => db' | _ => db end.
Definition after_calls (db : edb) (cs : list call) : edb := fold_left after_call cs db.
End Call.
