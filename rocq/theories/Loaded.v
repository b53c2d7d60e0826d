(** Running a query of a model on SQLite: QueryOps, butane_core/src/query/mod.rs:211-296. *)
From Verif Require Import Base SqlVal Adb Sql SqlStmt Query Stmt Ddl SqliteSem SqliteData Backend DataCalls Conn Many Codegen Obj Saved.

Section Loaded.
Context {U X : Type}.
Variable json_text : string -> option string.
Variable kw : string -> bool.
Variable dl : dialect.
Variable conv : bool -> list string -> lvalue -> option lvalue.
Variable veq : lvalue -> lvalue -> bool.
Variable read : bool -> string -> f64.
Variable E : engine.
Variable fresh : etab -> Z.
Variable sem : ty -> codec U.
Variable g : dbobject.
Notation object := (@object U (many X)).
Notation tcols := (map (fun c => (fst c, cd_type _ (sem (snd c)))) (dr_columns (do_result g))).

(** load, query/mod.rs:284-290: the query's limit is passed on, and every row is converted.
    Simplified: that a row that cannot be converted ends the reading of the rows is not
    seen, as there is nothing else to see of it. *)
Definition sqlite_load_answers (x : Query) (db : edb) (r : outcome (list object)) : Prop :=
  exists q, sqlite_query_answers json_text kw dl E tcols x db q /\ r = obind q (omapm (object_of_row sem g)).
(** load_first, query/mod.rs:278-283: the limit is one whatever the query says, and the
    first row is converted, if there is one. *)
Definition sqlite_load_first_answers (x : Query) (db : edb) (r : outcome (option object)) : Prop :=
  exists q, sqlite_query_answers json_text kw dl E tcols (set_limit 1 x) db q
    /\ r = obind q (fun l => match l with [] => Ok None | row :: _ => omap Some (object_of_row sem g row) end).
(** delete, query/mod.rs:291-294, with sqlite.rs:373-389. The number of rows deleted, which
    it returns, is left out. *)
Definition sqlite_delete_query (x : Query) (db : edb) : outcome unit * edb :=
  sqlite_run kw dl conv veq read E fresh (DeleteWhere (q_table x) (match q_filter x with Some e => e | None => BTrue end)) db.
End Loaded.
