(** Saving, getting, querying and deleting objects on a Turso connection.
    The code of Saved.v, Loaded.v and Related.v with the methods of
    butane_core/src/db/turso.rs:176-566 and the queries of Turso.v. *)
From Verif Require Import Base SqlVal Adb Sql SqlStmt Query Stmt LiteralSpec Ddl Backend Turso SqliteSem SqliteData SqliteKey
  DataCalls KeyCall Conn Many Codegen Obj Saved Loaded Related.

(** The text has a SELECT. *)
Definition has_select (s : string) : bool := existsb (is_kw "SELECT") (tokens s).

Section Changes.
Variable json_text : string -> option string.
Variable kw : string -> bool.
Variable dl : dialect.
Variable conv : bool -> list string -> lvalue -> option lvalue.
Variable veq : lvalue -> lvalue -> bool.
Variable read : bool -> string -> f64.
Variable E : engine.
Variable fresh : etab -> Z.

(** turso.rs:469-566.  The texts are those of sqlite.rs, see [call_sql]; the parameters are
    converted (755-780) and the statement is executed.  The engine takes no statement with
    a subquery (the comment at 176-177 and 347); the filter of [delete_where] is not transformed.
    A statement that is refused changes nothing.  Simplified: the error is that of
    [data_call], where the code wraps the engine's message. *)
Definition turso_run (c : call) (db : edb) : outcome unit * edb :=
  match call_sql kw c with
  | Err e => (Err e, db)
  | Panic => (Panic, db)
  | Ok (s, vs) =>
      match collect_all sqlval_to_turso vs with
      | Err e => (Err e, db)
      | Panic => (Panic, db)
      | Ok _ =>
          if has_select s then (Err (DbError 1), db)
          else match parse_stmt dl s with
               | None => (Err (DbError 2), db)
               | Some st => match change conv veq read E fresh db vs st with
                            | Some db' => (Ok tt, db')
                            | None => (Err (DbError 1), db)
                            end
               end
      end
  end.
(** turso.rs:418-566 *)
Definition turso_methods : methods edb :=
  {| on_insert_only := fun t cols vs => turso_run (InsertOnly t cols vs);
     on_insert_returning_pk := fun t cols _ ty vs db => turso_insert_returning_pk json_text kw dl conv veq read E fresh db t cols ty vs;
     on_insert_or_replace := fun t cols pk vs => turso_run (InsertOrReplace t cols pk vs);
     on_update := fun t pk kv cols vs => turso_run (UpdateRow t pk kv cols vs);
     on_delete_where := fun t e => turso_run (DeleteWhere t e) |}.
(** query/mod.rs:291-294 *)
Definition turso_delete_query (x : Query) (db : edb) : outcome unit * edb :=
  turso_run (DeleteWhere (q_table x) (match q_filter x with Some e => e | None => BTrue end)) db.
End Changes.

Section Queries.
Context {U X : Type}.
Variable json_text : string -> option string.
Variable kw : string -> bool.
Variable C : Type.
Variable conn_query : C -> string -> list tvalue -> outcome (list (list tvalue)) * C.
Variable sem : ty -> codec U.
Variable valid : U -> bool.
Variable g : dbobject.
Notation object := (@object U (many X)).
Notation tcols := (map (fun c => (fst c, cd_type _ (sem (snd c)))) (dr_columns (do_result g))).

(** turso.rs:404-412: the columns asked for, by position; the message of the error is left out. *)
Fixpoint turso_read_row (tys : list SqlType) (r : list tvalue) : outcome (list SqlVal) :=
  match tys, r with
  | [], _ => Ok []
  | ty :: tys, v :: r =>
      do x <- turso_value_to_sqlval_typed json_text v ty ; do xs <- turso_read_row tys r ; Ok (x :: xs)
  | _ :: _, [] => Err (Internal "")
  end.
(** turso.rs:337-416 with the limit of the query. *)
Definition turso_rows (c : C) (cols : list (string * SqlType)) (x : Query) : outcome (list (list SqlVal) * C) :=
  do rc <- turso_query kw C conn_query c (map fst cols) x (q_limit x) ;
  do rows <- collect_all (turso_read_row (map snd cols)) (fst rc) ;
  Ok (rows, snd rc).
(** query/mod.rs:284-290 *)
Definition turso_load (c : C) (x : Query) : outcome (list object * C) :=
  do rc <- turso_rows c tcols x ; do l <- omapm (object_of_row sem g) (fst rc) ; Ok (l, snd rc).
(** query/mod.rs:278-283 *)
Definition turso_load_first (c : C) (x : Query) : outcome (option object * C) :=
  do rc <- turso_rows c tcols (set_limit 1 x) ;
  match fst rc with
  | [] => Ok (None, snd rc)
  | row :: _ => do o <- object_of_row sem g row ; Ok (Some o, snd rc)
  end.
(** lib.rs:133-158 *)
Definition turso_try_get (c : C) (id : SqlVal) : outcome (option object * C) :=
  do lc <- turso_load c (set_limit 1 (set_filter (BEq (do_pkcol g) (EVal id)) (q_new (do_table g)))) ;
  Ok (nth_error (fst lc) 0, snd lc).
Definition turso_get (c : C) (id : SqlVal) : outcome (object * C) :=
  do oc <- turso_try_get c id ;
  match fst oc with Some o => Ok (o, snd oc) | None => Err NoSuchObject end.
(** many.rs:144-164 *)
Definition turso_uncached (c : C) (m : many object) (x : Query) : outcome (list object * C) :=
  do lc <- turso_load c x ;
  match m_new m with
  | [] => Ok lc
  | _ :: _ =>
      do rc <- turso_load (snd lc) (set_filter (BIn (do_pkcol g) (m_new m)) (q_new (do_table g))) ;
      Ok (fst lc ++ fst rc, snd rc)
  end.
(** many.rs:177-188 with util.rs:5-15, and many.rs:297-332, as in Related.v. *)
Definition turso_many_load (c : C) (m : many object) (order : option bool) : outcome (list object * C) * many object :=
  match many_query (related_model sem valid g) m with
  | Ok x =>
      match m_all m with
      | Some l => (Ok (l, c), m)
      | None =>
          let r := turso_uncached c m (match order with None => x | Some desc => add_order (do_pkcol g) desc x end) in
          (r, match r with Ok (l, _) => set_all m (Some l) | _ => m end)
      end
  | _ => (Ok ([], c), m)
  end.
End Queries.
