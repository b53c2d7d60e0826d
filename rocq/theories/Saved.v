(** Saving, getting and deleting objects on a SQLite connection.
    The code of Obj.v and Many.v over the methods of any connection: models
    butane_core/src/lib.rs:118-236, butane_core/src/many.rs:247-269 and
    butane_core/src/codegen/dbobj.rs:431-459 once more, and with the methods of
    butane_core/src/db/sqlite.rs:227-398 as in DataCalls.v and KeyCall.v. *)
From Verif Require Import Base SqlVal Adb Sql SqlStmt Query Stmt LiteralSpec Ddl Backend Turso SqliteSem SqliteData SqliteKey
  DataCalls KeyCall Conn Many Codegen Obj.

(** The methods of a connection that change rows (connmethods.rs:31-103).  A column is
    represented by its name, the key column by its name and type. *)
Record methods (W : Type) := {
  on_insert_only : string -> list string -> list SqlVal -> W -> outcome unit * W;
  on_insert_returning_pk : string -> list string -> string -> SqlType -> list SqlVal -> W -> outcome SqlVal * W;
  on_insert_or_replace : string -> list string -> string -> list SqlVal -> W -> outcome unit * W;
  on_update : string -> string -> SqlVal -> list string -> list SqlVal -> W -> outcome unit * W;
  on_delete_where : string -> BoolExpr -> W -> outcome unit * W }.
Arguments on_insert_only {W}. Arguments on_insert_returning_pk {W}. Arguments on_insert_or_replace {W}.
Arguments on_update {W}. Arguments on_delete_where {W}.

Section Over.
Context {W U X : Type}.
Variable C : methods W.
Variable sem : ty -> codec U.
Variable valid : U -> bool.
Variable init : U -> SqlVal -> outcome unit * U.
Variable g : dbobject.
Notation object := (@object U (many X)).
Notation cols := (map fst (dr_columns (do_result g))).
Notation key_type := (cd_type _ (sem (sf_ty (do_pk g)))).

(** many.rs:249-260 *)
Fixpoint insert_new_on (t : string) (owner : SqlVal) (l : list SqlVal) (w : W) : outcome unit * list SqlVal * W :=
  match l with
  | [] => (Ok tt, [], w)
  | v :: r =>
      match on_insert_only C t many_columns [owner; v] w with
      | (Ok _, w') => insert_new_on t owner r w'
      | (e, w') => (e, r, w')
      end
  end.
(** many.rs:247-269 *)
Definition many_save_on (m : many X) (w : W) : outcome unit * many X * W :=
  match m_owner m with
  | None => (Err NotInitialized, m, w)
  | Some owner =>
      match insert_new_on (m_table m) owner (rev (m_new m)) w with
      | (Ok _, rest, w) =>
          match m_removed m with
          | [] => (Ok tt, set_pending m [] [], w)
          | l =>
              match on_delete_where C (m_table m) (BIn "has" l) w with
              | (e, w') => (e, set_pending m [] [], w')
              end
          end
      | (e, rest, w) => (e, set_pending m (rev rest) (m_removed m), w)
      end
  end.
(** dbobj.rs:431-459 *)
Fixpoint save_manys_on (l : list (string * string)) (o : object) (w : W) : outcome unit * object * W :=
  match l with
  | [] => (Ok tt, o, w)
  | (f, t) :: r =>
      match obj_get o f with
      | Some (FM m) =>
          match field_sql sem o (do_pk g) with
          | Ok owner =>
              match many_save_on (ensure_init m t owner key_type) w with
              | (Ok _, m', w') => save_manys_on r (obj_set o f (FM m')) w'
              | (e, m', w') => (e, obj_set o f (FM m'), w')
              end
          | Err e => (Err e, o, w)
          | Panic => (Panic, o, w)
          end
      | _ => (Panic, o, w)
      end
  end.
(** lib.rs:177-184, 203-213 *)
Definition insert_and_init_on (icols : list string) (vs : outcome (list SqlVal)) (o : object) (u : U) (w : W)
  : outcome unit * object * W :=
  match vs with
  | Err e => (Err e, o, w)
  | Panic => (Panic, o, w)
  | Ok vs =>
      match on_insert_returning_pk C (do_table g) icols (do_pkcol g) key_type vs w with
      | (Ok kv, w') =>
          match init u kv with
          | (r, u') => (r, obj_set o (sf_ident (do_pk g)) (FV u'), w')
          end
      | (Err e, w') => (Err e, o, w')
      | (Panic, w') => (Panic, o, w')
      end
  end.
(** lib.rs:171-219 *)
Definition save_row_on (o : object) (w : W) : outcome unit * object * W :=
  match obj_key g o with
  | None => (Panic, o, w)
  | Some u =>
      if do_auto g && Nat.eqb (List.length (dr_columns (do_result g))) 1 then
        if valid u then (Ok tt, o, w) else insert_and_init_on [] (Ok []) o u w
      else if do_auto g then
        if valid u then
          match field_sql sem o (do_pk g), non_auto_values sem g o false with
          | Ok kv, Ok vs =>
              let (r, w') := on_update C (do_table g) (do_pkcol g) kv (map fst (do_insert g)) vs w in (r, o, w')
          | Err e, _ | Ok _, Err e => (Err e, o, w)
          | _, _ => (Panic, o, w)
          end
        else insert_and_init_on (map fst (do_insert g)) (non_auto_values sem g o true) o u w
      else
        match non_auto_values sem g o true with
        | Ok vs => let (r, w') := on_insert_or_replace C (do_table g) cols (do_pkcol g) vs w in (r, o, w')
        | Err e => (Err e, o, w)
        | Panic => (Panic, o, w)
        end
  end.
(** lib.rs:166-224 *)
Definition save_on (o : object) (w : W) : outcome unit * object * W :=
  match save_row_on o w with
  | (Ok _, o, w) => save_manys_on (do_save_many g) o w
  | x => x
  end.
(** lib.rs:227-232 with connmethods.rs:90-94 *)
Definition delete_on (o : object) (w : W) : outcome unit * W :=
  match field_sql sem o (do_pk g) with
  | Ok kv => on_delete_where C (do_table g) (BEq (do_pkcol g) (EVal kv)) w
  | Err e => (Err e, w)
  | Panic => (Panic, w)
  end.
End Over.

(** The methods of Conn.v. *)
Definition conn_methods (d : dialect) (kw : string -> bool) (b : backend) (E : engine)
    (gen : db -> string -> list string -> Sql.row) : methods world :=
  {| on_insert_only := conn_insert_only d kw b E gen;
     on_insert_returning_pk := fun t cols pk _ vs w => conn_insert_returning_pk d kw b E gen t cols pk vs w;
     on_insert_or_replace := conn_insert_or_replace d kw b E gen;
     on_update := conn_update d kw b E gen;
     on_delete_where := conn_delete_where d kw b E gen |}.

Section Sqlite.
Variable json_text : string -> option string.
Variable kw : string -> bool.
Variable dl : dialect.
Variable conv : bool -> list string -> lvalue -> option lvalue.
Variable veq : lvalue -> lvalue -> bool.
Variable read : bool -> string -> f64.
Variable E : engine.
Variable fresh : etab -> Z.

(** A statement that is refused changes nothing. *)
Definition sqlite_run (c : call) (db : edb) : outcome unit * edb :=
  match data_call kw dl conv veq read E fresh db c with
  | Ok db' => (Ok tt, db')
  | Err e => (Err e, db)
  | Panic => (Panic, db)
  end.
(** sqlite.rs:284-390 *)
Definition sqlite_methods : methods edb :=
  {| on_insert_only := fun t cols vs => sqlite_run (InsertOnly t cols vs);
     on_insert_returning_pk := fun t cols pk ty vs db => insert_returning_pk json_text kw dl conv veq read E fresh db t cols pk ty vs;
     on_insert_or_replace := fun t cols pk vs => sqlite_run (InsertOrReplace t cols pk vs);
     on_update := fun t pk kv cols vs => sqlite_run (UpdateRow t pk kv cols vs);
     on_delete_where := fun t e => sqlite_run (DeleteWhere t e) |}.

(** query/mod.rs:284-290 with sqlite.rs:236-283, 513-541 and 618-660: the parameters are
    converted, the engine chooses among the results the statement allows, and the
    values are converted with the types of the columns.  The row presents its values by
    position and checks the type asked for (connmethods.rs:226-243). *)
Definition sqlite_query_answers (cols : list (string * SqlType)) (x : Query) (db : edb) (r : outcome (list (list SqlVal))) : Prop :=
  match load_sql Sqlite kw (map fst cols) x with
  | Err e => r = Err e
  | Panic => r = Panic
  | Ok (s, vs) =>
      match collect_all sqlite_write vs with
      | Ok _ =>
          match parse_stmt dl s with
          | Some (Select sel) =>
              (exists out, select_returns dl E (shown_db db) vs sel out
                 /\ r = collect_all (read_row json_text (map snd cols)) out)
              \/ (r = Err (DbError 1) /\ forall out, ~ select_returns dl E (shown_db db) vs sel out)
          | _ => r = Err (DbError 1)
          end
      | Err e => r = Err e
      | Panic => r = Panic
      end
  end.
Context {U X : Type}.
Variable sem : ty -> codec U.
Variable g : dbobject.
(** lib.rs:143-158 *)
Definition sqlite_try_get_answers (id : SqlVal) (db : edb) (r : outcome (option (@object U (many X)))) : Prop :=
  exists q, sqlite_query_answers (map (fun c => (fst c, cd_type _ (sem (snd c)))) (dr_columns (do_result g)))
              (set_limit 1 (set_filter (BEq (do_pkcol g) (EVal id)) (q_new (do_table g)))) db q
    /\ r = omap (fun l => nth_error l 0) (obind q (omapm (object_of_row sem g))).
(** lib.rs:133-139 *)
Definition sqlite_get_answers (id : SqlVal) (db : edb) (r : outcome (@object U (many X))) : Prop :=
  exists x, sqlite_try_get_answers id db x
    /\ r = obind x (fun x => match x with Some o => Ok o | None => Err NoSuchObject end).
End Sqlite.
