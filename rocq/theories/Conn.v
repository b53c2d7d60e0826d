(** The operations of a connection, down to the statements they send.
    Models the row operations of butane_core/src/db/connmethods.rs:31-103 as
    implemented in db/sqlite.rs:227-398 and db/pg.rs:160-348.  The statement text
    is the one generated in Stmt.v; the engine parses and executes it as in
    SqlStmt.v. *)
From Verif Require Import Base SqlVal Backend Sql SqlStmt Query Stmt.

(** What becomes of the next statement: the engine may refuse any statement, or
    perform it and lose the answer.  (Connection failures, constraint violations,
    a full disk, ...) *)
Inductive fate := Works | Refused | Lost.
Record world := { w_db : db; w_fate : list fate }.
Definition next_fate (w : world) : fate := match w_fate w with [] => Works | f :: _ => f end.
Definition after (w : world) (D : db) : world := {| w_db := D; w_fate := tl (w_fate w) |}.

Section Conn.
Variables (d : dialect) (kw : string -> bool) (b : backend) (E : engine).
(** What the engine puts into the columns an INSERT leaves out, given the
    database at that moment. *)
Variable gen : db -> string -> list string -> row.

(** One statement.  The engine's answer is not interpreted. *)
Definition run_stmt (text : outcome string) (vs : list SqlVal) (w : world) : outcome (option SqlVal) * world :=
  match text with
  | Err e => (Err e, w)
  | Panic => (Panic, w)
  | Ok s =>
      match next_fate w with
      | Refused => (Err (DbError 0), after w (w_db w))
      | f =>
          match parse_stmt d s with
          | None => (Err (DbError 1), after w (w_db w))
          | Some st =>
              match exec E (gen (w_db w)) (w_db w) vs st with
              | None => (Err (DbError 1), after w (w_db w))
              | Some (D', r) => (match f with Lost => Err (DbError 0) | _ => Ok r end, after w D')
              end
          end
      end
  end.
Definition done {A} (x : outcome A * world) : outcome unit * world := (omap (fun _ => tt) (fst x), snd x).

(** sqlite.rs:315-328, pg.rs:261-281 *)
Definition conn_insert_only (t : string) (cols : list string) (vs : list SqlVal) (w : world) : outcome unit * world :=
  done (run_stmt (insert_sql b kw t cols) vs w).
(** sqlite.rs:284-314: a second statement selects the key of the row whose ROWID
    is last_insert_rowid(), the row just inserted (modelled as the last one);
    pg.rs:227-260: RETURNING. *)
Definition conn_insert_returning_pk (t : string) (cols : list string) (pk : string) (vs : list SqlVal) (w : world)
  : outcome SqlVal * world :=
  match run_stmt (insert_returning_sql b kw t cols pk) vs w with
  | (Ok r, w') =>
      match b with
      | Pg _ => (match r with Some v => Ok v | None => Err (Internal "could not get pk") end, w')
      | Sqlite =>
          (match next_fate w' with
           | Works => match field pk (last (w_db w' t) []) with Some v => Ok v | None => Err (DbError 1) end
           | _ => Err (DbError 0)
           end, after w' (w_db w'))
      end
  | (Err e, w') => (Err e, w')
  | (Panic, w') => (Panic, w')
  end.
(** sqlite.rs:329-342, pg.rs:282-294 *)
Definition conn_insert_or_replace (t : string) (cols : list string) (pk : string) (vs : list SqlVal) (w : world)
  : outcome unit * world :=
  done (run_stmt (Ok (upsert_sql b kw t cols pk)) vs w).
(** sqlite.rs:343-367, pg.rs:295-321 *)
Definition conn_update (t pk : string) (kv : SqlVal) (cols : list string) (vs : list SqlVal) (w : world)
  : outcome unit * world :=
  done (run_stmt (update_sql b kw t pk cols) (update_values vs kv) w).
(** sqlite.rs:368-390, pg.rs:327-348.  The number of rows is not modelled. *)
Definition conn_delete_where (t : string) (e : BoolExpr) (w : world) : outcome unit * world :=
  match delete_sql b kw (set_filter e (q_new t)) with
  | Ok (s, vs) => done (run_stmt (Ok s) vs w)
  | Err e => (Err e, w)
  | Panic => (Panic, w)
  end.
(** connmethods.rs:90-94, pg.rs:322-326 *)
Definition conn_delete (t pk : string) (kv : SqlVal) (w : world) : outcome unit * world :=
  conn_delete_where t (BEq pk (EVal kv)) w.

(** query/mod.rs:284-290 with sqlite.rs:236-283 and pg.rs:175-226: the rows.  The
    engine may choose among the results the statement allows. *)
Definition query_answers (cols : list string) (x : Query) (w : world)
  (r : outcome (list (list SqlVal))) (w' : world) : Prop :=
  match load_sql b kw cols x with
  | Err e => r = Err e /\ w' = w
  | Panic => r = Panic /\ w' = w
  | Ok (s, vs) =>
      w' = after w (w_db w) /\
      match next_fate w, parse_stmt d s with
      | Works, Some (Select sel) =>
          (exists out, r = Ok out /\ select_returns d E (w_db w) vs sel out)
          \/ (r = Err (DbError 1) /\ forall out, ~ select_returns d E (w_db w) vs sel out)
      | Works, _ => r = Err (DbError 1)
      | _, _ => r = Err (DbError 0)
      end
  end.
(** connmethods.rs:226-243: a row presents its values by position and checks the
    type asked for. *)
Definition row_of (values : list SqlVal) (i : nat) (ty : SqlType) : outcome SqlVal :=
  row_get values i ty BoundsError.
End Conn.
