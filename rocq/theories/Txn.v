(** Transactions.
    Models the transaction objects of the three backends: db/mod.rs:318-412,
    db/sqlite.rs:211-215 and 399-499, db/pg.rs:117-121 and 360-412,
    db/turso.rs:586-591 and 606-752. *)
From Verif Require Import Base.

Inductive txkind := TxSqlite | TxPg | TxTurso.
Definition is_pg (k : txkind) : bool := match k with TxPg => true | _ => false end.

Section Txn.
(** Contents of a database. *)
Context {D : Type}.
(** Whether the constraints checked at commit hold. *)
Variable fits : D -> bool.

(** What the database makes of a statement: new contents, or a refusal. *)
Definition stmt := D -> option D.

(** * The database servers (not butane's code)

    What other connections see, the contents as seen inside the open transaction of
    this connection, and whether a statement of it failed. *)
Record server := { sv_db : D; sv_open : option D; sv_failed : bool }.
Definition quiet (d : D) : server := {| sv_db := d; sv_open := None; sv_failed := false |}.

Inductive command := CBegin | CCommit | CRollback | CStmt (f : stmt).

(** SQLite and Turso keep a transaction open after a failed statement and after a
    refused COMMIT, and refuse BEGIN inside and COMMIT or ROLLBACK outside a
    transaction.  PostgreSQL refuses all statements after a failed one until the
    transaction ends, answers a COMMIT of such a transaction by rolling it back,
    rolls back when a COMMIT fails, and only warns about the others. *)
Definition serve (k : txkind) (c : command) (s : server) : bool * server :=
  match c, sv_open s with
  | CBegin, None => (true, {| sv_db := sv_db s; sv_open := Some (sv_db s); sv_failed := false |})
  | CBegin, Some _ => (is_pg k, s)
  | CCommit, None => (is_pg k, s)
  | CCommit, Some w =>
      if sv_failed s then (true, quiet (sv_db s))
      else if fits w then (true, quiet w)
      else (false, if is_pg k then quiet (sv_db s) else s)
  | CRollback, None => (is_pg k, s)
  | CRollback, Some _ => (true, quiet (sv_db s))
  | CStmt f, None => match f (sv_db s) with Some d => (true, quiet d) | None => (false, s) end
  | CStmt f, Some w =>
      if sv_failed s then (false, s)
      else match f w with
           | Some w' => (true, {| sv_db := sv_db s; sv_open := Some w'; sv_failed := false |})
           | None => (false, {| sv_db := sv_db s; sv_open := Some w; sv_failed := is_pg k |})
           end
  end.

(** What happens to a command on its way: it arrives and its answer comes back; it
    does not arrive; it arrives but the answer is lost. *)
Inductive delivery := Delivered | NotSent | ReplyLost.
Record link := { l_server : server; l_fate : list delivery }.
Definition fate_of (w : link) : delivery := match l_fate w with x :: _ => x | [] => Delivered end.

Definition send (k : txkind) (c : command) (w : link) : outcome unit * link :=
  let rest := List.tl (l_fate w) in
  let (ok, s) := serve k c (l_server w) in
  match fate_of w with
  | Delivered => (if ok then Ok tt else Err (DbError 1), {| l_server := s; l_fate := rest |})
  | NotSent => (Err (DbError 0), {| l_server := l_server w; l_fate := rest |})
  | ReplyLost => (Err (DbError 2), {| l_server := s; l_fate := rest |})
  end.

(** * Transaction objects *)

(** The [Option] holding the driver's transaction, and Turso's [committed] flag. *)
Record txn := { tx_live : bool; tx_committed : bool }.

(** sqlite.rs:418-420, pg.rs:374-376, turso.rs:626-628 *)
Definition consumed (k : txkind) : error :=
  match k with
  | TxTurso => Internal "Transaction already consumed"
  | _ => Internal "transaction has already been consumed"
  end.

(** Dropping rusqlite's transaction rolls back if the connection is in one
    (default [DropBehavior::Rollback]); an error is ignored. *)
Definition rusqlite_drop (w : link) : link :=
  match sv_open (l_server w) with
  | None => w
  | Some _ => snd (send TxSqlite CRollback w)
  end.

(** sqlite.rs:211-215, pg.rs:117-121, turso.rs:586-591 *)
Definition tx_begin (k : txkind) (w : link) : outcome txn * link :=
  match send k CBegin w with
  | (Ok _, w') => (Ok {| tx_live := true; tx_committed := false |}, w')
  | (Err e, w') => (Err e, w')
  | (Panic, w') => (Panic, w')
  end.

(** Every method that runs a statement: sqlite.rs:422-479, pg.rs (through
    [PgConnectionLike::client]), turso.rs:631-704. *)
Definition tx_do (k : txkind) (f : stmt) (t : txn) (w : link) : outcome unit * link :=
  if tx_live t then send k (CStmt f) w else (Err (consumed k), w).

(** sqlite.rs:482-487, pg.rs:392-397, turso.rs:709-714.  The driver's transaction
    is taken out first and dropped at the end. *)
Definition tx_commit (k : txkind) (t : txn) (w : link) : outcome unit * txn * link :=
  if tx_live t then
    let (r, w1) := send k CCommit w in
    match k with
    | TxSqlite => (r, {| tx_live := false; tx_committed := false |}, rusqlite_drop w1)
    | TxPg => (r, {| tx_live := false; tx_committed := false |}, w1)
    | TxTurso => (r, {| tx_live := false; tx_committed := match r with Ok _ => true | _ => false end |}, w1)
    end
  else (Err (consumed k), t, w).

(** sqlite.rs:488-493, pg.rs:399-404, turso.rs:716-720 *)
Definition tx_rollback (k : txkind) (t : txn) (w : link) : outcome unit * txn * link :=
  if tx_live t then
    let (r, w1) := send k CRollback w in
    match k with
    | TxSqlite => (r, {| tx_live := false; tx_committed := false |}, rusqlite_drop w1)
    | _ => (r, {| tx_live := false; tx_committed := tx_committed t |}, w1)
    end
  else (Err (consumed k), t, w).

(** The tokio runtime around the drop of a Turso transaction. *)
Inductive runtime := NoRuntime | CurrentThread | MultiThread.

(** Dropping: rusqlite and tokio-postgres roll back a transaction that is still
    there; Turso's in turso.rs:727-750 ([block_in_place] panics on a
    current-thread runtime). *)
Definition tx_drop (k : txkind) (rt : runtime) (t : txn) (w : link) : outcome unit * link :=
  if tx_live t then
    match k with
    | TxSqlite => (Ok tt, rusqlite_drop w)
    | TxPg => (Ok tt, snd (send TxPg CRollback w))
    | TxTurso =>
        if tx_committed t then (Ok tt, w)
        else match rt with
             | MultiThread => (Ok tt, snd (send TxTurso CRollback w))
             | CurrentThread => (Panic, w)
             | NoRuntime => (Ok tt, w)
             end
    end
  else (Ok tt, w).

(** What a program does with a transaction, in any order, before dropping it. *)
Inductive call := Do (f : stmt) | Commit | Rollback.
Definition tx_call (k : txkind) (c : call) (t : txn) (w : link) : outcome unit * txn * link :=
  match c with
  | Do f => let (r, w') := tx_do k f t w in (r, t, w')
  | Commit => tx_commit k t w
  | Rollback => tx_rollback k t w
  end.
Fixpoint tx_calls (k : txkind) (cs : list call) (t : txn) (w : link) : list (outcome unit) * txn * link :=
  match cs with
  | [] => ([], t, w)
  | c :: rest =>
      let '(r, t1, w1) := tx_call k c t w in
      let '(rs, t2, w2) := tx_calls k rest t1 w1 in
      (r :: rs, t2, w2)
  end.
(** Begin, calls, drop. *)
Definition whole (k : txkind) (rt : runtime) (cs : list call) (w : link) : outcome (list (outcome unit)) * link :=
  match tx_begin k w with
  | (Ok t, w1) =>
      let '(rs, t2, w2) := tx_calls k cs t w1 in
      let (r, w3) := tx_drop k rt t2 w2 in
      (omap (fun _ => rs) r, w3)
  | (Err e, w1) => (Err e, w1)
  | (Panic, w1) => (Panic, w1)
  end.
End Txn.
Arguments stmt : clear implicits.
Arguments server : clear implicits.
Arguments link : clear implicits.
Arguments call : clear implicits.
Arguments command : clear implicits.
