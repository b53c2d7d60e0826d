(** Running synchronous code on an async connection.
    Models db/mod.rs:255-285, db/dummy.rs and db/sync_adapter.rs:23-217. *)
From Verif Require Import Base.

(** The fallible methods of a connection and of the backend object it gives
    (db/connmethods.rs:30-160, db/mod.rs:60-110, db/mod.rs:420-470). *)
Inductive method :=
| MExecute | MQuery | MInsertReturningPk | MInsertOnly | MInsertOrReplace | MUpdate
| MDelete | MDeleteWhere | MHasTable | MTransaction
| MBackendCreateMigrationSql | MBackendConnect.

Section WithSync.
(** State of a driver connection, arguments and values of its methods. *)
Context {C A V : Type}.
(** The driver connection. *)
Variable driver : method -> A -> C -> outcome V * C.
(** [Error::TokioJoin], given by [await?] when the task did not finish. *)
Variable join_error : error.

(** What a connection object holds: the driver's connection or the dummy. *)
Inductive inner := Driver (c : C) | Dummy.

(** dummy.rs:12-35 and 50-139: each of the methods is [Err(PoisonedConnection)];
    [delete] is the trait's default, which calls [delete_where]. *)
Definition dummy_method (m : method) : outcome V :=
  match m with
  | MExecute => Err PoisonedConnection
  | MQuery => Err PoisonedConnection
  | MInsertReturningPk => Err PoisonedConnection
  | MInsertOnly => Err PoisonedConnection
  | MInsertOrReplace => Err PoisonedConnection
  | MUpdate => Err PoisonedConnection
  | MDelete => Err PoisonedConnection
  | MDeleteWhere => Err PoisonedConnection
  | MHasTable => Err PoisonedConnection
  | MTransaction => Err PoisonedConnection
  | MBackendCreateMigrationSql => Err PoisonedConnection
  | MBackendConnect => Err PoisonedConnection
  end.

(** db/mod.rs:190-250 and 300-330: a connection passes every call on to what it holds. *)
Definition ask (m : method) (a : A) (s : inner) : outcome V * inner :=
  match s with
  | Driver c => let (r, c') := driver m a c in (r, Driver c')
  | Dummy => (dummy_method m, Dummy)
  end.

(** A closure: it calls methods, looks at the answers, and returns or panics. *)
Inductive closure (T : Type) :=
| Return (o : outcome T)
| Call (m : method) (a : A) (k : outcome V -> closure T).
Arguments Return {T}. Arguments Call {T}.

(** The closure on a [SyncAdapter], whose methods drive those of the connection
    inside to completion (sync_adapter.rs:60-66 and 85-217). *)
Fixpoint on_adapter {T} (f : closure T) (s : inner) : outcome T * inner :=
  match f with
  | Return o => (o, s)
  | Call m a k => let (r, s') := ask m a s in on_adapter (k r) s'
  end.

(** What happens around the closure: it is run and its end awaited; the runtime
    shuts down before running it; [SyncAdapter::new] fails; the caller drops the
    future, and the closure runs unattended. *)
Inductive event := Awaited | NeverRun | AdapterFails (e : error) | Abandoned.

(** What is left: the caller's answer ([None] if nobody waits for one), what
    [self] holds, and what was dropped. *)
Record aftermath T := { answer : option (outcome T); self_holds : inner; dropped : option inner }.
Arguments answer {T}. Arguments self_holds {T}. Arguments dropped {T}.
Arguments Build_aftermath {T}.

(** db/mod.rs:261-284 *)
Definition with_sync {T} (ev : event) (f : closure T) (self : inner) : aftermath T :=
  match ev with
  | Awaited =>
      match on_adapter f self with
      | (Panic, s) => {| answer := Some (Err join_error); self_holds := Dummy; dropped := Some s |}
      | (o, s) => {| answer := Some o; self_holds := s; dropped := None |}
      end
  | NeverRun => {| answer := Some (Err join_error); self_holds := Dummy; dropped := Some self |}
  | AdapterFails e => {| answer := Some (Err e); self_holds := Dummy; dropped := Some self |}
  | Abandoned => {| answer := None; self_holds := Dummy; dropped := Some (snd (on_adapter f self)) |}
  end.

(** dummy.rs:17-22, 131-137 *)
Definition backend_name (driver_name : string) (s : inner) : string :=
  match s with Driver _ => driver_name | Dummy => "dummy" end.
Definition is_closed (driver_closed : C -> bool) (s : inner) : bool :=
  match s with Driver c => driver_closed c | Dummy => true end.

(** Use of one connection object over time. *)
Inductive use :=
| UCall (m : method) (a : A)
| UWithSync (ev : event) (f : closure V).
Definition use_once (u : use) (s : inner) : option (outcome V) * inner :=
  match u with
  | UCall m a => let (r, s') := ask m a s in (Some r, s')
  | UWithSync ev f => let x := with_sync ev f s in (answer x, self_holds x)
  end.
Fixpoint use_all (us : list use) (s : inner) : list (option (outcome V)) * inner :=
  match us with
  | [] => ([], s)
  | u :: rest =>
      let (r, s1) := use_once u s in
      let (rs, s2) := use_all rest s1 in (r :: rs, s2)
  end.
End WithSync.
Arguments inner : clear implicits.
Arguments closure : clear implicits.
Arguments use : clear implicits.
Arguments Return {A V T}. Arguments Call {A V T}.
Arguments answer {C T}. Arguments self_holds {C T}. Arguments dropped {C T}.
