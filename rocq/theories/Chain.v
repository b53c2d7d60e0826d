(** The methods that the traits [Migrations] and [Migration] provide for every
    store, over a database connection on which any call may fail and at any
    point of which the process may stop.
    Models butane_core/src/migrations/mod.rs:33-180 and migration.rs:18-86. *)
From Verif Require Import Base.

(** What a store has to provide (the required methods of [Migrations] and
    [Migration]): mod.rs:38-43, migration.rs:19-39.  Two migrations are equal when
    their names are (memmigrations.rs:61-65, fsmigrations.rs:337-341).
    [cl_bound] is not part of the code: it is the number of stored migrations and
    bounds how far the loops below can walk without revisiting one. *)
Record Coll (M : Type) := {
  cl_get : string -> option M;
  cl_latest : option M;
  cl_from : M -> outcome (option string);
  cl_name : M -> string;
  cl_up : M -> string -> outcome (option string);
  cl_down : M -> string -> outcome (option string);
  cl_bound : nat }.
Arguments cl_get {M}. Arguments cl_latest {M}. Arguments cl_from {M}.
Arguments cl_name {M}. Arguments cl_up {M}. Arguments cl_down {M}. Arguments cl_bound {M}.

Section Walk.
  Context {M : Type} (c : Coll M).

  (** [match m.migration_from()? { None => None, Some(name) => self.get_migration(&name) }],
      mod.rs:50-53, 68-71 and 111-113 *)
  Definition parent (m : M) : outcome (option M) :=
    do f <- cl_from c m;
    Ok match f with None => None | Some n => cl_get c n end.

  (** The loop of [all_migrations], mod.rs:67-73.  [None]: out of fuel. *)
  Fixpoint all_loop (fuel : nat) (last : option M) (accum : list M)
      : option (outcome (list M)) :=
    match last with
    | None => Some (Ok (rev accum))
    | Some m =>
        match fuel with
        | O => None
        | S n => match parent m with
                 | Ok p => all_loop n p (accum ++ [m])
                 | Err e => Some (Err e)
                 | Panic => Some Panic
                 end
        end
    end.
  (** [all_migrations], mod.rs:64-75.  A walk longer than the number of stored
      migrations revisits one and never ends ([walk_diverges]); the model reports
      that as [Panic]. *)
  Definition all_migrations_fuel (fuel : nat) : option (outcome (list M)) :=
    all_loop fuel (cl_latest c) [].
  Definition or_diverge {A} (o : option (outcome A)) : outcome A :=
    match o with Some r => r | None => Panic end.
  Definition all_migrations : outcome (list M) := or_diverge (all_migrations_fuel (cl_bound c)).

  (** [migrations_since], mod.rs:45-61 *)
  Fixpoint since_loop (fuel : nat) (since : M) (last : option M) (accum : list M)
      : option (outcome (list M)) :=
    match last with
    | None => Some (Err (MigrationError "Migration not in chain"))
    | Some m =>
        match fuel with
        | O => None
        | S n =>
            if String.eqb (cl_name c m) (cl_name c since) then Some (Ok (rev accum))
            else match parent m with
                 | Ok p => since_loop n since p (accum ++ [m])
                 | Err e => Some (Err e)
                 | Panic => Some Panic
                 end
        end
    end.
  Definition migrations_since_fuel (fuel : nat) (since : M) : option (outcome (list M)) :=
    since_loop fuel since (cl_latest c) [].
  Definition migrations_since (since : M) : outcome (list M) :=
    or_diverge (migrations_since_fuel (cl_bound c) since).

  (** The loop of [last_applied_migration], mod.rs:104-115 *)
  Fixpoint last_loop (fuel : nat) (rows : list string) (m_opt : option M)
      : option (outcome (option M)) :=
    match m_opt with
    | None => Some (Ok None)
    | Some m =>
        match fuel with
        | O => None
        | S n =>
            if existsb (String.eqb (cl_name c m)) rows then Some (Ok (Some m))
            else match parent m with
                 | Ok p => last_loop n rows p
                 | Err e => Some (Err e)
                 | Panic => Some Panic
                 end
        end
    end.
End Walk.

(** * The database behind a connection

    [dbs_mig] is the table [butane_migrations]: [None] when it does not exist, else
    the names in it.  Everything else is [dbs_rest]. *)
Record DBS (S : Type) := { dbs_rest : S; dbs_mig : option (list string) }.
Arguments dbs_rest {S}. Arguments dbs_mig {S}. Arguments Build_DBS {S}.

(** What can go wrong at one call to the database. *)
Inductive fault :=
| NoFault
| Fails         (* the call reports an error and has no effect *)
| StopsBefore   (* the process stops before the call takes effect *)
| StopsAfter.   (* the process stops after it took effect *)

(** Result of running code against the database: it returned, it returned an error
    (or panicked), or the process stopped. *)
Inductive res (A : Type) :=
| Val (a : A)
| Fail (e : error)
| Stop.
Arguments Val {A}. Arguments Fail {A}. Arguments Stop {A}.

(** A connection: the committed database and, inside a transaction, its working
    copy.  [cn_step] counts the calls made, to index the fault plan. *)
Record Conn (S : Type) := { cn_db : DBS S; cn_work : option (DBS S); cn_step : nat }.
Arguments cn_db {S}. Arguments cn_work {S}. Arguments cn_step {S}. Arguments Build_Conn {S}.

Section Run.
  Context {S : Type}.
  (** The engine executing a script on the database; the script of a migration runs
      as one call (db/mod.rs [ConnectionMethods::execute]). *)
  Variable exec : string -> DBS S -> outcome (DBS S).
  Variable backend_name : string.
  (** When each call fails. *)
  Variable plan : nat -> fault.

  Definition Run (A : Type) := Conn S -> res A * Conn S.
  Definition ret {A} (a : A) : Run A := fun s => (Val a, s).
  Definition bind {A B} (x : Run A) (f : A -> Run B) : Run B :=
    fun s => match x s with
             | (Val a, s') => f a s'
             | (Fail e, s') => (Fail e, s')
             | (Stop, s') => (Stop, s')
             end.
  Definition lift {A} (o : outcome A) : Run A :=
    fun s => match o with Ok a => (Val a, s) | Err e => (Fail e, s) | Panic => (Stop, s) end.
  (** One call to the database with effect [f]. *)
  Definition call {A} (f : Conn S -> outcome (A * Conn S)) : Run A :=
    fun s =>
      let s1 := {| cn_db := cn_db s; cn_work := cn_work s; cn_step := 1 + cn_step s |} in
      match plan (cn_step s) with
      | Fails => (Fail (DbError 0), s1)
      | StopsBefore => (Stop, s1)
      | NoFault => match f s1 with
                   | Ok (a, s2) => (Val a, s2)
                   | Err e => (Fail e, s1)
                   | Panic => (Stop, s1)
                   end
      | StopsAfter => match f s1 with Ok (_, s2) => (Stop, s2) | _ => (Stop, s1) end
      end.

  (** [BackendConnection::transaction] *)
  Definition begin_tx : Run unit :=
    call (fun s => Ok (tt, {| cn_db := cn_db s; cn_work := Some (cn_db s); cn_step := cn_step s |})).
  (** A statement inside the open transaction. *)
  Definition in_tx (f : DBS S -> outcome (DBS S)) : Run unit :=
    call (fun s => match cn_work s with
                   | Some w => do w' <- f w;
                               Ok (tt, {| cn_db := cn_db s; cn_work := Some w'; cn_step := cn_step s |})
                   | None => Err (Internal "no transaction")
                   end).
  (** [Transaction::commit] *)
  Definition commit_tx : Run unit :=
    call (fun s => match cn_work s with
                   | Some w => Ok (tt, {| cn_db := w; cn_work := None; cn_step := cn_step s |})
                   | None => Err (Internal "no transaction")
                   end).
  (** Leaving the scope of a [Transaction]: unless it was committed it is rolled
      back when dropped; the database does the same when the process stops. *)
  Definition scope {A} (x : Run A) : Run A :=
    fun s => let '(r, s') := x s in
             (r, {| cn_db := cn_db s'; cn_work := None; cn_step := cn_step s' |}).

  (** [ConnectionMethods::has_table("butane_migrations")] and the query for its rows *)
  Definition has_mig_table : Run bool :=
    call (fun s => Ok (match dbs_mig (cn_db s) with Some _ => true | None => false end, s)).
  Definition query_mig : Run (list string) :=
    call (fun s => match dbs_mig (cn_db s) with
                   | Some l => Ok (l, s)
                   | None => Err (DbError 1)
                   end).
  (** [insert_only] into [butane_migrations]: its only column is the primary key. *)
  Definition insert_mig (n : string) (d : DBS S) : outcome (DBS S) :=
    match dbs_mig d with
    | None => Err (DbError 1)
    | Some l => if existsb (String.eqb n) l then Err (DbError 2)
                else Ok {| dbs_rest := dbs_rest d; dbs_mig := Some (l ++ [n]) |}
    end.
  (** [delete_where name = n] on [butane_migrations] *)
  Definition delete_mig (n : string) (d : DBS S) : outcome (DBS S) :=
    match dbs_mig d with
    | None => Err (DbError 1)
    | Some l => Ok {| dbs_rest := dbs_rest d;
                      dbs_mig := Some (filter (fun x => negb (String.eqb x n)) l) |}
    end.

  Context {M : Type} (c : Coll M).

  (** [ok_or_else(|| Error::UnknownBackend(..))] *)
  Definition sql_or_unknown (o : outcome (option string)) : outcome string :=
    do s <- o;
    match s with Some x => Ok x | None => Err (UnknownBackend backend_name) end.

  (** [Migration::apply], migration.rs:43-52 (with [mark_applied], 59-65) *)
  Definition apply (m : M) : Run unit :=
    scope (bind begin_tx (fun _ =>
           bind (lift (sql_or_unknown (cl_up c m backend_name))) (fun sql =>
           bind (in_tx (exec sql)) (fun _ =>
           bind (in_tx (insert_mig (cl_name c m))) (fun _ =>
           commit_tx))))).
  (** [Migration::downgrade], migration.rs:71-84 *)
  Definition downgrade (m : M) : Run unit :=
    scope (bind begin_tx (fun _ =>
           bind (lift (sql_or_unknown (cl_down c m backend_name))) (fun sql =>
           bind (in_tx (exec sql)) (fun _ =>
           bind (in_tx (delete_mig (cl_name c m))) (fun _ =>
           commit_tx))))).

  (** [last_applied_migration], mod.rs:88-116 *)
  Definition last_applied : Run (option M) :=
    bind has_mig_table (fun b : bool =>
      if b then bind query_mig (fun rows =>
                  lift (or_diverge (last_loop c (cl_bound c) rows (cl_latest c))))
      else ret None).
  (** [unapplied_migrations], mod.rs:78-83 *)
  Definition unapplied : Run (list M) :=
    bind last_applied (fun o =>
      match o with
      | None => lift (all_migrations c)
      | Some m => lift (migrations_since c m)
      end).
  Fixpoint apply_each (l : list M) : Run unit :=
    match l with
    | [] => ret tt
    | m :: r => bind (apply m) (fun _ => apply_each r)
    end.
  (** [migrate], mod.rs:119-126 *)
  Definition migrate : Run unit := bind unapplied apply_each.

  (** The loop of [unmigrate], mod.rs:150-156: [while let Ok(Some(name))] also
      leaves the loop on an error. *)
  Fixpoint unmigrate_loop (fuel : nat) (m : M) : Run unit :=
    match cl_from c m with
    | Ok (Some n) =>
        match fuel with
        | O => fun s => (Stop, s)
        | Datatypes.S k =>
            match cl_get c n with
            | Some p => bind (downgrade p) (fun _ => unmigrate_loop k p)
            | None => lift (Err (MigrationError "Migration not in chain"))
            end
        end
    | Ok None | Err _ => ret tt
    | Panic => fun s => (Stop, s)
    end.
  (** [unmigrate], mod.rs:143-158 *)
  Definition unmigrate : Run unit :=
    bind last_applied (fun o =>
      match o with
      | None => ret tt
      | Some m => bind (downgrade m) (fun _ => unmigrate_loop (cl_bound c) m)
      end).
End Run.

(** The connection at rest on database [d]. *)
Definition conn_on {S} (d : DBS S) : Conn S := {| cn_db := d; cn_work := None; cn_step := 0 |}.
