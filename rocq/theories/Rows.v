(** Iterating over query results.
    Models butane_core/src/db/connmethods.rs:95-245 and the SQLite row source,
    butane_core/src/db/sqlite.rs:542-625. *)
From Verif Require Import Base SqlVal Backend.

(** connmethods.rs:96-103, trait [BackendRow]. *)
Record brow := {
  br_len : nat;
  br_get : nat -> SqlType -> outcome SqlVal }.

(** connmethods.rs:109-122, trait [BackendRows] with state [St] and rows [R]. *)
Record cursor (St R : Type) := {
  c_next : St -> outcome (option R) * St;
  c_current : St -> option R }.
Arguments c_next {St R}. Arguments c_current {St R}.

(** * VecRows *)

(** connmethods.rs:151-155.  The index is a [usize]: that it cannot overflow is
    assumed. *)
Record vecrows (T : Type) := { vr_rows : list T; vr_idx : nat }.
Arguments vr_rows {T}. Arguments vr_idx {T}.

(** connmethods.rs:158-160. *)
Definition vr_new {T} (rows : list T) : vecrows T := {| vr_rows := rows; vr_idx := 0 |}.

(** connmethods.rs:178-182. *)
Definition vr_next {T} (r : vecrows T) : outcome (option T) * vecrows T :=
  (Ok (nth_error (vr_rows r) (vr_idx r)), {| vr_rows := vr_rows r; vr_idx := S (vr_idx r) |}).

(** connmethods.rs:184-186. *)
Definition vr_current {T} (r : vecrows T) : option T := nth_error (vr_rows r) (vr_idx r).

Definition vec_cursor (T : Type) : cursor (vecrows T) T :=
  {| c_next := vr_next; c_current := vr_current |}.

(** * The SQLite row source *)

(** What stepping the prepared statement yields, one element per step; after the
    last one the statement is done. *)
Inductive sstep (T : Type) := SRow (x : T) | SFail (e : error).
Arguments SRow {T}. Arguments SFail {T}.

(** rusqlite::Rows as used through QueryAdapterInner (sqlite.rs:542-577): the
    statement until it is done or has failed, and the row stepped to last. *)
Record srows (T : Type) := { sr_steps : list (sstep T); sr_row : option T }.
Arguments sr_steps {T}. Arguments sr_row {T}.

(** sqlite.rs:552-563 *)
Definition sr_new {T} (steps : list (sstep T)) : srows T := {| sr_steps := steps; sr_row := None |}.

(** sqlite.rs:565-569 and 593-599, with rusqlite's [Rows::next]: a step that fails
    or finds no row resets the statement and clears the row. *)
Definition sr_next {T} (r : srows T) : outcome (option T) * srows T :=
  match sr_steps r with
  | [] => (Ok None, {| sr_steps := []; sr_row := None |})
  | SRow x :: rest => (Ok (Some x), {| sr_steps := rest; sr_row := Some x |})
  | SFail e :: _ => (Err e, {| sr_steps := []; sr_row := None |})
  end.

(** sqlite.rs:571-574 and 600-605. *)
Definition sr_current {T} (r : srows T) : option T := sr_row r.

Definition sqlite_cursor (T : Type) : cursor (srows T) T :=
  {| c_next := sr_next; c_current := sr_current |}.

(** * Mapping and collecting *)

(** connmethods.rs:137-145, [MapDeref::next]. *)
Definition map_next {St R B} (c : cursor St R) (f : R -> outcome B) (st : St) : outcome (option B) * St :=
  match c_next c st with
  | (Ok (Some v), st') => (omap Some (f v), st')
  | (Ok None, st') => (Ok None, st')
  | (Err e, st') => (Err e, st')
  | (Panic, st') => (Panic, st')
  end.

(** [FallibleIterator::collect] over [MapDeref], as called in query/mod.rs:284-291.
    The fuel bounds the number of calls of [next]; [None] means it ran out. *)
Fixpoint collect {St R B} (fuel : nat) (c : cursor St R) (f : R -> outcome B) (st : St)
  : option (outcome (list B)) :=
  match fuel with
  | O => None
  | S n =>
    match map_next c f st with
    | (Ok (Some b), st') => option_map (omap (cons b)) (collect n c f st')
    | (Ok None, _) => Some (Ok [])
    | (Err e, _) => Some (Err e)
    | (Panic, _) => Some Panic
    end
  end.

(** [nth(0)] over [MapDeref], as called in query/mod.rs:277-283. *)
Definition first {St R B} (c : cursor St R) (f : R -> outcome B) (st : St) : outcome (option B) :=
  fst (map_next c f st).

(** * Buffered rows *)

(** connmethods.rs:213-220: one cell after the other. *)
Fixpoint read_cells (r : brow) (i : nat) (tys : list SqlType) : outcome (list SqlVal) :=
  match tys with
  | [] => Ok []
  | ty :: rest => do v <- br_get r i ty ; omap (cons v) (read_cells r (S i) rest)
  end.

(** connmethods.rs:207-222, [VecRow::new]. *)
Definition vecrow_new (r : brow) (tys : list SqlType) : outcome (list SqlVal) :=
  if Nat.eqb (br_len r) (List.length tys) then read_cells r 0 tys else Err BoundsError.

(** connmethods.rs:226-243: a buffered row as a row. *)
Definition vecrow (values : list SqlVal) : brow :=
  {| br_len := List.length values; br_get := fun i ty => row_get values i ty BoundsError |}.

(** connmethods.rs:163-173, [vec_from_backend_rows]. *)
Definition buffer {St} (fuel : nat) (c : cursor St brow) (tys : list SqlType) (st : St)
  : option (outcome (vecrows (list SqlVal))) :=
  option_map (omap vr_new) (collect fuel c (fun r => vecrow_new r tys) st).

(** adapter.rs:300-318: the rows an async adapter answers a query with. *)
Definition buffered_cursor : cursor (vecrows (list SqlVal)) brow :=
  {| c_next := fun st => let (x, st') := vr_next st in (omap (option_map vecrow) x, st');
     c_current := fun st => option_map vecrow (vr_current st) |}.

(** sqlite.rs:609-616: a SQLite row. *)
Definition sqlite_row (parse_json : string -> option string) (cells : list lvalue) : brow :=
  {| br_len := List.length cells;
     br_get := fun i ty => match nth_error cells i with
                           | None => Err (DbError 0)
                           | Some x => sqlite_read parse_json x ty
                           end |}.
