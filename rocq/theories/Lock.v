(** Processes that work on the current schema at the same time.
    Models the locking of butane_core/src/migrations/fsmigrations.rs:142-148 (taking the
    lock), 243-262 ([add_type]), 273-310 ([db]), 202-207 and 118-133
    ([add_modified_table], [write_contents]), 454-458 ([clear_current]) and 502-528
    ([MigrationLock]).

    Each process does one thing and its steps are interleaved with those of the others
    in any order.  Simplified: only the directory of the current schema, without
    [info.json]; a file is read in one step, and emptied and written in two;
    [clear_current] is one step; the schema read is given before its types are
    resolved. *)
From Verif Require Import Base SqlVal Adb.

Notation typemap := (smap TypeKey DeferredSqlType).
(** A file: emptied by the opening for writing, or whole. *)
Inductive content (A : Type) := Whole (a : A) | Cut.
Arguments Whole {A} a.
Arguments Cut {A}.
(** The directory.  Files have identities: a process that has opened a file goes on with
    that file even when another has taken its name. *)
Record disk := {
  k_dir : bool;
  k_lock : option nat;
  k_types : option (nat * content typemap);
  k_tables : smap string (nat * content ATable);
  k_next : nat }.
Definition no_files (d : disk) : disk :=
  {| k_dir := false; k_lock := None; k_types := None; k_tables := []; k_next := k_next d |}.
Definition with_dir (d : disk) : disk :=
  {| k_dir := true; k_lock := k_lock d; k_types := k_types d; k_tables := k_tables d; k_next := k_next d |}.
Definition with_types (d : disk) (x : option (nat * content typemap)) : disk :=
  {| k_dir := k_dir d; k_lock := k_lock d; k_types := x; k_tables := k_tables d; k_next := k_next d |}.
Definition with_tables (d : disk) (x : smap string (nat * content ATable)) : disk :=
  {| k_dir := k_dir d; k_lock := k_lock d; k_types := k_types d; k_tables := x; k_next := k_next d |}.
Definition used (d : disk) : disk :=
  {| k_dir := k_dir d; k_lock := k_lock d; k_types := k_types d; k_tables := k_tables d; k_next := S (k_next d) |}.
(** [MigrationLock::get_file], 515-522: the file is made if it is not there. *)
Definition open_lock (d : disk) : nat * disk :=
  match k_lock d with
  | Some i => (i, d)
  | None => (k_next d, {| k_dir := k_dir d; k_lock := Some (k_next d); k_types := k_types d;
                          k_tables := k_tables d; k_next := S (k_next d) |})
  end.

(** What a process is to do. *)
Inductive job :=
| AddType (k : TypeKey) (t : DeferredSqlType)
| AddTable (t : ATable)
| ReadSchema
| CleanUp.
Inductive answer :=
| Written
| Schema (types : typemap) (tables : smap string ATable).

(** Where a process is; [l] is the lock it holds: the file, and whether exclusively. *)
Inductive pc :=
| Start (j : job)
| ALock (k : TypeKey) (t : DeferredSqlType) (i : nat)
| ARead (k : TypeKey) (t : DeferredSqlType) (l : option nat)
| AEnsure (l : option nat) (m : typemap)
| AOpen (l : option nat) (m : typemap)
| AWrite (l : option nat) (m : typemap) (f : nat)
| TOpen (t : ATable)
| TWrite (t : ATable) (f : nat)
| ROpen
| RLock (i : nat)
| RList (i : nat)
| RFiles (i : nat) (names : list (option string)) (ts : typemap) (tabs : smap string ATable)
| Leaving (l : option (nat * bool)) (r : outcome answer)
| Returned (r : outcome answer)
| Killed.
(** The lock held at a place; it is released when the process leaves it, or dies. *)
Definition holds (c : pc) : option (nat * bool) :=
  match c with
  | ARead _ _ (Some i) | AEnsure (Some i) _ | AOpen (Some i) _ | AWrite (Some i) _ _ => Some (i, true)
  | RList i | RFiles i _ _ _ => Some (i, false)
  | Leaving l _ => l
  | _ => None
  end.
Definition excl (l : option nat) : option (nat * bool) := option_map (fun i => (i, true)) l.
Definition ended (c : pc) : Prop := match c with Returned _ | Killed => True | _ => False end.

Section Run.
(** The number of processes, and how directories are listed. *)
Variable n : nat.
Variable ls : list (option string) -> list (option string).

(** flock: an exclusive lock needs that nobody else holds one on the same file, a shared
    one that nobody else holds it exclusively. *)
Definition free (st : nat -> pc) (p i : nat) (ex : bool) : bool :=
  forallb (fun q => Nat.eqb q p ||
    match holds (st q) with
    | Some (j, e) => negb (Nat.eqb j i) || (negb ex && negb e)
    | None => true
    end) (seq 0 n).

(** The names [db] goes through: [None] stands for [types.json]. *)
Definition entries (d : disk) : list (option string) :=
  (match k_types d with Some _ => [None] | None => [] end) ++ map Some (mkeys (k_tables d)).

(** One step of a process; [None] when it has to wait or has ended. *)
Definition pc_step (st : nat -> pc) (p : nat) (d : disk) : option (disk * pc) :=
  match st p with
  | Start (AddType k t) =>                        (* 244: the error is not looked at *)
      if k_dir d then let '(i, d') := open_lock d in Some (d', ALock k t i)
      else Some (d, ARead k t None)
  | ALock k t i => if free st p i true then Some (d, ARead k t (Some i)) else None
  | ARead k t l =>                                (* 247-253 *)
      match k_types d with
      | None => Some (d, AEnsure l (mput k t []))
      | Some (_, Whole ts) => Some (d, AEnsure l (mput k t ts))
      | Some (_, Cut) => Some (d, Leaving (excl l) (Err SerdeJson))
      end
  | AEnsure l m => Some (with_dir d, AOpen l m)   (* 119 *)
  | AOpen l m =>                                  (* 125-126 *)
      if k_dir d then
        match k_types d with
        | Some (f, _) => Some (with_types d (Some (f, Cut)), AWrite l m f)
        | None => Some (used (with_types d (Some (k_next d, Cut))), AWrite l m (k_next d))
        end
      else Some (d, Leaving (excl l) (Err IOError))
  | AWrite l m f =>                               (* 127-130 *)
      Some (match k_types d with
            | Some (g, _) => if Nat.eqb f g then with_types d (Some (f, Whole m)) else d
            | None => d
            end, Leaving (excl l) (Ok Written))
  | Start (AddTable t) => Some (with_dir d, TOpen t)
  | TOpen t =>
      if k_dir d then
        match mget (t_name t) (k_tables d) with
        | Some (f, _) => Some (with_tables d (mput (t_name t) (f, Cut) (k_tables d)), TWrite t f)
        | None => Some (used (with_tables d (mput (t_name t) (k_next d, Cut) (k_tables d))), TWrite t (k_next d))
        end
      else Some (d, Returned (Err IOError))
  | TWrite t f =>
      Some (match mget (t_name t) (k_tables d) with
            | Some (g, _) => if Nat.eqb f g then with_tables d (mput (t_name t) (f, Whole t) (k_tables d)) else d
            | None => d
            end, Returned (Ok Written))
  | Start ReadSchema => Some (with_dir d, ROpen)  (* 275 *)
  | ROpen =>                                      (* 276 *)
      if k_dir d then let '(i, d') := open_lock d in Some (d', RLock i)
      else Some (d, Returned (Err IOError))
  | RLock i => if free st p i false then Some (d, RList i) else None
  | RList i =>                                    (* 290 *)
      if k_dir d then Some (d, RFiles i (ls (entries d)) [] [])
      else Some (d, Leaving (Some (i, false)) (Err IOError))
  | RFiles i [] ts tabs => Some (d, Leaving (Some (i, false)) (Ok (Schema ts tabs)))
  | RFiles i (None :: r) ts tabs =>               (* 299-306 *)
      match k_types d with
      | None => Some (d, Leaving (Some (i, false)) (Err IOError))
      | Some (_, Cut) => Some (d, Leaving (Some (i, false)) (Err SerdeJson))
      | Some (_, Whole m) => Some (d, RFiles i r m tabs)
      end
  | RFiles i (Some x :: r) ts tabs =>             (* 296-298 *)
      match mget x (k_tables d) with
      | None => Some (d, Leaving (Some (i, false)) (Err IOError))
      | Some (_, Cut) => Some (d, Leaving (Some (i, false)) (Err SerdeJson))
      | Some (_, Whole t) => Some (d, RFiles i r ts (mput (t_name t) t tabs))
      end
  | Start CleanUp =>
      if k_dir d then Some (no_files d, Returned (Ok Written)) else Some (d, Returned (Err IOError))
  | Leaving _ r => Some (d, Returned r)
  | Returned _ | Killed => None
  end.

(** What happens next: a process makes a step, or is killed. *)
Inductive event := Run (p : nat) | Kill (p : nat).
Definition upd (st : nat -> pc) (p : nat) (c : pc) : nat -> pc := fun q => if Nat.eqb q p then c else st q.
Definition happen (e : event) (w : disk * (nat -> pc)) : disk * (nat -> pc) :=
  let '(d, st) := w in
  match e with
  | Run p => if Nat.ltb p n then
               match pc_step st p d with Some (d', c) => (d', upd st p c) | None => (d, st) end
             else (d, st)
  | Kill p => match st p with Returned _ => (d, st) | _ => if Nat.ltb p n then (d, upd st p Killed) else (d, st) end
  end.
Definition run (jobs : nat -> job) (l : list event) (d : disk) : disk * (nat -> pc) :=
  fold_left (fun w e => happen e w) l (d, fun p => Start (jobs p)).
End Run.
