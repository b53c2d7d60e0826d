(** Many-to-many relations.  Models butane_core/src/many.rs:27-340. *)
From Verif Require Import Base SqlVal Adb Sql SqlStmt Query Stmt Conn.

Section Many.
(** The related model: its key's validity and SQL value, its table, key column,
    columns, and how a row becomes an object. *)
Context {T : Type}.
Record related := {
  rel_valid : T -> bool;
  rel_key : T -> outcome SqlVal;
  rel_table : string;
  rel_pkcol : string;
  rel_cols : list string;
  rel_of_row : list SqlVal -> outcome T }.
Variable R : related.

(** many.rs:27-42.  [m_all] is the cache [all_values]. *)
Record many := {
  m_table : string;
  m_owner : option SqlVal;
  m_otype : SqlType;
  m_new : list SqlVal;
  m_removed : list SqlVal;
  m_all : option (list T) }.

(** many.rs:54-63 *)
Definition many_new : many :=
  {| m_table := "not_initialized"; m_owner := None; m_otype := TInt; m_new := []; m_removed := []; m_all := None |}.
(** many.rs:66-74 *)
Definition ensure_init (m : many) (t : string) (owner : SqlVal) (ty : SqlType) : many :=
  match m_owner m with
  | Some _ => m
  | None => {| m_table := t; m_owner := Some owner; m_otype := ty; m_new := m_new m; m_removed := m_removed m; m_all := None |}
  end.
Definition set_all (m : many) (a : option (list T)) : many :=
  {| m_table := m_table m; m_owner := m_owner m; m_otype := m_otype m; m_new := m_new m; m_removed := m_removed m; m_all := a |}.
Definition set_pending (m : many) (new removed : list SqlVal) : many :=
  {| m_table := m_table m; m_owner := m_owner m; m_otype := m_otype m; m_new := new; m_removed := removed; m_all := m_all m |}.
(** many.rs:82-92 *)
Definition many_add (m : many) (x : T) : outcome unit * many :=
  if rel_valid R x then
    let m := set_all m None in
    match rel_key R x with
    | Ok v => (Ok tt, set_pending m (m_new m ++ [v]) (m_removed m))
    | Err e => (Err e, m)
    | Panic => (Panic, m)
    end
  else (Err ValueNotSaved, m).
(** many.rs:97-101 *)
Definition many_remove (m : many) (x : T) : outcome unit * many :=
  let m := set_all m None in
  match rel_key R x with
  | Ok v => (Ok tt, set_pending m (m_new m) (m_removed m ++ [v]))
  | Err e => (Err e, m)
  | Panic => (Panic, m)
  end.
(** many.rs:106-111 *)
Definition many_get (m : many) : outcome (list T) :=
  match m_all m with Some l => Ok l | None => Err ValueNotLoaded end.
(** many.rs:114-125 *)
Definition many_query (m : many) : outcome Query :=
  match m_owner m with
  | None => Err NotInitialized
  | Some o => Ok (set_filter (BSubquery (rel_pkcol R) (m_table m) "has" (BEq "owner" (EVal o))) (q_new (rel_table R)))
  end.
(** many.rs:128-133: the column names. *)
Definition many_columns : list string := ["owner"; "has"].

Section Ops.
Variables (d : dialect) (kw : string -> bool) (b : backend) (E : engine).
Variable gen : db -> string -> list string -> row.

(** many.rs:249-260: the additions are taken from the end of the list.  [l] is the
    list reversed; what is left of it comes back. *)
Fixpoint insert_new (t : string) (owner : SqlVal) (l : list SqlVal) (w : world) : outcome unit * list SqlVal * world :=
  match l with
  | [] => (Ok tt, [], w)
  | v :: r =>
      match conn_insert_only d kw b E gen t many_columns [owner; v] w with
      | (Ok _, w') => insert_new t owner r w'
      | (e, w') => (e, r, w')
      end
  end.
(** many.rs:247-269 *)
Definition many_save (m : many) (w : world) : outcome unit * many * world :=
  match m_owner m with
  | None => (Err NotInitialized, m, w)
  | Some owner =>
      match insert_new (m_table m) owner (rev (m_new m)) w with
      | (Ok _, rest, w) =>
          match m_removed m with
          | [] => (Ok tt, set_pending m [] [], w)
          | l =>
              match conn_delete_where d kw b E gen (m_table m) (BIn "has" l) w with
              | (e, w') => (e, set_pending m [] [], w')
              end
          end
      | (e, rest, w) => (e, set_pending m (rev rest) (m_removed m), w)
      end
  end.
(** many.rs:271-283 *)
Definition many_delete (m : many) (w : world) : outcome unit * many * world :=
  match m_owner m with
  | None => (Err NotInitialized, m, w)
  | Some owner =>
      match conn_delete_where d kw b E gen (m_table m) (BEq "owner" (EVal owner)) w with
      | (Ok _, w') => (Ok tt, set_all (set_pending m [] []) (Some []), w')
      | (e, w') => (e, m, w')
      end
  end.
(** many.rs:288-290 *)
Fixpoint add_all (m : many) (l : list T) : outcome unit * many :=
  match l with
  | [] => (Ok tt, m)
  | x :: r => match many_add m x with (Ok _, m') => add_all m' r | (e, m') => (e, m') end
  end.
(** many.rs:285-295 *)
Definition many_set (m : many) (l : list T) (w : world) : outcome unit * many * world :=
  match many_delete m w with
  | (Ok _, m, w) =>
      match add_all m l with
      | (Ok _, m) =>
          match many_save m w with
          | (Ok _, m, w) => (Ok tt, set_all m (Some l), w)
          | x => x
          end
      | (e, m) => (e, m, w)
      end
  | x => x
  end.

(** QueryOps::load, query/mod.rs:284-290. *)
Definition load_answers (x : Query) (w : world) (r : outcome (list T)) (w' : world) : Prop :=
  exists q, query_answers d kw b E (rel_cols R) x w q w' /\ r = obind q (omapm (rel_of_row R)).
(** many.rs:144-164 *)
Definition uncached_answers (m : many) (x : Query) (w : world) (r : outcome (list T)) (w' : world) : Prop :=
  exists r1 w1, load_answers x w r1 w1 /\
    match r1, m_new m with
    | Ok vals, _ :: _ =>
        exists r2, load_answers (set_filter (BIn (rel_pkcol R) (m_new m)) (q_new (rel_table R))) w1 r2 w'
                   /\ r = omap (app vals) r2
    | _, _ => r = r1 /\ w' = w1
    end.
(** many.rs:177-188 with util.rs:5-15, and many.rs:297-332.  [order]: whether and
    how load_ordered sorts. *)
Definition many_load_answers (m : many) (order : option bool) (w : world) (r : outcome (list T)) (m' : many) (w' : world) : Prop :=
  match many_query m with
  | Ok x =>
      match m_all m with
      | Some l => r = Ok l /\ m' = m /\ w' = w
      | None =>
          uncached_answers m (match order with None => x | Some desc => add_order (rel_pkcol R) desc x end) w r w'
          /\ m' = match r with Ok l => set_all m (Some l) | _ => m end
      end
  | _ => r = Ok [] /\ m' = m /\ w' = w
  end.
(** One call on the [i]-th of any number of handles; not in the source: how a
    program uses the operations. *)
Inductive many_op := OAdd (i : nat) (x : T) | ORemove (i : nat) (x : T) | OSave (i : nat) | ODelete (i : nat) | OSet (i : nat) (l : list T).
Definition many_do (o : many_op) (h : nat -> many) (w : world) : outcome unit * (nat -> many) * world :=
  let put i m := fun j => if Nat.eqb j i then m else h j in
  match o with
  | OAdd i x => let (r, m) := many_add (h i) x in (r, put i m, w)
  | ORemove i x => let (r, m) := many_remove (h i) x in (r, put i m, w)
  | OSave i => let '(r, m, w) := many_save (h i) w in (r, put i m, w)
  | ODelete i => let '(r, m, w) := many_delete (h i) w in (r, put i m, w)
  | OSet i l => let '(r, m, w) := many_set (h i) l w in (r, put i m, w)
  end.
Fixpoint many_do_all (l : list many_op) (h : nat -> many) (w : world) : outcome unit * (nat -> many) * world :=
  match l with
  | [] => (Ok tt, h, w)
  | o :: r => match many_do o h w with
              | (Ok _, h, w) => many_do_all r h w
              | x => x
              end
  end.
(** many.rs:335-339 *)
Definition many_eqb (a b : many) : bool :=
  match m_owner a, m_owner b with
  | Some x, Some y => sqlval_eqb x y
  | None, None => true
  | _, _ => false
  end && String.eqb (m_table a) (m_table b).
End Ops.
End Many.
Arguments related : clear implicits.
Arguments many : clear implicits.
Arguments many_op : clear implicits.
