(** What an engine answers, and which statements contain a subquery.
    Specification only. *)
From Verif Require Import Base SqlVal Sql SqlStmt Query QuerySpec Time Turso.

(** The stored form of a value. *)
Inductive stored : SqlVal -> tvalue -> Prop :=
| st_null : stored VNull TvNull
| st_false : stored (VBool false) (TvInteger 0)
| st_true : stored (VBool true) (TvInteger 1)
| st_int i : stored (VInt i) (TvInteger i)
| st_bigint i : stored (VBigInt i) (TvInteger i)
| st_real r : stored (VReal r) (TvReal r)
| st_text s : stored (VText s) (TvText s)
| st_blob b : stored (VBlob b) (TvBlob b)
| st_json j : stored (VJson j) (TvText j)
| st_date d : stored (VDate d) (TvText (format_date d))
| st_timestamp t : stored (VTimestamp t) (TvText (format_timestamp " " t)).

(** None is a value of a custom type, which has no stored form. *)
Definition storable (vs : list SqlVal) : Prop := Forall (fun v => exists t, stored v t) vs.

(** The number of SELECTs in a text. *)
Definition selects (s : string) : nat := List.length (filter (is_kw "SELECT") (tokens s)).

(** The filter contains no subquery. *)
Fixpoint no_subquery (e : BoolExpr) : Prop :=
  match e with
  | BSubquery _ _ _ _ | BSubqueryJoin _ _ _ _ _ => False
  | BAnd a b | BOr a b => no_subquery a /\ no_subquery b
  | BNot a => no_subquery a
  | BAllOf l => fold_right (fun x acc => no_subquery x /\ acc) True l
  | _ => True
  end.
(** No subquery contains another one. *)
Fixpoint no_nested_subquery (e : BoolExpr) : Prop :=
  match e with
  | BSubquery _ _ _ a | BSubqueryJoin _ _ _ _ a => no_subquery a
  | BAnd a b | BOr a b => no_nested_subquery a /\ no_nested_subquery b
  | BNot a => no_nested_subquery a
  | BAllOf l => fold_right (fun x acc => no_nested_subquery x /\ acc) True l
  | _ => True
  end.

(** Values stored alike compare alike, as do values DISTINCT does not tell apart. *)
Record stores_alike (E : engine) : Prop := {
  alike_stored : forall x v w t, stored v t -> stored w t -> e_cmp E x v = e_cmp E x w;
  alike_distinct : forall x v w, e_ord E v w = Eq -> e_cmp E x v = e_cmp E x w;
  distinct_refl : forall v, e_ord E v v = Eq;
}.

(** An engine that takes statements without subqueries only: it answers a query
    with one of its possible results on the database [D]. *)
Definition answers (C : Type) (conn_query : C -> string -> list tvalue -> outcome (list (list tvalue)) * C)
  (d : dialect) (E : engine) (D : db) : Prop :=
  forall c s V ps sel, selects s <= 1 -> parse_stmt d s = Some (Select sel) -> Forall2 stored V ps ->
    (exists out, select_returns d E D V sel out) ->
    exists out rows c', select_returns d E D V sel out /\ Forall2 (Forall2 stored) out rows
      /\ conn_query c s ps = (Ok rows, c').

(** The connection that remembers the statements it was sent. *)
Definition remember (answer : string -> list tvalue -> outcome (list (list tvalue))) (log : list string) (s : string) (ps : list tvalue) :=
  (answer s ps, log ++ [s]).
