(** The Turso backend's queries: subqueries are run first and replaced by the
    values they select.  Models butane_core/src/db/turso.rs:176-318, 337-416,
    546-566, 755-780, 906-914. *)
From Verif Require Import Base SqlVal Sql Query Stmt Time.

(** turso::Value *)
Inductive tvalue :=
| TvNull
| TvInteger (i : Z)
| TvReal (r : f64)
| TvText (s : string)
| TvBlob (b : string).

(** turso.rs:755-780.  JSON is represented by its serialised text. *)
Definition sqlval_to_turso (v : SqlVal) : outcome tvalue :=
  match v with
  | VBool b => Ok (TvInteger (if b then 1 else 0))
  | VInt i => Ok (TvInteger i)
  | VBigInt i => Ok (TvInteger i)
  | VReal r => Ok (TvReal r)
  | VText t => Ok (TvText t)
  | VBlob b => Ok (TvBlob b)
  | VJson j => Ok (TvText j)
  | VDate d => Ok (TvText (format_date d))
  | VTimestamp t => Ok (TvText (format_timestamp " " t))
  | VNull => Ok TvNull
  | VCustom _ _ => Panic
  end.

(** turso.rs:906-914 *)
Definition turso_value_to_sqlval_untyped (t : tvalue) : SqlVal :=
  match t with
  | TvNull => VNull
  | TvInteger i => VBigInt i
  | TvReal r => VReal r
  | TvText s => VText s
  | TvBlob b => VBlob b
  end.

(** [iter().map(f).collect()] for an [f] that may fail. *)
Fixpoint collect_all {A B} (f : A -> outcome B) (l : list A) : outcome (list B) :=
  match l with
  | [] => Ok []
  | a :: r => do b <- f a ; do bs <- collect_all f r ; Ok (b :: bs)
  end.

Section Transform.
Variable kw : string -> bool.
(** The connection: given a statement's text and parameters it answers with
    rows or an error, and changes. *)
Variable C : Type.
Variable conn_query : C -> string -> list tvalue -> outcome (list (list tvalue)) * C.

Notation q := (quote_reserved_word kw).
Infix ">>" := (andthen unit) (at level 50, left associativity).
Notation wr := (wr unit).
Notation sql_for_cond := (sql_for_cond kw unit q_next).

(** turso.rs:214-233, the text. *)
Definition simple_subquery (tbl2 tbl2_col : string) (inner : BoolExpr) : W unit -> outcome (W unit) :=
  wr "SELECT DISTINCT " >> wr (q tbl2_col) >> wr " FROM " >> wr (q tbl2) >> wr " WHERE " >> sql_for_cond inner.
(** turso.rs:239-262, the text. *)
Definition join_subquery (tbl2 : string) (col2 : Column) (joins : list Join) (inner : BoolExpr) : W unit -> outcome (W unit) :=
  wr "SELECT DISTINCT " >> sql_column kw unit col2 >> wr " FROM " >> wr (q tbl2) >> wr " "
  >> sql_joins kw unit joins >> wr " WHERE " >> sql_for_cond inner.

Definition send (c : C) (sql : string) (values : list SqlVal) : outcome (list (list tvalue) * C) :=
  do ps <- collect_all sqlval_to_turso values ;
  match conn_query c sql ps with
  | (Ok rows, c') => Ok (rows, c')
  | (Err e, _) => Err e
  | (Panic, _) => Panic
  end.

(** [row.get_value(0)]; the message is left out. *)
Definition first_value (r : list tvalue) : outcome tvalue :=
  match r with t :: _ => Ok t | [] => Err (Internal "") end.

(** turso.rs:267-296 *)
Definition execute_subquery_and_collect (c : C) (sql : string) (values : list SqlVal) : outcome (list SqlVal * C) :=
  do rc <- send c sql values ;
  do vs <- collect_all first_value (fst rc) ;
  Ok (map turso_value_to_sqlval_untyped vs, snd rc).

Definition run_subquery (c : C) (w : W unit -> outcome (W unit)) : outcome (list SqlVal * C) :=
  do tv <- run unit tt w ; execute_subquery_and_collect c (fst tv) (snd tv).

(** turso.rs:178-211, 299-318 *)
Fixpoint transform_subqueries (c : C) (e : BoolExpr) : outcome (BoolExpr * C) :=
  match e with
  | BSubquery col tbl2 tbl2_col inner =>
      do r <- run_subquery c (simple_subquery tbl2 tbl2_col inner) ; Ok (BIn col (fst r), snd r)
  | BSubqueryJoin col tbl2 col2 joins inner =>
      do r <- run_subquery c (join_subquery tbl2 col2 joins inner) ; Ok (BIn col (fst r), snd r)
  | BAnd a b =>
      do ra <- transform_subqueries c a ; do rb <- transform_subqueries (snd ra) b ;
      Ok (BAnd (fst ra) (fst rb), snd rb)
  | BOr a b =>
      do ra <- transform_subqueries c a ; do rb <- transform_subqueries (snd ra) b ;
      Ok (BOr (fst ra) (fst rb), snd rb)
  | BNot a => do ra <- transform_subqueries c a ; Ok (BNot (fst ra), snd ra)
  | BAllOf l =>
      do r <- (fix all (c : C) (l : list BoolExpr) : outcome (list BoolExpr * C) :=
                 match l with
                 | [] => Ok ([], c)
                 | x :: l' => do rx <- transform_subqueries c x ; do rl <- all (snd rx) l' ;
                              Ok (fst rx :: fst rl, snd rl)
                 end) c l ;
      Ok (BAllOf (fst r), snd r)
  | other => Ok (other, c)
  end.

Definition with_filter (x : Query) (e : option BoolExpr) : Query :=
  {| q_table := q_table x; q_filter := e; q_limit := q_limit x; q_offset := q_offset x; q_sort := q_sort x |}.

(** turso.rs:337-401: transform the filter, then send the statement. *)
Definition turso_query (c : C) (cols : list string) (x : Query) (limit : option Z) : outcome (list (list tvalue) * C) :=
  do fc <- match q_filter x with
           | Some e => do r <- transform_subqueries c e ; Ok (Some (fst r), snd r)
           | None => Ok (None, c)
           end ;
  do tv <- fetch_text kw unit q_next tt true cols (with_filter x (fst fc)) limit ;
  send (snd fc) (fst tv) (snd tv).

(** turso.rs:546-566: the filter is not transformed. *)
Definition turso_delete_where (c : C) (table : string) (e : BoolExpr) : outcome (list (list tvalue) * C) :=
  do tv <- run unit tt (delete_text kw unit q_next table e) ;
  send c (fst tv) (snd tv).
End Transform.
