(** The statements butane generates for queries and data changes.
    Models butane_core/src/db/helper.rs:147-222,256-269 and the statement text
    of the backends in db/sqlite.rs, db/pg.rs and db/turso.rs; and the query
    builder of butane_core/src/query/mod.rs. *)
From Verif Require Import Base SqlVal Query.

(** query/mod.rs:75-84 *)
Record Order := { ord_desc : bool; ord_column : string }.

Section Helper.
Variable kw : string -> bool.
Variable P : Type.
Variable next_placeholder : P -> outcome (string * P).
Notation W := (W P).
Notation wr := (wr P).
Notation place := (place P next_placeholder).
Notation q := (quote_reserved_word kw).
Infix ">>" := (andthen P) (at level 50, left associativity).

(** helper.rs:256-269.  A column is represented by its name; its type does not
    enter the text. *)
Definition list_columns (cols : list string) : W -> outcome W := wr (join ", " (map q cols)).

(** helper.rs:147-151 *)
Definition sql_select (cols : list string) (table : string) : W -> outcome W :=
  wr "SELECT " >> list_columns cols >> wr " FROM " >> wr (q table).

(** helper.rs:163-166: one placeholder per column. *)
Fixpoint placeholders {A} (sep : string) (cols : list A) : W -> outcome W :=
  match cols with
  | [] => fun w => Ok w
  | _ :: r => wr sep >> place >> placeholders ", " r
  end.

(** helper.rs:153-172 *)
Definition sql_insert_with_placeholders (table : string) (cols : list string) : W -> outcome W :=
  wr "INSERT INTO " >> wr (q table) >> wr " " >>
  match cols with
  | [] => wr "DEFAULT VALUES "
  | _ => wr "(" >> list_columns cols >> wr ") VALUES (" >> placeholders "" cols >> wr ")"
  end.

(** helper.rs:183-193: [c = p] for every column. *)
Fixpoint assignments (sep : string) (cols : list string) : W -> outcome W :=
  match cols with
  | [] => fun w => Ok w
  | c :: r => wr sep >> wr (q c) >> wr " = " >> place >> assignments ", " r
  end.

(** helper.rs:175-201 *)
Definition sql_update_with_placeholders (table pkcol : string) (cols : list string) : W -> outcome W :=
  wr "UPDATE " >> wr (q table) >> wr " SET " >> assignments "" cols
  >> wr " WHERE " >> wr (q pkcol) >> wr " = " >> place.

(** helper.rs:203-209 *)
Definition sql_limit (n : Z) : W -> outcome W := wr " LIMIT " >> wr (dec n).
Definition sql_offset (n : Z) : W -> outcome W := wr " OFFSET " >> wr (dec n).

(** helper.rs:212-222 *)
Fixpoint order_terms (sep : string) (os : list Order) : W -> outcome W :=
  match os with
  | [] => fun w => Ok w
  | o :: r => wr sep >> wr (q (ord_column o)) >> wr " "
              >> wr (if ord_desc o then "DESC" else "ASC") >> order_terms ", " r
  end.
Definition sql_order (os : list Order) : W -> outcome W := wr " ORDER BY " >> order_terms "" os.

Definition opt {A} (f : A -> W -> outcome W) (x : option A) : W -> outcome W :=
  match x with Some a => f a | None => fun w => Ok w end.

Definition sql_where (e : BoolExpr) : W -> outcome W :=
  wr " WHERE " >> sql_for_cond kw P next_placeholder e.

(** i32::MAX *)
Definition i32_max : Z := 2147483647.

(** The text part of [query]: sqlite.rs:245-276, turso.rs:352-387 ([max_limit] =
    true: an offset without a limit gets the largest limit) and pg.rs:185-211
    ([max_limit] = false). *)
Definition query_text (max_limit : bool) (table : string) (cols : list string) (e : option BoolExpr)
  (limit offset : option Z) (order : option (list Order)) : W -> outcome W :=
  sql_select cols table >> opt sql_where e >> opt sql_order order >> opt sql_limit limit
  >> match offset with
     | None => fun w => Ok w
     | Some n => (match limit with
                  | None => if max_limit then sql_limit i32_max else (fun w => Ok w)
                  | Some _ => fun w => Ok w
                  end) >> sql_offset n
     end.

(** delete_where: sqlite.rs:368-390, pg.rs:322-344, turso.rs:546-566. *)
Definition delete_text (table : string) (e : BoolExpr) : W -> outcome W :=
  wr "DELETE FROM " >> wr (q table) >> wr " WHERE " >> sql_for_cond kw P next_placeholder e.

(** insert_returning_pk on PostgreSQL, pg.rs:236-244: the key column is written
    as it is. *)
Definition pg_insert_text (table : string) (cols : list string) (pkcol : string) : W -> outcome W :=
  sql_insert_with_placeholders table cols >> wr " RETURNING " >> wr pkcol.

(** Run a writer from scratch: text and bound values. *)
Definition run (p : P) (f : W -> outcome W) : outcome (string * list SqlVal) :=
  do w <- f {| out := ""; values := []; pls := p |} ; Ok (out P w, values P w).
End Helper.

(** sqlite.rs:878-913 and pg.rs:870-911.  [mark n] is the text of the n-th
    placeholder: [?] or [$n] (here an i32 counter, so no overflow at 127). *)
Section Upsert.
Variable kw : string -> bool.
Notation q := (quote_reserved_word kw).
Variable mark : nat -> string.
Fixpoint marks (sep : string) (n : nat) (cols : list string) : string :=
  match cols with
  | [] => ""
  | _ :: r => (sep ++ mark n ++ marks ", " (S n) r)%string
  end.
Fixpoint excluded (sep : string) (cols : list string) : string :=
  match cols with
  | [] => ""
  | c :: r => (sep ++ "excluded." ++ q c ++ excluded ", " r)%string
  end.
Definition sql_insert_or_update (table : string) (cols : list string) (pkcol : string) : string :=
  ("INSERT " ++ "INTO " ++ q table ++ " (" ++ join ", " (map q cols) ++ ") VALUES ("
   ++ marks "" 1 cols ++ ")" ++ " ON CONFLICT (" ++ q pkcol ++ ") DO "
   ++ (if Nat.ltb 1 (List.length cols)
       then "UPDATE SET (" ++ join ", " (map q cols) ++ ") = (" ++ excluded "" cols ++ ")"
       else "NOTHING"))%string.
End Upsert.
Definition q_mark (_ : nat) : string := "?".
Definition pg_mark (n : nat) : string := ("$" ++ dec (Z.of_nat n))%string.

(** * The query builder *)

(** query/mod.rs:124-133 ([phantom] dropped). *)
Record Query := {
  q_table : string;
  q_filter : option BoolExpr;
  q_limit : option Z;
  q_offset : option Z;
  q_sort : list Order;
}.

(** query/mod.rs:138-148 *)
Definition q_new (t : string) : Query :=
  {| q_table := t; q_filter := None; q_limit := None; q_offset := None; q_sort := [] |}.
(** query/mod.rs:150-189: the builder's methods. *)
Definition set_filter (e : BoolExpr) (x : Query) : Query :=
  {| q_table := q_table x; q_filter := Some e; q_limit := q_limit x; q_offset := q_offset x; q_sort := q_sort x |}.
Definition set_limit (n : Z) (x : Query) : Query :=
  {| q_table := q_table x; q_filter := q_filter x; q_limit := Some n; q_offset := q_offset x; q_sort := q_sort x |}.
Definition set_offset (n : Z) (x : Query) : Query :=
  {| q_table := q_table x; q_filter := q_filter x; q_limit := q_limit x; q_offset := Some n; q_sort := q_sort x |}.
Definition add_order (c : string) (desc : bool) (x : Query) : Query :=
  {| q_table := q_table x; q_filter := q_filter x; q_limit := q_limit x; q_offset := q_offset x;
     q_sort := q_sort x ++ [{| ord_desc := desc; ord_column := c |}] |}.

Inductive build := BFilter (e : BoolExpr) | BLimit (n : Z) | BOffset (n : Z) | BOrder (c : string) (desc : bool).
Definition build1 (x : Query) (b : build) : Query :=
  match b with
  | BFilter e => set_filter e x
  | BLimit n => set_limit n x
  | BOffset n => set_offset n x
  | BOrder c desc => add_order c desc x
  end.
Definition built (t : string) (l : list build) : Query := fold_left build1 l (q_new t).

Section Fetch.
Variable kw : string -> bool.
Variable P : Type.
Variable next_placeholder : P -> outcome (string * P).
Variable p0 : P.
Variable max_limit : bool.

(** query/mod.rs:227-246: what [fetch] asks of the connection. *)
Definition fetch_text (cols : list string) (x : Query) (limit : option Z) : outcome (string * list SqlVal) :=
  run P p0 (query_text kw P next_placeholder max_limit (q_table x) cols (q_filter x) limit (q_offset x)
              (match q_sort x with [] => None | l => Some l end)).
(** query/mod.rs:284-290 *)
Definition load_text (cols : list string) (x : Query) := fetch_text cols x (q_limit x).
(** query/mod.rs:278-283: the limit of the query is not used. *)
Definition load_first_text (cols : list string) (x : Query) := fetch_text cols x (Some 1%Z).
(** query/mod.rs:291-294 *)
Definition delete_query_text (x : Query) : outcome (string * list SqlVal) :=
  run P p0 (delete_text kw P next_placeholder (q_table x)
              (match q_filter x with Some e => e | None => BTrue end)).
End Fetch.

(** * Backends *)

(** The text generators of db/sqlite.rs (shared by db/turso.rs) and db/pg.rs;
    [checked]: built with overflow checks. *)
Inductive backend := Sqlite | Pg (checked : bool).

(** sqlite.rs:258-262, pg.rs:197-201: the WHERE condition. *)
Definition filter_sql (b : backend) kw (e : BoolExpr) : outcome (string * list SqlVal) :=
  match b with
  | Sqlite => where_text kw unit q_next tt e
  | Pg c => where_text kw Z (pg_next c) 1%Z e
  end.
Definition load_sql (b : backend) kw (cols : list string) (x : Query) : outcome (string * list SqlVal) :=
  match b with
  | Sqlite => load_text kw unit q_next tt true cols x
  | Pg c => load_text kw Z (pg_next c) 1%Z false cols x
  end.
Definition load_first_sql (b : backend) kw (cols : list string) (x : Query) : outcome (string * list SqlVal) :=
  match b with
  | Sqlite => load_first_text kw unit q_next tt true cols x
  | Pg c => load_first_text kw Z (pg_next c) 1%Z false cols x
  end.
Definition delete_sql (b : backend) kw (x : Query) : outcome (string * list SqlVal) :=
  match b with
  | Sqlite => delete_query_text kw unit q_next tt x
  | Pg c => delete_query_text kw Z (pg_next c) 1%Z x
  end.
(** The text of insert_only / insert_returning_pk (sqlite.rs:291-300,315-328;
    pg.rs:236-244,261-274).  The values are those given by the caller, in order. *)
Definition insert_sql (b : backend) kw (table : string) (cols : list string) : outcome string :=
  match b with
  | Sqlite => omap fst (run unit tt (sql_insert_with_placeholders kw unit q_next table cols))
  | Pg c => omap fst (run Z 1%Z (sql_insert_with_placeholders kw Z (pg_next c) table cols))
  end.
Definition insert_returning_sql (b : backend) kw (table : string) (cols : list string) (pk : string) : outcome string :=
  match b with
  | Sqlite => omap fst (run unit tt (sql_insert_with_placeholders kw unit q_next table cols))
  | Pg c => omap fst (run Z 1%Z (pg_insert_text kw Z (pg_next c) table cols pk))
  end.
(** sqlite.rs:343-367, pg.rs:295-321: the values are those of the columns
    followed by the key. *)
Definition update_sql (b : backend) kw (table pk : string) (cols : list string) : outcome string :=
  match b with
  | Sqlite => omap fst (run unit tt (sql_update_with_placeholders kw unit q_next table pk cols))
  | Pg c => omap fst (run Z 1%Z (sql_update_with_placeholders kw Z (pg_next c) table pk cols))
  end.
Definition update_values (values : list SqlVal) (pk : SqlVal) : list SqlVal := values ++ [pk].
Definition upsert_sql (b : backend) kw (table : string) (cols : list string) (pk : string) : string :=
  match b with
  | Sqlite => sql_insert_or_update kw q_mark table cols pk
  | Pg _ => sql_insert_or_update kw pg_mark table cols pk
  end.
