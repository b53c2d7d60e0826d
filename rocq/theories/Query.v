(** Filter expressions and the SQL text generated from them.
    Models butane_core/src/query/mod.rs and the query part of
    butane_core/src/db/helper.rs. *)
From Coq Require Import DecimalString.
From Verif Require Import Base SqlVal.

(** butane_core/src/query/mod.rs:99-119 ([Column]). *)
Record Column := { col_table : option string; col_name : string }.

(** butane_core/src/query/mod.rs:88-96 ([Join]; only [Inner] exists). *)
Record Join := { join_table : string; join_col1 : Column; join_col2 : Column }.

(** butane_core/src/query/mod.rs:25-71 ([Expr], [BoolExpr]). *)
Inductive Expr :=
| EColumn (c : string)
| EVal (v : SqlVal)
| EPlaceholder
| ECond (c : BoolExpr)
with BoolExpr :=
| BTrue
| BEq (c : string) (e : Expr)
| BNe (c : string) (e : Expr)
| BLt (c : string) (e : Expr)
| BGt (c : string) (e : Expr)
| BLe (c : string) (e : Expr)
| BGe (c : string) (e : Expr)
| BLike (c : string) (e : Expr)
| BAllOf (l : list BoolExpr)
| BAnd (a b : BoolExpr)
| BOr (a b : BoolExpr)
| BNot (a : BoolExpr)
| BSubquery (c tbl2 tbl2_col : string) (e : BoolExpr)
| BIn (c : string) (vals : list SqlVal)
| BSubqueryJoin (c tbl2 : string) (col2 : Column) (joins : list Join) (e : BoolExpr).

(** [{}] formatting of an i32/i64: decimal digits, with a minus sign if negative. *)
Definition dec (z : Z) : string := NilEmpty.string_of_int (Z.to_int z).

Section Render.
(** helper.rs:23-29: is the word (upper-cased) in sqlparser's keyword list?
    The list belongs to a dependency, so it is a parameter. *)
Variable kw : string -> bool.

(** helper.rs:23-29 *)
Definition quote_reserved_word (w : string) : string :=
  if kw w then ("""" ++ w ++ """")%string else w.

(** helper.rs:17-20 ([PlaceholderSource]): the next placeholder's text and the
    new state of the source, or a panic. *)
Variable P : Type.
Variable next_placeholder : P -> outcome (string * P).

(** What the functions of helper.rs write to: the text so far ([w]), the bound
    values so far ([values]) and the placeholder source ([pls]). *)
Record W := { out : string; values : list SqlVal; pls : P }.

Definition wr (s : string) (w : W) : outcome W :=
  Ok {| out := (out w ++ s)%string; values := values w; pls := pls w |}.
Definition push (v : SqlVal) (w : W) : outcome W :=
  Ok {| out := out w; values := values w ++ [v]; pls := pls w |}.
Definition place (w : W) : outcome W :=
  do sp <- next_placeholder (pls w) ;
  Ok {| out := (out w ++ fst sp)%string; values := values w; pls := snd sp |}.
Definition andthen (f g : W -> outcome W) (w : W) : outcome W := do w' <- f w ; g w'.
Infix ">>" := andthen (at level 50, left associativity).

(** helper.rs:289-300 *)
Definition sql_column (c : Column) : W -> outcome W :=
  match col_table c with
  | Some t => wr (quote_reserved_word t) >> wr "." >> wr (quote_reserved_word (col_name c))
  | None => wr (col_name c)
  end.

(** helper.rs:271-287: nothing is written between two joins. *)
Fixpoint sql_joins (js : list Join) : W -> outcome W :=
  match js with
  | [] => fun w => Ok w
  | j :: js' =>
      wr "INNER JOIN " >> wr (quote_reserved_word (join_table j)) >> wr " ON "
      >> sql_column (join_col1 j) >> wr " = " >> sql_column (join_col2 j)
      >> sql_joins js'
  end.

(** helper.rs:45-56: a value is written in place if it is an integer, else bound. *)
Definition sql_val (v : SqlVal) : W -> outcome W :=
  match v with
  | VInt i | VBigInt i => wr (dec i)
  | _ => push v >> place
  end.

(** helper.rs:128-139: the values of an IN list. *)
Fixpoint sql_vals (vs : list SqlVal) : W -> outcome W :=
  match vs with
  | [] => fun w => Ok w
  | [v] => sql_val v
  | v :: vs' => sql_val v >> wr ", " >> sql_vals vs'
  end.

(** helper.rs:35-145 with [f] tied to itself, as every backend does
    (sqlite.rs:616-625, pg.rs:557-566, turso.rs:1214-1223). *)
Fixpoint sql_for_expr (e : Expr) : W -> outcome W :=
  match e with
  | EColumn c => wr (quote_reserved_word c)
  | EVal v => sql_val v
  | EPlaceholder => place
  | ECond c => sql_for_cond c
  end
with sql_for_cond (c : BoolExpr) : W -> outcome W :=
  match c with
  | BTrue => wr "TRUE"
  | BEq col (EVal VNull) => wr col >> wr " IS NULL"
  | BEq col ex => wr col >> wr " = " >> sql_for_expr ex
  | BNe col (EVal VNull) => wr col >> wr " IS NOT NULL"
  | BNe col ex => wr col >> wr " <> " >> sql_for_expr ex
  | BLt col ex => wr col >> wr " < " >> sql_for_expr ex
  | BGt col ex => wr col >> wr " > " >> sql_for_expr ex
  | BLe col ex => wr col >> wr " <= " >> sql_for_expr ex
  | BGe col ex => wr col >> wr " >= " >> sql_for_expr ex
  | BLike col ex => wr col >> wr " like " >> sql_for_expr ex
  | BAllOf conds =>
      (fix all (l : list BoolExpr) : W -> outcome W :=
         match l with
         | [] => fun w => Ok w
         | c :: l' => match l' with
                      | [] => sql_for_cond c
                      | _ => sql_for_cond c >> wr " AND " >> all l'
                      end
         end) conds
  | BAnd a b => sql_for_cond a >> wr " AND " >> sql_for_cond b
  | BOr a b => sql_for_cond a >> wr " OR " >> sql_for_cond b
  | BNot a => wr "NOT " >> sql_for_cond a
  | BSubquery col tbl2 tbl2_col ex =>
      wr (quote_reserved_word col) >> wr " IN (SELECT " >> wr (quote_reserved_word tbl2_col)
      >> wr " FROM " >> wr (quote_reserved_word tbl2) >> wr " WHERE "
      >> sql_for_cond ex >> wr ")"
  | BSubqueryJoin col tbl2 col2 joins ex =>
      wr (quote_reserved_word col) >> wr " IN (SELECT " >> sql_column col2
      >> wr " FROM " >> wr (quote_reserved_word tbl2) >> wr " " >> sql_joins joins
      >> wr " WHERE " >> sql_for_cond ex >> wr ")"
  | BIn col vals =>
      wr (quote_reserved_word col) >> wr " IN (" >> sql_vals vals >> wr ")"
  end.

(** The text and bound values of a condition written from scratch, starting
    with the placeholder source in state [p]. *)
Definition where_text (p : P) (c : BoolExpr) : outcome (string * list SqlVal) :=
  do w <- sql_for_cond c {| out := ""; values := []; pls := p |} ;
  Ok (out w, values w).
End Render.

(** sqlite.rs:916-927, turso.rs:1226-1237: always [?]. *)
Definition q_next (p : unit) : outcome (string * unit) := Ok ("?", p).
(** pg.rs:936-951.  [n] is an i8 starting at 1: adding one to 127 panics in a
    build with overflow checks and otherwise wraps to -128. *)
Definition pg_next (checked : bool) (n : Z) : outcome (string * Z) :=
  if (n =? 127)%Z
  then if checked then Panic else Ok (("$" ++ dec n)%string, (-128)%Z)
  else Ok (("$" ++ dec n)%string, (n + 1)%Z).
