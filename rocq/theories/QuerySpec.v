(** What a filter expression says, and which filters SQL can express without
    brackets.  Specification only. *)
From Verif Require Import Base SqlVal Sql Query.

(** * The meaning of a filter *)

Definition colref_of (c : Column) : colref := (col_table c, col_name c).
Definition joins_of (js : list Join) : list (string * colref * colref) :=
  map (fun j => (join_table j, colref_of (join_col1 j), colref_of (join_col2 j))) js.

Section Meaning.
Variables (E : engine) (D : db).

(** The right-hand side of a comparison: a value or a column of the same row.
    A placeholder or a nested condition has no meaning of its own. *)
Definition rhs (f : frame) (e : Expr) : option SqlVal :=
  match e with
  | EColumn c => lookup (None, c) [f]
  | EVal v => Some v
  | EPlaceholder | ECond _ => None
  end.

Definition compare_col (f : frame) (c : string) (e : Expr) (cmp : SqlVal -> SqlVal -> tv) : option tv :=
  obind2 (lookup (None, c) [f]) (fun x => obind2 (rhs f e) (fun y => Some (cmp x y))).

(** The three-valued truth of a filter on a row (or joined rows) of the table it
    filters; [None] if it names a column that is not there.
    Comparing for (in)equality with no value ([None] in Rust, NULL) asks whether
    there is a value. *)
Fixpoint means (f : frame) (e : BoolExpr) : option tv :=
  match e with
  | BTrue => Some (Some true)
  | BEq c (EVal VNull) => obind2 (lookup (None, c) [f]) (fun x => Some (Some (is_null x)))
  | BNe c (EVal VNull) => obind2 (lookup (None, c) [f]) (fun x => Some (Some (negb (is_null x))))
  | BEq c e => compare_col f c e (compare3 E CEq)
  | BNe c e => compare_col f c e (compare3 E CNe)
  | BLt c e => compare_col f c e (compare3 E CLt)
  | BGt c e => compare_col f c e (compare3 E CGt)
  | BLe c e => compare_col f c e (compare3 E CLe)
  | BGe c e => compare_col f c e (compare3 E CGe)
  | BLike c e => compare_col f c e (e_like E)
  | BAllOf l => option_map and_all (all_some (map (means f) l))
  | BAnd a b => obind2 (means f a) (fun x => obind2 (means f b) (fun y => Some (and3 x y)))
  | BOr a b => obind2 (means f a) (fun x => obind2 (means f b) (fun y => Some (or3 x y)))
  | BNot a => option_map not3 (means f a)
  | BIn c vs => obind2 (lookup (None, c) [f]) (fun x => Some (in3 E x vs))
  | BSubquery c t tc e =>
      obind2 (lookup (None, c) [f]) (fun x =>
      obind2 (select_frames (fun f' => means f' e) (base_frames D t)) (fun sel =>
      obind2 (all_some (map (fun f' => lookup (None, tc) [f']) sel)) (fun vs =>
        Some (in3 E x vs))))
  | BSubqueryJoin c t c2 js e =>
      obind2 (lookup (None, c) [f]) (fun x =>
      obind2 (join_frames E D [] (joins_of js) (base_frames D t)) (fun fs =>
      obind2 (select_frames (fun f' => means f' e) fs) (fun sel =>
      obind2 (all_some (map (fun f' => lookup (colref_of c2) [f']) sel)) (fun vs =>
        Some (in3 E x vs)))))
  end.
End Meaning.

(** * Filters that need no brackets *)

(** Where an expression stands: anywhere, beside an AND, or behind a NOT. *)
Inductive spot := Anywhere | BesideAnd | BehindNot.

(** Read back by SQL's precedences the text without brackets has the same shape:
    no OR beside an AND, neither AND nor OR behind a NOT, no empty conjunction. *)
Fixpoint bracket_free (p : spot) (e : BoolExpr) : Prop :=
  match e with
  | BOr a b => p = Anywhere /\ bracket_free Anywhere a /\ bracket_free Anywhere b
  | BAnd a b => p <> BehindNot /\ bracket_free BesideAnd a /\ bracket_free BesideAnd b
  | BAllOf [] => False
  | BAllOf [x] => bracket_free p x
  | BAllOf l => p <> BehindNot /\ fold_right (fun x acc => bracket_free BesideAnd x /\ acc) True l
  | BNot a => bracket_free BehindNot a
  | BSubquery _ _ _ a => bracket_free Anywhere a
  | BSubqueryJoin _ _ _ _ a => bracket_free Anywhere a
  | _ => True
  end.

(** No conjunction of nothing, which would be written as nothing. *)
Fixpoint no_empty_all (e : BoolExpr) : Prop :=
  match e with
  | BAllOf l => l <> [] /\ fold_right (fun x acc => no_empty_all x /\ acc) True l
  | BAnd a b | BOr a b => no_empty_all a /\ no_empty_all b
  | BNot a | BSubquery _ _ _ a | BSubqueryJoin _ _ _ _ a => no_empty_all a
  | _ => True
  end.

(** * Names *)

Fixpoint all_chars (p : ascii -> bool) (s : string) : bool :=
  match s with "" => true | String c r => p c && all_chars p r end.
(** An identifier: a letter followed by letters and digits. *)
Definition identifier (w : string) : bool :=
  match w with "" => false | String c r => is_alpha c && all_chars is_word r end.
(** An identifier the engine accepts without quotes. *)
Definition bare_name (d : dialect) (w : string) : Prop := identifier w = true /\ reserved d w = false.

Definition column_ok (d : dialect) (c : Column) : Prop :=
  match col_table c with
  | Some t => identifier t = true /\ identifier (col_name c) = true
  | None => bare_name d (col_name c)
  end.
Definition operand_ok (e : Expr) : Prop :=
  match e with
  | EColumn c => identifier c = true
  | EVal _ => True
  | EPlaceholder | ECond _ => False
  end.

(** All names are identifiers; a column compared with a value is no reserved
    word (it is written without quotes); no stand-alone placeholders or conditions
    as operands; an empty IN list only where the engine takes it; at most one
    join per subquery. *)
Fixpoint supported (d : dialect) (e : BoolExpr) : Prop :=
  match e with
  | BTrue => True
  | BEq c e | BNe c e | BLt c e | BGt c e | BLe c e | BGe c e | BLike c e =>
      bare_name d c /\ operand_ok e
  | BAllOf l => fold_right (fun x acc => supported d x /\ acc) True l
  | BAnd a b | BOr a b => supported d a /\ supported d b
  | BNot a => supported d a
  | BIn c vs => identifier c = true /\ (vs = [] -> d_empty_in d = true)
  | BSubquery c t tc a =>
      identifier c = true /\ identifier t = true /\ identifier tc = true /\ supported d a
  | BSubqueryJoin c t c2 js a =>
      identifier c = true /\ identifier t = true /\ column_ok d c2 /\ (List.length js <= 1)%nat
      /\ Forall (fun j => identifier (join_table j) = true
                          /\ column_ok d (join_col1 j) /\ column_ok d (join_col2 j)) js
      /\ supported d a
  end.

(** butane quotes at least the words the engine reserves. *)
Definition quotes_enough (kw : string -> bool) (d : dialect) : Prop :=
  forall w, reserved d w = true -> kw w = true.

(** * Bound values *)

(** The values a filter binds, in the order they occur: everything but integers
    and the NULL of an [= NULL] or [<> NULL] test. *)
Definition bound (v : SqlVal) : list SqlVal :=
  match v with VInt _ | VBigInt _ => [] | _ => [v] end.
Fixpoint bound_values (e : BoolExpr) : list SqlVal :=
  match e with
  | BEq _ (EVal VNull) | BNe _ (EVal VNull) => []
  | BEq _ e | BNe _ e | BLt _ e | BGt _ e | BLe _ e | BGe _ e | BLike _ e =>
      match e with
      | EVal v => bound v
      | ECond c => bound_values c
      | EColumn _ | EPlaceholder => []
      end
  | BTrue => []
  | BAllOf l => flat_map bound_values l
  | BAnd a b | BOr a b => bound_values a ++ bound_values b
  | BNot a => bound_values a
  | BIn _ vs => flat_map bound vs
  | BSubquery _ _ _ a => bound_values a
  | BSubqueryJoin _ _ _ _ a => bound_values a
  end.
