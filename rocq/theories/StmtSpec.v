(** What loading, deleting, inserting and updating mean, in terms of rows.
    Specification only. *)
From Coq Require Import Permutation.
From Verif Require Import Base SqlVal Sql SqlStmt Query QuerySpec Stmt.

Section Spec.
Variables (E : engine) (D : db).

(** The row satisfies the filter. *)
Definition row_matches (t : string) (e : option BoolExpr) (r : row) : bool :=
  match e with
  | None => true
  | Some e => match means E D [(t, r)] e with Some (Some true) => true | _ => false end
  end.
(** The filter only speaks of columns that exist. *)
Definition filter_ok (t : string) (e : option BoolExpr) : Prop :=
  match e with
  | None => True
  | Some e => forall r, In r (D t) -> exists v, means E D [(t, r)] e = Some v
  end.

(** Row [a] may stand before row [b]: by the first order term, ties by the next. *)
Fixpoint row_le (os : list Order) (a b : row) : Prop :=
  match os with
  | [] => True
  | o :: os' =>
      exists x y, field (ord_column o) a = Some x /\ field (ord_column o) b = Some y /\
        let k := if ord_desc o then e_ord E y x else e_ord E x y in
        k = Lt \/ (k = Eq /\ row_le os' a b)
  end.

Definition drop (n : option Z) {A} (l : list A) : list A :=
  match n with Some n => skipn (Z.to_nat n) l | None => l end.
Definition take (n : option Z) {A} (l : list A) : list A :=
  match n with Some n => firstn (Z.to_nat n) l | None => l end.
Definition nonneg (n : option Z) : Prop := match n with Some n => (0 <= n)%Z | None => True end.

Definition columns_of (cols : list string) (r : row) : option (list SqlVal) :=
  all_some (map (fun c => field c r) cols).

(** [out] is what the query may return: the matching rows of its table in an
    order its sort terms allow, without the first [offset], at most [limit]. *)
Definition returns (x : Query) (limit : option Z) (cols : list string) (out : list (list SqlVal)) : Prop :=
  exists sorted,
    Permutation (filter (row_matches (q_table x) (q_filter x)) (D (q_table x))) sorted
    /\ StronglySorted (row_le (q_sort x)) sorted
    /\ all_some (map (columns_of cols) (take limit (drop (q_offset x) sorted))) = Some out.

(** The names of a query can be written in SQL. *)
Definition query_names_ok (d : dialect) (x : Query) (cols : list string) : Prop :=
  identifier (q_table x) = true /\ cols <> [] /\ Forall (fun c => identifier c = true) cols
  /\ Forall (fun o => identifier (ord_column o) = true) (q_sort x)
  /\ match q_filter x with
     | Some e => bracket_free Anywhere e /\ supported d e
     | None => True
     end.
End Spec.

(** The bound values of a query's statement. *)
Definition query_values (x : Query) : list SqlVal :=
  match q_filter x with Some e => bound_values e | None => [] end.

(** The row with column [c] set to [v] for every pair. *)
Definition assign1 (c : string) (v : SqlVal) (r : row) : row :=
  map (fun nv => if String.eqb (fst nv) c then (fst nv, v) else nv) r.
Definition assign (l : list (string * SqlVal)) (r : row) : row :=
  fold_left (fun r cv => assign1 (fst cv) (snd cv) r) l r.

(** The table with each row for which [p] holds rewritten. *)
Definition rewrite_rows (p : row -> bool) (f : row -> row) (l : list row) : list row :=
  map (fun r => if p r then f r else r) l.
(** The row's key equals the given one. *)
Definition has_key (E : engine) (pk : string) (v : SqlVal) (r : row) : bool :=
  match field pk r with
  | Some x => match compare3 E CEq x v with Some true => true | _ => false end
  | None => false
  end.
(** Each row has each of the columns exactly once. *)
Definition row_has (cols : list string) (r : row) : Prop :=
  NoDup (map fst r) /\ incl cols (map fst r).

(** The number of values a statement can bind on a backend: PostgreSQL's
    placeholder counter is an i8. *)
Definition room (b : backend) (n : nat) : Prop :=
  match b with Sqlite => True | Pg checked => n <= (if checked then 126 else 127) end.
(** PostgreSQL takes an OFFSET without LIMIT. *)
Definition reads_sql (b : backend) (d : dialect) : Prop :=
  match b with Sqlite => True | Pg _ => d_offset_alone d = true end.
(** An OFFSET without LIMIT is sent to SQLite with the limit i32::MAX. *)
Definition fits (b : backend) (x : Query) (limit : option Z) (D : db) : Prop :=
  match b with
  | Sqlite => limit = None -> q_offset x <> None -> (Z.of_nat (List.length (D (q_table x))) < 2 ^ 31)%Z
  | Pg _ => True
  end.

(** The placeholders of a text, in order; [?] counts as the next parameter. *)
Definition is_place (t : tok) : bool := match t with TParam _ | TQ => true | _ => false end.
Fixpoint numbered (k : Z) (n : nat) : list tok :=
  match n with O => [] | S m => TParam k :: numbered (k + 1) m end.
Definition parameters_are (s : string) (n : nat) : Prop := filter is_place (tokens s) = numbered 1 n.
(** The placeholders of the text itself are $1 ... $n. *)
Definition dollars_are (s : string) (n : nat) : Prop := filter is_place (lex s) = numbered 1 n.

(** A filter with every value but integers blanked out. *)
Definition blank_val (v : SqlVal) : SqlVal :=
  match v with VInt i | VBigInt i => VBigInt i | _ => VBool false end.
Fixpoint blank (e : BoolExpr) : BoolExpr :=
  let op (x : Expr) := match x with EVal v => EVal (blank_val v) | ECond c => ECond (blank c) | _ => x end in
  match e with
  | BEq c (EVal VNull) => BEq c (EVal VNull)
  | BNe c (EVal VNull) => BNe c (EVal VNull)
  | BEq c x => BEq c (op x)
  | BNe c x => BNe c (op x)
  | BLt c x => BLt c (op x)
  | BGt c x => BGt c (op x)
  | BLe c x => BLe c (op x)
  | BGe c x => BGe c (op x)
  | BLike c x => BLike c (op x)
  | BTrue => BTrue
  | BAllOf l => BAllOf (map blank l)
  | BAnd a b => BAnd (blank a) (blank b)
  | BOr a b => BOr (blank a) (blank b)
  | BNot a => BNot (blank a)
  | BIn c vs => BIn c (map blank_val vs)
  | BSubquery c t tc a => BSubquery c t tc (blank a)
  | BSubqueryJoin c t c2 js a => BSubqueryJoin c t c2 js (blank a)
  end.
Definition blank_query (x : Query) : Query :=
  {| q_table := q_table x; q_filter := option_map blank (q_filter x); q_limit := q_limit x;
     q_offset := q_offset x; q_sort := q_sort x |}.

(** * What a sequence of builder calls asks for *)

Fixpoint last_some {A B} (f : A -> option B) (l : list A) : option B :=
  match l with
  | [] => None
  | a :: r => match last_some f r with Some b => Some b | None => f a end
  end.
(** The last filter, limit and offset given; all orders, in the order given. *)
Definition asked (t : string) (l : list build) : Query :=
  {| q_table := t;
     q_filter := last_some (fun b => match b with BFilter e => Some e | _ => None end) l;
     q_limit := last_some (fun b => match b with BLimit n => Some n | _ => None end) l;
     q_offset := last_some (fun b => match b with BOffset n => Some n | _ => None end) l;
     q_sort := flat_map (fun b => match b with BOrder c d => [{| ord_desc := d; ord_column := c |}] | _ => [] end) l |}.
