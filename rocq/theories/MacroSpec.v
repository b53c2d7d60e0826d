(** What a filter expression says as Rust code about an object.
    Specification only. *)
From Verif Require Import Base SqlVal Sql Query QuerySpec Macro.

Section Spec.
Variables (E : engine) (D : db) (models : string -> option model).

(** Comparing a field's value with a value.  [None] is equal to [None] only; any
    other comparison in which one side has no value is left out (not true). *)
Definition compares (op : rop) (x v : SqlVal) : Prop :=
  match op with
  | OEq => if is_null v then x = VNull else compare3 E CEq x v = Some true
  | ONe => if is_null v then x <> VNull else compare3 E CNe x v = Some true
  | OLt => compare3 E CLt x v = Some true
  | OGt => compare3 E CGt x v = Some true
  | OLe => compare3 E CLe x v = Some true
  | OGe => compare3 E CGe x v = Some true
  | OAnd | OOr | OOther => False
  end.
Definition value_of (e : rexpr) : option SqlVal :=
  match e with
  | RLit v | RBlock v => Some v
  | RPath "None" => Some VNull
  | _ => None
  end.

(** The object with these column values satisfies the expression. *)
Fixpoint rust_true (m : model) (r : row) (e : rexpr) : Prop :=
  (* the object with the given key satisfies [a]; a literal stands for the key *)
  let that (f : model) (r2 : row) (a : rexpr) :=
    match a with
    | RLit v => exists k, field (m_pk f) r2 = Some k /\ compare3 E CEq k v = Some true
    | _ => rust_true f r2 a
    end in
  match e with
  | RBin OAnd a b => rust_true m r a /\ rust_true m r b
  | RBin OOr a b => rust_true m r a \/ rust_true m r b
  | RBin op (RPath c) b =>
      exists x v, field c r = Some x /\ value_of b = Some v /\ compares op x v
  | RCall (RPath c) MLike (a :: _) =>
      exists x v, field c r = Some x /\ value_of a = Some v /\ e_like E x v = Some true
  | RCall (RPath c) MIsIn (RVec vs :: _) =>
      exists x v, field c r = Some x /\ In v vs /\ compare3 E CEq x v = Some true
  (* the object referenced by the foreign key satisfies the argument *)
  | RCall (RPath c) MMatches [a] =>
      exists t f x r2 k, kind_of m c = Some (Fk t) /\ models t = Some f
        /\ field c r = Some x /\ In r2 (D (m_table f)) /\ field (m_pk f) r2 = Some k
        /\ compare3 E CEq x k = Some true /\ that f r2 a
  (* some item linked to the object satisfies the argument *)
  | RCall (RPath c) MContains [a] =>
      exists mt t f pk o h l r2 k, kind_of m c = Some (ManyOf mt t) /\ models t = Some f
        /\ field (m_pk m) r = Some pk
        /\ In l (D mt) /\ field "owner" l = Some o /\ field "has" l = Some h
        /\ compare3 E CEq pk o = Some true
        /\ In r2 (D (m_table f)) /\ field (m_pk f) r2 = Some k
        /\ compare3 E CEq h k = Some true /\ that f r2 a
  | _ => False
  end.

(** * Which expressions and databases *)

Definition is_or (e : rexpr) : bool := match e with RBin OOr _ _ => true | _ => false end.
(** An expression as Rust's parser yields it when no brackets are written ([||]
    is not an operand of [&&]), without groups or copied conditions.  Literals
    are values; is_in has at least one element where the engine needs it. *)
Fixpoint as_written (d : dialect) (e : rexpr) : Prop :=
  match e with
  | RBin OAnd a b => is_or a = false /\ is_or b = false /\ as_written d a /\ as_written d b
  | RBin _ a b => as_written d a /\ as_written d b
  | RCall _ _ args => fold_right (fun a acc => as_written d a /\ acc) True args
  | RLit v => v <> VNull
  | RVec vs => vs = [] -> d_empty_in d = true
  | RGroup _ | RBlockCond _ => False
  | _ => True
  end.

(** Names that can be written without quotes where butane does not quote them;
    the key is a column; the item tables of a Many have no column [owner] or
    [has] and are not the link table. *)
Definition model_ok (d : dialect) (m : model) : Prop :=
  identifier (m_table m) = true
  /\ bare_name d (m_pk m) /\ kind_of m (m_pk m) = Some Plain
  /\ (forall c k, kind_of m c = Some k -> bare_name d c)
  /\ (forall c t, kind_of m c = Some (Fk t) -> exists f, models t = Some f)
  /\ (forall c mt t, kind_of m c = Some (ManyOf mt t) ->
      identifier mt = true /\ exists f, models t = Some f /\ mt <> m_table f
      /\ kind_of f "owner" = None /\ kind_of f "has" = None).
Definition models_ok (d : dialect) : Prop := forall n m, models n = Some m -> model_ok d m.

(** The columns of a model are those of its fields that are no Many. *)
Definition is_column (m : model) (c : string) : Prop :=
  exists k, kind_of m c = Some k /\ match k with ManyOf _ _ => False | _ => True end.
Definition has_columns (m : model) (r : row) : Prop := forall c, is_column m c -> exists v, field c r = Some v.
(** The tables hold rows of their models, the link tables pairs. *)
Definition tables_ok : Prop :=
  (forall n m, models n = Some m -> Forall (has_columns m) (D (m_table m)))
  /\ (forall n m c mt t, models n = Some m -> kind_of m c = Some (ManyOf mt t) ->
      Forall (fun l => exists o h, l = [("owner", o); ("has", h)]) (D mt)).

(** * Which expressions the macro accepts *)

(** A comparison of a field with a value, a method call on a field of the right
    kind, or a combination of such. *)
Fixpoint well_formed (m : model) (e : rexpr) : Prop :=
  match e with
  | RBin OAnd a b | RBin OOr a b => well_formed m a /\ well_formed m b
  | RBin (OEq | ONe) (RPath c) b => c <> "None"%string /\ value_of b <> None
      /\ (kind_of m c = Some Plain \/ exists t, kind_of m c = Some (Fk t))
  | RBin (OLt | OGt | OLe | OGe) (RPath c) b => c <> "None"%string /\ value_of b <> None /\ kind_of m c = Some Plain
  | RCall (RPath c) MLike [a] => kind_of m c = Some Plain /\ value_of a <> None
  | RCall (RPath c) MIsIn [RVec _] => kind_of m c = Some Plain
  | RCall (RPath c) MMatches [a] => exists t f, kind_of m c = Some (Fk t) /\ models t = Some f
      /\ match a with RLit _ => True | _ => well_formed f a end
  | RCall (RPath c) MContains [a] => exists mt t f, kind_of m c = Some (ManyOf mt t) /\ models t = Some f
      /\ match a with RLit _ => True | _ => well_formed f a end
  | RBlockCond _ => True
  | RGroup e => well_formed m e
  | _ => False
  end.
End Spec.

(** * Filters across relations *)

(** The columns of the filtered table a filter names (those inside subqueries
    are of other tables). *)
Definition rhs_columns (e : Expr) : list string := match e with EColumn c => [c] | _ => [] end.
Fixpoint own_columns (e : BoolExpr) : list string :=
  match e with
  | BTrue => []
  | BEq c x | BNe c x | BLt c x | BGt c x | BLe c x | BGe c x | BLike c x => c :: rhs_columns x
  | BAllOf l => flat_map own_columns l
  | BAnd a b | BOr a b => own_columns a ++ own_columns b
  | BNot a => own_columns a
  | BSubquery c _ _ _ | BIn c _ | BSubqueryJoin c _ _ _ _ => [c]
  end.
