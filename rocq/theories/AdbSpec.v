(** Specification vocabulary for schemas: what it means for two schemas to be the
    same, without reference to how the code compares or edits them. *)
From Verif Require Import Base SqlVal Adb.

(** What a column's type denotes: a known type, however it is spelled, or a key
    still to be looked up. *)
Definition type_denotes (d : DeferredSqlType) : TypeIdentifier + TypeKey :=
  match d with
  | Known t => inl (TyId t)
  | KnownId i => inl i
  | Deferred k => inr k
  end.
Definition same_type (a b : DeferredSqlType) : Prop := type_denotes a = type_denotes b.

Definition same_ref (a b : ARef) : Prop :=
  match a, b with
  | RefLiteral x, RefLiteral y => x = y
  | RefDeferred x, RefDeferred y => same_type x y
  | _, _ => False
  end.

Definition same_opt {A} (R : A -> A -> Prop) (a b : option A) : Prop :=
  match a, b with
  | None, None => True
  | Some x, Some y => R x y
  | _, _ => False
  end.

(** Two column descriptions agree in every attribute. *)
Record same_column (a b : AColumn) : Prop := {
  sc_name : c_name a = c_name b;
  sc_type : same_type (c_type a) (c_type b);
  sc_nullable : c_nullable a = c_nullable b;
  sc_pk : c_pk a = c_pk b;
  sc_auto : c_auto a = c_auto b;
  sc_unique : c_unique a = c_unique b;
  sc_default : same_opt sqlval_same (c_default a) (c_default b);
  sc_ref : same_opt same_ref (c_ref a) (c_ref b) }.

(** Table [t] has a column agreeing with each column of [u], and conversely. *)
Definition same_table (t u : ATable) : Prop :=
  t_name t = t_name u
  /\ (forall c, In c (t_cols t) -> exists c', In c' (t_cols u) /\ same_column c c')
  /\ (forall c', In c' (t_cols u) -> exists c, In c (t_cols t) /\ same_column c c').

(** Schema [a] has a table agreeing with each table of [b], and conversely. *)
Definition same_schema (a b : ADB) : Prop :=
  (forall n t, In (n, t) (a_tables a) -> exists u, In (n, u) (a_tables b) /\ same_table t u)
  /\ (forall n u, In (n, u) (a_tables b) -> exists t, In (n, t) (a_tables a) /\ same_table t u).

(** Well-formed schemas: the map is a map, tables are filed under their own name,
    column names are distinct inside a table, and no default is a NaN. *)
Definition wf_table (t : ATable) : Prop :=
  NoDup (map c_name (t_cols t))
  /\ forall c v, In c (t_cols t) -> c_default c = Some v -> ~ sqlval_nan v.
Definition wf_schema (d : ADB) : Prop :=
  msorted (a_tables d)
  /\ forall n t, In (n, t) (a_tables d) -> t_name t = n /\ wf_table t.

(** Tables and columns present in a schema, by name. *)
Definition has_table (d : ADB) (n : string) : Prop := exists t, In (n, t) (a_tables d).
Definition has_column (t : ATable) (n : string) : Prop := exists c, In c (t_cols t) /\ c_name c = n.

(** When an operation corresponds to an actual difference from [old] to [new]. *)
Definition op_justified (old new : ADB) (op : Operation) : Prop :=
  match op with
  | AddTable t => In (t_name t, t) (a_tables new) /\ ~ has_table old (t_name t)
  | AddTableIfNotExists _ => False
  | RemoveTableConstraints t => In (t_name t, t) (a_tables old) /\ ~ has_table new (t_name t)
  | RemoveTable n => has_table old n /\ ~ has_table new n
  | AddColumn n c =>
      exists t u, In (n, t) (a_tables old) /\ In (n, u) (a_tables new)
                  /\ In c (t_cols u) /\ ~ has_column t (c_name c)
  | RemoveColumn n cn =>
      exists t u, In (n, t) (a_tables old) /\ In (n, u) (a_tables new)
                  /\ has_column t cn /\ ~ has_column u cn
  | ChangeColumn n oc nc =>
      exists t u, In (n, t) (a_tables old) /\ In (n, u) (a_tables new)
                  /\ In oc (t_cols t) /\ In nc (t_cols u) /\ c_name oc = c_name nc
                  /\ ~ same_column oc nc
  | AddTableConstraints t =>
      In (t_name t, t) (a_tables new) /\ ~ has_table old (t_name t)
      /\ exists c, In c (t_cols t) /\ c_ref c <> None
  end.

(** The stages operations must come in. *)
Definition op_stage (op : Operation) : nat :=
  match op with
  | AddTable _ | AddTableIfNotExists _ => 0
  | RemoveTableConstraints _ => 1
  | RemoveTable _ => 2
  | AddColumn _ _ | RemoveColumn _ _ | ChangeColumn _ _ _ => 3
  | AddTableConstraints _ => 4
  end.
(** Column operations with their table: additions, then removals, then changes. *)
Definition col_stage (op : Operation) : option (string * nat) :=
  match op with
  | AddColumn n _ => Some (n, 0)
  | RemoveColumn n _ => Some (n, 1)
  | ChangeColumn n _ _ => Some (n, 2)
  | _ => None
  end.
Definition op_before (a b : Operation) : Prop :=
  op_stage a <= op_stage b
  /\ forall n i j, col_stage a = Some (n, i) -> col_stage b = Some (n, j) -> i <= j.
