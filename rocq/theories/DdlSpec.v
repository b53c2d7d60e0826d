(** What the migration scripts are stated with: which operations can be written
    at all.  Specification only. *)
From Verif Require Import Base SqlVal Sql Adb AdbSpec QuerySpec Literal LiteralSpec.

(** A column that can be declared: named by an identifier, of a built-in type, numbered
    automatically only if it is the primary key, its reference resolved. *)
Definition column_fine (c : AColumn) : Prop :=
  identifier (c_name c) = true
  /\ (exists t, type_denotes (c_type c) = inl (TyId t) /\ forall n, t <> TCustom n)
  /\ (c_auto c = true -> c_pk c = true)
  /\ match c_ref c with
     | None => True
     | Some (RefLiteral r) => identifier (rl_table r) = true /\ identifier (rl_column r) = true
     | Some (RefDeferred _) => False
     end.
Definition table_fine (t : ATable) : Prop :=
  identifier (t_name t) = true /\ t_cols t <> [] /\ Forall column_fine (t_cols t).

(** The default value of an added column has a literal. *)
Definition default_fine (c : AColumn) : Prop := exists v, column_default c = Ok v /\ readable_literal v.

(** An operation that applies to the schema and whose statements can be written. *)
Definition op_fine (current : ADB) (op : Operation) : Prop :=
  match op with
  | AddTable t | AddTableIfNotExists t => table_fine t
  | RemoveTable n => identifier n = true
  | AddTableConstraints _ | RemoveTableConstraints _ => True
  | AddColumn t c => identifier t = true /\ column_fine c /\ default_fine c
  | RemoveColumn t n =>
      identifier t = true /\ identifier n = true
      /\ exists tb, get_table current t = Some tb /\ t_name tb = t
                    /\ In n (map c_name (t_cols tb))
                    /\ table_fine (remove_column tb n)
  | ChangeColumn t _ c =>
      exists tb, get_table current t = Some tb /\ t_name tb = t /\ table_fine (replace_column tb c)
  end.
Fixpoint ops_fine (current : ADB) (ops : list Operation) : Prop :=
  match ops with
  | [] => True
  | o :: r => op_fine current o /\ ops_fine (transform_with current o) r
  end.

(** No text with a semicolon in it is used as a default value. *)
Definition no_semicolon (s : string) : Prop := all_chars (fun c => negb (Ascii.eqb c ";")) s = true.
Definition default_plain (op : Operation) : Prop :=
  match op with
  | AddColumn _ c => forall s, column_default c = Ok (VText s) -> no_semicolon s
  | _ => True
  end.
(** butane quotes at least the words that have a meaning of their own where a name can stand. *)
Definition quotes_ddl (kw : string -> bool) (words : list string) : Prop :=
  forall w, kmem (upper w) words = true -> kw w = true.

(** Every table of the schema can be declared. *)
Definition schema_fine (d : ADB) : Prop := forall n t, In (n, t) (a_tables d) -> table_fine t.
(** Column [c] is new in a table that is kept. *)
Definition added_column (old new : ADB) (n : string) (c : AColumn) : Prop :=
  exists t u, In (n, t) (a_tables old) /\ In (n, u) (a_tables new) /\ In c (t_cols u) /\ ~ has_column t (c_name c).
(** The default value of every added column has a literal. *)
Definition defaults_fine (old new : ADB) : Prop := forall n c, added_column old new n c -> default_fine c.
(** None is a text with a semicolon. *)
Definition defaults_plain (old new : ADB) : Prop :=
  forall n c s, added_column old new n c -> column_default c = Ok (VText s) -> no_semicolon s.
