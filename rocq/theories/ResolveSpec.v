(** Specification of type and reference resolution. *)
From Verif Require Import Base SqlVal Adb AdbSpec.

(** The primary key of a table: its first column marked as such. *)
Definition primary_key (t : ATable) (c : AColumn) : Prop :=
  exists l1 l2, t_cols t = l1 ++ c :: l2 /\ c_pk c = true /\ forall x, In x l1 -> c_pk x = false.

(** Types written [HashMap<String, ...>] or [BTreeMap<String, ...>], with any of
    the usual paths, are stored as JSON. *)
Definition json_map_type (s : string) : Prop :=
  exists m k rest,
    In m ["HashMap"; "collections::HashMap"; "std::collections::HashMap";
          "BTreeMap"; "collections::BTreeMap"; "std::collections::BTreeMap"] /\
    In k ["String"; "string::String"; "std::string::String"] /\
    s = (m ++ "<" ++ k ++ "," ++ rest)%string.

(** [derives d k i]: schema [d] gives the key [k] the type [i], directly or
    through a chain of other keys. *)
Inductive derives (d : ADB) : TypeKey -> TypeIdentifier -> Prop :=
| der_json s : json_map_type s -> derives d (CustomType s) (TyId TJson)
| der_pk_known n t c i :
    In (n, t) (a_tables d) -> primary_key t c -> type_denotes (c_type c) = inl i ->
    derives d (PK (t_name t)) i
| der_pk_key n t c k i :
    In (n, t) (a_tables d) -> primary_key t c -> type_denotes (c_type c) = inr k ->
    derives d k i -> derives d (PK (t_name t)) i
| der_type_known k ty i :
    In (k, ty) (a_types d) -> type_denotes ty = inl i -> derives d k i
| der_type_key k ty k' i :
    In (k, ty) (a_types d) -> type_denotes ty = inr k' -> derives d k' i -> derives d k i.

(** How resolution may change a type: a known type stays, a key becomes a type
    the schema derives for it, or stays when the schema derives none. *)
Definition type_resolved (d : ADB) (ty ty' : DeferredSqlType) : Prop :=
  match ty with
  | Known _ | KnownId _ => ty' = ty
  | Deferred k => (exists i, ty' = KnownId i /\ derives d k i)
                  \/ (ty' = ty /\ forall i, ~ derives d k i)
  end.

(** The table a reference to the key [k] means: a registered other name for it, or
    the model's own name. *)
Definition ref_table (d : ADB) (k : TypeKey) (n : string) : Prop :=
  In (k, Deferred (PK n)) (a_types d)
  \/ ((forall m, ~ In (k, Deferred (PK m)) (a_types d)) /\ k = PK n).

(** How resolution may change a reference. *)
Definition ref_resolved (d : ADB) (r r' : option ARef) : Prop :=
  match r with
  | None | Some (RefLiteral _) => r' = r
  | Some (RefDeferred ty) =>
      exists k n, ty = Deferred k /\ ref_table d k n /\
      ((exists t c, In (n, t) (a_tables d) /\ primary_key t c /\
          r' = Some (RefLiteral {| rl_table := n; rl_column := c_name c |}))
       \/ (r' = r /\ forall t c, In (n, t) (a_tables d) -> ~ primary_key t c))
  end.

(** A column before and after resolution of schema [d]. *)
Record col_resolved (d : ADB) (c c' : AColumn) : Prop := {
  cr_name : c_name c' = c_name c;
  cr_type : type_resolved d (c_type c) (c_type c');
  cr_nullable : c_nullable c' = c_nullable c;
  cr_pk : c_pk c' = c_pk c;
  cr_auto : c_auto c' = c_auto c;
  cr_unique : c_unique c' = c_unique c;
  cr_default : c_default c' = c_default c;
  cr_ref : ref_resolved d (c_ref c) (c_ref c') }.
Definition table_resolved (d : ADB) (p p' : string * ATable) : Prop :=
  fst p' = fst p /\ t_name (snd p') = t_name (snd p)
  /\ Forall2 (col_resolved d) (t_cols (snd p)) (t_cols (snd p')).
Definition schema_resolved (d d' : ADB) : Prop :=
  Forall2 (table_resolved d) (a_tables d) (a_tables d')
  /\ Forall2 (fun p p' => fst p' = fst p /\ type_resolved d (snd p) (snd p')) (a_types d) (a_types d').

(** What the code assumes of a schema and does not check: every table has a
    primary key or is a many-to-many table, and every deferred reference is to a
    model key or has a registered table name. *)
Definition many_name (s : string) : Prop := exists p, s = (p ++ "_Many")%string.
Definition resolvable_shape (d : ADB) : Prop :=
  (forall n t, In (n, t) (a_tables d) -> (exists c, primary_key t c) \/ many_name (t_name t))
  /\ (forall n t c ty, In (n, t) (a_tables d) -> In c (t_cols t) -> c_ref c = Some (RefDeferred ty) ->
        exists k m, ty = Deferred k /\ ref_table d k m).

(** Every deferred column type of the schema can be derived. *)
Definition all_derivable (d : ADB) : Prop :=
  forall n t c k, In (n, t) (a_tables d) -> In c (t_cols t) -> c_type c = Deferred k -> exists i, derives d k i.

(** Column types (with names and positions) of a schema. *)
Definition column_types (d : ADB) : list (string * string * list (string * DeferredSqlType)) :=
  map (fun p => (fst p, t_name (snd p), map (fun c => (c_name c, c_type c)) (t_cols (snd p)))) (a_tables d).

(** The Rust string a key carries. *)
Definition key_text (k : TypeKey) : string := match k with PK s => s | CustomType s => s end.
