(** What it takes for the objects of a model to be kept in a SQLite database.
    Specification only. *)
From Verif Require Import Base SqlVal Adb AdbSpec Sql SqlStmt Query QuerySpec Stmt StmtSpec LiteralSpec Ddl DdlSpec SqliteSem SqliteData
  Backend BackendSpec MigrateSpec DataCalls StoredSpec Conn Many Conv Codegen CodegenSpec ObjSpec.

(** A number equals itself. *)
Definition integers_equal (E : engine) : Prop := forall z, equal E (VBigInt z) (VBigInt z).

Section Spec.
Context {U X : Type}.
Variable json_text : string -> option string.
Variable resolve : bool -> list string -> string -> option string.
Variable sem : ty -> codec U.
Variable valid : U -> bool.
Variable init : U -> SqlVal -> outcome unit * U.
Variable s : sdef.
Variable g : dbobject.
Notation object := (@object U (many X)).

(** The column is that of the field: its name, the kind of its values, whether it is the
    key and whether the database numbers it. *)
Record column_for (f : sfield) (c : AColumn) : Prop := {
  cf_name : c_name c = strip_raw (sf_ident f);
  cf_type : type_denotes (c_type c) = inl (TyId (cd_type _ (sem (sf_ty f))));
  cf_pk : c_pk c = true <-> f = do_pk g;
  cf_auto : c_auto c = true <-> f = do_pk g /\ do_auto g = true }.
(** The table has a column for each field and no other. *)
Definition table_for (t : ATable) : Prop :=
  (forall f, In f (row_fields resolve s) -> exists c, In c (t_cols t) /\ column_for f c)
  /\ (forall c, In c (t_cols t) -> exists f, In f (row_fields resolve s) /\ column_for f c).
(** The table of a relation has two columns, and the first takes the keys of the model. *)
Definition relation_for (t rt : ATable) : Prop :=
  (forall n, has_column rt n <-> n = "owner"%string \/ n = "has"%string)
  /\ (forall c, In c (t_cols rt) -> c_auto c = false)
  /\ (forall v, given_fits json_text t (do_pkcol g) v -> given_fits json_text rt "owner" v).
(** The schema has the table [t] of the model and the tables of its relations; keys
    the database makes up are integers, and no column is called rowid in whatever letters. *)
Record model_in (d : ADB) (t : ATable) : Prop := {
  mi_table : In (do_table g, t) (a_tables d);
  mi_columns : table_for t;
  mi_relations : forall f, In f (relation_fields resolve s) ->
    exists rt, In (relation_name (do_table g) f, rt) (a_tables d) /\ relation_for t rt;
  mi_integer : do_auto g = true -> cd_type _ (sem (sf_ty (do_pk g))) = TInt \/ cd_type _ (sem (sf_ty (do_pk g))) = TBigInt;
  mi_rowid : forall c, In c (t_cols t) -> upper (c_name c) <> "ROWID"%string }.

(** The object's key is not left to the database. *)
Definition has_own_key (o : object) : Prop := do_auto g = true -> numbered_already valid g o.
(** The unset key takes any key that fits. *)
Definition takes_key (t : ATable) (u : U) : Prop := forall kv, given_fits json_text t (do_pkcol g) kv ->
  exists u', init u kv = (Ok tt, u') /\ valid u' = true /\ cd_to _ (sem (sf_ty (do_pk g))) u' = Ok kv.
(** The object's values fit the columns, an unset key can be set, what it is to be related
    to fits too, and its relations are its own. *)
Record object_fits (d : ADB) (t : ATable) (o : object) : Prop := {
  of_fields : forall f v, In f (row_fields resolve s) -> (f = do_pk g -> has_own_key o) -> CodegenSpec.stores sem o f v ->
    given_fits json_text t (strip_raw (sf_ident f)) v;
  of_key : forall u, do_auto g = true -> obj_get o (sf_ident (do_pk g)) = Some (FV u) -> valid u = false -> takes_key t u;
  of_relations : forall f, In f (relation_fields resolve s) -> exists m, obj_get o (sf_ident f) = Some (FM m)
    /\ (m_owner m = None \/ has_own_key o /\ exists kv, CodegenSpec.stores sem o (do_pk g) kv /\ m_owner m = Some kv
          /\ m_table m = relation_name (do_table g) f)
    /\ (forall rt, In (relation_name (do_table g) f, rt) (a_tables d) -> Forall (given_fits json_text rt "has") (m_new m))
    /\ Forall (fun v => ~ is_custom v) (m_removed m) }.
End Spec.

(** A model [s] with its generated code [g] on a SQLite database with the schema [d], in
    which [t] is the model's table: the macro accepted the model, its names can be written
    in SQL, the schema is usable and has the model, keys that are equal are the same. *)
Record deployed {U} (json_text : string -> option string) (resolve : bool -> list string -> string -> option string)
    (sem : ty -> codec U) (s : sdef) (g : dbobject)
    (kw : string -> bool) (dl : dialect) (conv : bool -> list string -> lvalue -> option lvalue)
    (veq : lvalue -> lvalue -> bool) (read : bool -> string -> f64) (strict : bool) (E : engine) (d : ADB) (t : ATable) : Prop := {
  dp_compiles : compiles resolve s;
  dp_code : impl_dbobject resolve s = Ok g;
  dp_engine : StoredSpec.stores kw dl conv veq read strict E;
  dp_integers : integers_equal E;
  dp_schema : usable d;
  dp_names : names_ok dl Sqlite g;
  dp_model : model_in json_text resolve sem s g d t;
  dp_exact : exact_on E (given_fits json_text t (do_pkcol g)) }.

(** * From the model's declaration to the schema *)
(** The table [t] of the schema is the recorded table [t0] with its columns in any order,
    the types that were still to be looked up replaced. *)
Definition column_as_recorded (found : DeferredSqlType -> DeferredSqlType) (c0 c : AColumn) : Prop :=
  c_name c = c_name c0 /\ same_type (c_type c) (found (c_type c0)) /\ c_nullable c = c_nullable c0 /\ c_pk c = c_pk c0 /\ c_auto c = c_auto c0.
Definition as_recorded (found : DeferredSqlType -> DeferredSqlType) (t0 t : ATable) : Prop :=
  (forall c0, In c0 (t_cols t0) -> exists c, In c (t_cols t) /\ column_as_recorded found c0 c)
  /\ (forall c, In c (t_cols t) -> exists c0, In c0 (t_cols t0) /\ column_as_recorded found c0 c).
(** Known types are left as they are. *)
Definition known_kept (found : DeferredSqlType -> DeferredSqlType) : Prop := forall ty, same_type (found (KnownId (TyId ty))) (KnownId (TyId ty)).
(** The field's type is one of the usual ones or refers to a model, whose key's type was
    found, and its values convert accordingly. *)
Definition field_known {U} (resolve : bool -> list string -> string -> option string) (sem : ty -> codec U)
    (found : DeferredSqlType -> DeferredSqlType) (f : sfield) : Prop :=
  (exists r, spells resolve (sf_ty f) r /\ cd_type _ (sem (sf_ty f)) = rsqltype r)
  \/ (exists a, CodegenSpec.refers resolve (sf_ty f) a
       /\ type_denotes (found (Deferred (PK (strip_raw (last_ident a))))) = inl (TyId (cd_type _ (sem (sf_ty f))))).
