(** When a new object can be stored.  Specification only. *)
From Verif Require Import Base SqlVal Adb Sql SqlStmt Ddl DdlSpec Backend SqliteSem MigrateSpec StoredSpec Many Codegen CodegenSpec ObjSpec.

Section Spec.
Context {U X : Type}.
Variable resolve : bool -> list string -> string -> option string.
Variable sem : ty -> codec U.
Variable s : sdef.
Variable g : dbobject.
Variable E : engine.
Variable t : ATable.
Notation object := (@object U (many X)).

(** What the object has for the column. *)
Definition value_of (o : object) (n : string) (v : SqlVal) : Prop :=
  exists f, In f (row_fields resolve s) /\ strip_raw (sf_ident f) = n /\ CodegenSpec.stores sem o f v.
(** Each field has a value to be stored, but for a key the database makes up. *)
Definition has_values (o : object) : Prop :=
  forall f, In f (row_fields resolve s) -> f = do_pk g /\ do_auto g = true \/ exists v, CodegenSpec.stores sem o f v.
(** No stored object has the object's value for a key or a unique field. *)
Definition unclashing (D : Sql.db) (o : object) : Prop :=
  forall c r x y, In c (t_cols t) -> c_pk c = true \/ c_unique c = true -> value_of o (c_name c) x ->
    In r (D (do_table g)) -> field (c_name c) r = Some y -> ~ equal E y x.
(** What the object refers to is stored, or is the object. *)
Definition parents_there (D : Sql.db) (o : object) : Prop :=
  forall c f x, In c (t_cols t) -> MigrateSpec.refers c f -> value_of o (c_name c) x ->
    x = VNull
    \/ (exists p y, In p (D (fk_table f)) /\ field (fk_ref f) p = Some y /\ equal E x y)
    \/ fk_table f = do_table g /\ exists y, value_of o (fk_ref f) y /\ equal E x y.
(** The object's relations have nothing to be written. *)
Definition nothing_pending (o : object) : Prop :=
  forall f, In f (relation_fields resolve s) -> exists m, obj_get o (sf_ident f) = Some (FM m) /\ m_new m = [] /\ m_removed m = [].

(** In the tables of the model's relations nothing is unique, and the first column, if it
    refers to anything, refers to the model's keys. *)
Definition relations_plain (d : ADB) : Prop :=
  forall f rt c, In f (relation_fields resolve s) -> In (relation_name (do_table g) f, rt) (a_tables d) -> In c (t_cols rt) ->
    c_pk c = false /\ c_unique c = false
    /\ forall k, MigrateSpec.refers c k -> c_name c = "owner"%string -> fk_table k = do_table g /\ fk_ref k = do_pkcol g.
(** What the object is to be related to is stored. *)
Definition partners_there (d : ADB) (D : Sql.db) (o : object) : Prop :=
  forall f m rt c k v, In f (relation_fields resolve s) -> obj_get o (sf_ident f) = Some (FM m) -> In (relation_name (do_table g) f, rt) (a_tables d) ->
    In c (t_cols rt) -> c_name c = "has"%string -> MigrateSpec.refers c k -> In v (m_new m) ->
    exists p y, In p (D (fk_table k)) /\ field (fk_ref k) p = Some y /\ equal E v y.

(** The number the engine would give the next row of the model's table is no row's. *)
Definition number_free (fresh : etab -> Z) (D : Sql.db) (db : edb) : Prop :=
  forall b r k y, mget (do_table g) db = Some b -> In r (D (do_table g)) -> field (do_pkcol g) r = Some y ->
    sqlite_write k = Ok (LInteger (fresh b)) -> ~ equal E y k.
(** The object's key is left to the database. *)
Definition unnumbered (valid : U -> bool) (o : object) : Prop :=
  do_auto g = true /\ (exists u, obj_get o (sf_ident (do_pk g)) = Some (FV u) /\ valid u = false)
  /\ forall k, ~ CodegenSpec.stores sem o (do_pk g) k.
(** Keys are no references. *)
Definition key_refers_not : Prop := forall c f, In c (t_cols t) -> MigrateSpec.refers c f -> c_name c <> do_pkcol g.
End Spec.
