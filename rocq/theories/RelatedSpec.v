(** What loading a relation gives. Specification only. *)
From Coq Require Import Permutation Sorting.Sorted.
From Verif Require Import Base SqlVal Adb AdbSpec Sql SqlStmt Query QuerySpec Stmt StmtSpec LiteralSpec Ddl DdlSpec SqliteSem SqliteData
  Backend BackendSpec MigrateSpec DataCalls StoredSpec Conn Many Conv Codegen CodegenSpec ObjSpec SavedSpec LoadedSpec.

Section Spec.
Context {U X : Type}.
Variable json_text : string -> option string.
Variable sem : ty -> codec U.
Variable g : dbobject.
Variable E : engine.
Notation object := (@object U (many X)).

(** The schema has a table for a relation of objects whose keys are like [owner]. *)
Definition relation_in (d : ADB) (n : string) (owner : SqlVal) : Prop :=
  identifier n = true /\ owner <> VNull /\ ~ is_custom owner
  /\ exists rt, In (n, rt) (a_tables d) /\ (forall c, has_column rt c <-> c = "owner"%string \/ c = "has"%string).
(** The relation table has a row for [owner] and the object. *)
Definition related_in (D : Sql.db) (n : string) (owner : SqlVal) (o : object) : Prop :=
  exists r x v k, In r (D n) /\ field "owner" r = Some x /\ equal E x owner /\ field "has" r = Some v
    /\ CodegenSpec.stores sem o (do_pk g) k /\ equal E k v.
(** The object's key is in the list. *)
Definition key_in (l : list SqlVal) (o : object) : Prop :=
  exists k v, CodegenSpec.stores sem o (do_pk g) k /\ In v l /\ equal E k v.
(** [found] are those of the stored objects with the property, each as often as it is stored. *)
Definition exactly_those (P : object -> Prop) (stored found : list object) : Prop :=
  exists rest, Permutation stored (found ++ rest) /\ Forall P found /\ Forall (fun o => ~ P o) rest.
(** They are in the order of their keys. *)
Definition by_key (desc : bool) : list object -> Prop :=
  StronglySorted (fun o o' => forall k k', CodegenSpec.stores sem o (do_pk g) k -> CodegenSpec.stores sem o' (do_pk g) k' ->
    if desc then e_ord E k' k <> Gt else e_ord E k k' <> Gt).
Definition in_order (order : option bool) (l : list object) : Prop :=
  match order with None => True | Some desc => by_key desc l end.
(** The engine puts the keys of the kind [K] in order. *)
Definition keys_ordered (K : SqlVal -> Prop) : Prop :=
  (forall a b, K a -> K b -> e_ord E b a = CompOpp (e_ord E a b))
  /\ (forall a b c, K a -> K b -> K c -> e_ord E a b <> Gt -> e_ord E b c <> Gt -> e_ord E a c <> Gt).
(** The relation table [n] is one to objects of the model [g], whose table is [t]. *)
Definition relation_to (d : ADB) (t : ATable) (n : string) : Prop :=
  forall rt, In (n, rt) (a_tables d) -> forall v, given_fits json_text rt "has" v -> given_fits json_text t (do_pkcol g) v.
(** ... and one of objects of the model. *)
Definition relation_of (d : ADB) (t : ATable) (n : string) : Prop :=
  forall rt, In (n, rt) (a_tables d) -> forall v, given_fits json_text rt "owner" v -> given_fits json_text t (do_pkcol g) v.
(** One of the objects has the same key. *)
Definition same_key_in (l : list object) (o : object) : Prop :=
  exists k, CodegenSpec.stores sem o (do_pk g) k /\ exists o', In o' l /\ CodegenSpec.stores sem o' (do_pk g) k.
(** The object has its key. *)
Definition has_key_set (valid : U -> bool) (o : object) : Prop :=
  exists u, obj_get o (sf_ident (do_pk g)) = Some (FV u) /\ valid u = true.
End Spec.
