(** What becomes of the objects of some models when the models change and the database is
    migrated.  Specification only. *)
From Verif Require Import Base SqlVal Adb AdbSpec Sql SqlStmt Query QuerySpec Stmt StmtSpec LiteralSpec Literal Ddl DdlSpec SqliteSem SqliteData
  Backend BackendSpec MigrateSpec DataCalls StoredSpec Conn Many Conv Codegen CodegenSpec ObjSpec Saved SavedSpec LoadedSpec HistorySpec
  Chain Deploy DeploySpec CarriedSpec.

Section Spec.
Context {U X : Type}.
Variable json_text : string -> option string.
Variable resolve : bool -> list string -> string -> option string.
Variable sem : ty -> codec U.
Notation object := (@object U (many X)).
Notation knowledge := (@knowledge U X).
Notation column f := (strip_raw (sf_ident f)).
Notation fields m := (row_fields resolve (mo_decl m)).
Notation kind f := (cd_type _ (sem (sf_ty f))).

(** The field's value [u] is stored as [v] and read back from it. *)
Definition stands_for (f : sfield) (v : SqlVal) (u : U) : Prop :=
  cd_to _ (sem (sf_ty f)) u = Ok v /\ is_compatible v (kind f) true = true /\ cd_from _ (sem (sf_ty f)) v = Ok u.
(** The field is new in [m2]: no field of [m] has its column. *)
Definition is_new (m : model) (f2 : sfield) : Prop := forall f, In f (fields m) -> column f <> column f2.

(** The model [m2] is a later version of [m]: it has the same table and the same key; a
    field that stays has the same Rust type, or a type that can read what was stored (as
    when i32 becomes i64); the default of a new field's column can be read. *)
Record evolves (m m2 : model) : Prop := {
  ev_table : table_name m2 = table_name m;
  ev_key : do_pkcol (mo_code m2) = do_pkcol (mo_code m) /\ sf_ty (do_pk (mo_code m2)) = sf_ty (do_pk (mo_code m));
  ev_kept : forall f f2, In f (fields m) -> In f2 (fields m2) -> column f = column f2 ->
    sf_ty f2 = sf_ty f \/ forall v u, stands_for f v u -> exists u2, stands_for f2 (widened (kind f2) v) u2;
  ev_new : forall f2 c v, In f2 (fields m2) -> is_new m f2 -> In c (t_cols (mo_tab m2)) -> c_name c = column f2 ->
    column_default c = Ok v -> exists u, stands_for f2 (widened (kind f2) v) u }.

(** [o2] is what the later version of the model makes of [o]: a field that stays has the
    value it had, if its type is the same, and in any case the one read from what was
    stored; a new field has its column's default; the relations are those of the object. *)
Record object_after (m m2 : model) (o o2 : object) : Prop := {
  oa_same : forall f f2 u, In f (fields m) -> In f2 (fields m2) -> column f = column f2 -> sf_ty f2 = sf_ty f ->
    obj_get o (sf_ident f) = Some (FV u) -> obj_get o2 (sf_ident f2) = Some (FV u);
  oa_kept : forall f f2 v, In f (fields m) -> In f2 (fields m2) -> column f = column f2 ->
    CodegenSpec.stores sem o f v -> exists u2, obj_get o2 (sf_ident f2) = Some (FV u2) /\ stands_for f2 (widened (kind f2) v) u2;
  oa_new : forall f2, In f2 (fields m2) -> is_new m f2 ->
    exists c v u, In c (t_cols (mo_tab m2)) /\ c_name c = column f2 /\ column_default c = Ok v
      /\ obj_get o2 (sf_ident f2) = Some (FV u) /\ stands_for f2 (widened (kind f2) v) u;
  oa_relations : forall f2 k, In f2 (relation_fields resolve (mo_decl m2)) -> CodegenSpec.stores sem o (do_pk (mo_code m)) k ->
    exists x, obj_get o2 (sf_ident f2) = Some (FM x) /\ m_owner x = Some k /\ m_table x = relation_name (table_name m2) f2 }.

(** What is known after the change: of an object that was there, that it is there as the
    later version of its model has it; where there was none, there is none. *)
Definition status_after (m m2 : model) (x x2 : status object) : Prop :=
  match x, x2 with
  | _, Unclear => True
  | Absent, Absent => True
  | Present o, Present o2 => object_after m m2 o o2
  | _, _ => False
  end.
(** Models whose tables are new have no objects. *)
Definition knowledge_after (d : ADB) (models models2 : list model) (kn kn2 : knowledge) : Prop :=
  forall m2 k, In m2 models2 -> given_fits json_text (mo_tab m2) (do_pkcol (mo_code m2)) k ->
    (exists m, In m models /\ evolves m m2 /\ status_after m m2 (kn (table_name m) k) (kn2 (table_name m2) k))
    \/ (~ has_table d (table_name m2) /\ (kn2 (table_name m2) k = Absent \/ kn2 (table_name m2) k = Unclear))
    \/ kn2 (table_name m2) k = Unclear.

(** The life of a database: its objects are saved and deleted by a version of the program,
    the database is migrated to the next version's schema, and so on. *)
Definition version := (ADB * list model)%type.
Section Life.
Variable valid : U -> bool.
Variable init : U -> SqlVal -> outcome unit * U.
Variable kw : string -> bool.
Variable dl : dialect.
Variable conv : bool -> list string -> lvalue -> option lvalue.
Variable veq : lvalue -> lvalue -> bool.
Variable read : bool -> string -> f64.
Variable strict : bool.
Variable E : engine.
Variable fresh : etab -> Z.
(** A version whose models are in its schema. *)
Definition version_fine (v : version) : Prop :=
  all_deployed json_text resolve sem kw dl conv veq read strict E (fst v) (snd v) /\ apart resolve (snd v).
Inductive lived_by : version -> edb -> knowledge -> version -> edb -> knowledge -> Prop :=
| lb_end v db kn : lived_by v db kn v db kn
| lb_used v db kn db1 kn1 w db2 kn2 :
    history json_text resolve sem valid init kw dl conv veq read E fresh (fst v) (snd v) db kn db1 kn1 ->
    lived_by v db1 kn1 w db2 kn2 -> lived_by v db kn w db2 kn2
| lb_migrated v db kn v1 db1 kn1 w db2 kn2 : version_fine v1 -> usable (fst v1) -> gentle json_text (fst v) (fst v1) ->
    migrated conv strict (fst v) (fst v1) db db1 -> msorted db1 -> knowledge_after (fst v) (snd v) (snd v1) kn kn1 ->
    lived_by v1 db1 kn1 w db2 kn2 -> lived_by v db kn w db2 kn2.
End Life.

(** What is known of the objects through the versions of a program, one after the other. *)
Inductive known_through : version -> knowledge -> list version -> version -> knowledge -> Prop :=
| kt_end x kn : known_through x kn [] x kn
| kt_next x kn y kn1 l z kn2 : knowledge_after (fst x) (snd x) (snd y) kn kn1 ->
    known_through y kn1 l z kn2 -> known_through x kn (y :: l) z kn2.
End Spec.
