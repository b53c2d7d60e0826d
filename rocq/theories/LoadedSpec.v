(** What a query of a model finds. Specification only. *)
From Coq Require Import Permutation Sorting.Sorted.
From Verif Require Import Base SqlVal Adb AdbSpec Sql SqlStmt Query QuerySpec Stmt StmtSpec LiteralSpec Ddl DdlSpec SqliteSem SqliteData
  Backend BackendSpec MigrateSpec DataCalls StoredSpec Conn Many Conv Codegen CodegenSpec ObjSpec SavedSpec.

Section Spec.
Context {U X : Type}.
Variable resolve : bool -> list string -> string -> option string.
Variable sem : ty -> codec U.
Variable s : sdef.
Variable g : dbobject.
Notation object := (@object U (many X)).

(** The row is that of the object: its columns have the values of the object's fields,
    which convert back, and the object's relations are its own. *)
Definition is_row_of (o : object) (r : Sql.row) : Prop :=
  holds_object resolve sem s o r /\ fields_survive resolve sem s o
  /\ exists k, CodegenSpec.stores sem o (do_pk g) k
       /\ forall f, In f (relation_fields resolve s) -> exists m, obj_get o (sf_ident f) = Some (FM m)
            /\ m_owner m = Some k /\ m_table m = relation_name (do_table g) f.
(** [stored] are the rows of the model's table, each with its object. *)
Definition table_of (D : Sql.db) (stored : list (Sql.row * object)) : Prop :=
  map fst stored = D (do_table g) /\ Forall (fun p => is_row_of (snd p) (fst p)) stored.
(** [found] are the objects that [x] asks for, [limit] being how many at most: of those
    whose row satisfies its filter, in an order it allows, without the first ones it leaves out. *)
Definition query_finds (E : engine) (D : Sql.db) (stored : list (Sql.row * object)) (x : Query) (limit : option Z) (found : list object) : Prop :=
  exists chosen, Permutation (filter (fun p => row_matches E D (do_table g) (q_filter x) (fst p)) stored) chosen
    /\ StronglySorted (fun p q => row_le E (q_sort x) (fst p) (fst q)) chosen
    /\ found = map snd (StmtSpec.take limit (StmtSpec.drop (q_offset x) chosen)).
Definition all_equal : list object -> list object -> Prop := Forall2 (equal_objects resolve s).
End Spec.

(** The values of a column in the rows of a table. *)
Definition in_column (D : Sql.db) (n c : string) (v : SqlVal) : Prop := exists r, In r (D n) /\ field c r = Some v.
(** The query is of the table, its names can be written, its filter has no group of the
    kind C17 shows to be misread, and speaks of columns that exist; it sorts by columns that
    exist and whose values the engine puts in order; its offset is not negative. *)
Record query_fits (E : engine) (dl : dialect) (n : string) (D : Sql.db) (x : Query) : Prop := {
  qf_table : q_table x = n;
  qf_filter : forall e, q_filter x = Some e -> bracket_free Anywhere e /\ supported dl e /\ Forall (fun v => ~ is_custom v) (bound_values e);
  qf_columns : filter_ok E D n (q_filter x);
  qf_sort : forall o, In o (q_sort x) -> identifier (ord_column o) = true
    /\ (forall r, In r (D n) -> exists v, field (ord_column o) r = Some v)
    /\ (forall a b, in_column D n (ord_column o) a -> in_column D n (ord_column o) b -> e_ord E b a = CompOpp (e_ord E a b))
    /\ (forall a b c, in_column D n (ord_column o) a -> in_column D n (ord_column o) b -> in_column D n (ord_column o) c ->
          e_ord E a b <> Gt -> e_ord E b c <> Gt -> e_ord E a c <> Gt);
  qf_offset : nonneg (q_offset x) }.

(** Every reference to the table [n] is to a row that [D] has. *)
Definition references_kept (E : engine) (d : ADB) (n : string) (D : Sql.db) : Prop :=
  forall m t c f r x, In (m, t) (a_tables d) -> In c (t_cols t) -> MigrateSpec.refers c f -> fk_table f = n ->
    In r (D m) -> field (fk_col f) r = Some x -> x = VNull \/ exists p y, In p (D n) /\ field (fk_ref f) p = Some y /\ equal E x y.
