(** What it takes for Turso to be used, and what becomes of objects there.
    Specification only. *)
From Verif Require Import Base SqlVal Adb AdbSpec Sql SqlStmt Query QuerySpec Stmt StmtSpec LiteralSpec Ddl DdlSpec SqliteSem SqliteData
  Backend BackendSpec MigrateSpec Turso TursoSpec DataCalls StoredSpec Conn Many Conv Codegen CodegenSpec ObjSpec Saved SavedSpec HistorySpec TursoSaved.

(** The engine understands an empty list after IN, and values stored alike compare alike. *)
Record turso_like (dl : dialect) (E : engine) : Prop := {
  tl_empty_in : d_empty_in dl = true;
  tl_alike : stores_alike E }.
(** The connection answers statements without subqueries as the engine does on the
    database. *)
Definition connected (C : Type) (conn_query : C -> string -> list tvalue -> outcome (list (list tvalue)) * C)
  (dl : dialect) (E : engine) (db : edb) : Prop := answers C conn_query dl E (shown_db db).
(** No subquery of the filter contains another one (C28_nested_subquery_refuted), and the
    filter makes sense: there is a row it is true, false or unknown of. *)
Definition turso_can (E : engine) (D : Sql.db) (x : Query) : Prop :=
  forall e, q_filter x = Some e -> no_nested_subquery e
    /\ exists (r : Sql.row) t, Forall (fun p => ~ is_custom (snd p)) r /\ means E D [(q_table x, r)] e = Some t.
Definition no_subqueries (x : Query) : Prop := forall e, q_filter x = Some e -> no_subquery e.

Section Spec.
Context {U X : Type}.
Variable json_text : string -> option string.
Variable resolve : bool -> list string -> string -> option string.
Variable sem : ty -> codec U.
Variable valid : U -> bool.
Variable init : U -> SqlVal -> outcome unit * U.
Variable kw : string -> bool.
Variable dl : dialect.
Variable conv : bool -> list string -> lvalue -> option lvalue.
Variable veq : lvalue -> lvalue -> bool.
Variable read : bool -> string -> f64.
Variable strict : bool.
Variable E : engine.
Variable fresh : etab -> Z.
Variable d : ADB.
Variable models : list model.
Notation object := (@object U (many X)).
Notation M := (turso_methods json_text kw dl conv veq read E fresh).

(** The steps of HistorySpec.v, with the methods of Turso. *)
Inductive turso_step (m : model) : edb -> knowledge -> edb -> knowledge -> Prop :=
| turso_saved db kn (o o' : object) k db' kn' : object_fits json_text resolve sem valid init (mo_decl m) (mo_code m) d (mo_tab m) o ->
    numbers_fit json_text fresh d db ->
    save_on M sem valid init (mo_code m) o db = (Ok tt, o', db') -> CodegenSpec.stores sem o' (do_pk (mo_code m)) k ->
    fields_survive resolve sem (mo_decl m) o' ->
    (numbered_already valid (mo_code m) o -> is_present (kn (table_name m) k)) ->
    learnt kn m k (Present o') kn' -> turso_step m db kn db' kn'
| turso_saved_nothing db kn (o o' : object) k db' : object_fits json_text resolve sem valid init (mo_decl m) (mo_code m) d (mo_tab m) o ->
    numbers_fit json_text fresh d db ->
    save_on M sem valid init (mo_code m) o db = (Ok tt, o', db') -> CodegenSpec.stores sem o' (do_pk (mo_code m)) k ->
    numbered_already valid (mo_code m) o -> ~ is_present (kn (table_name m) k) ->
    turso_step m db kn db' kn
| turso_not_saved db kn (o o' : object) k db' kn' e : object_fits json_text resolve sem valid init (mo_decl m) (mo_code m) d (mo_tab m) o ->
    numbers_fit json_text fresh d db ->
    save_on M sem valid init (mo_code m) o db = (Err e, o', db') -> CodegenSpec.stores sem o' (do_pk (mo_code m)) k ->
    learnt kn m k Unclear kn' -> turso_step m db kn db' kn'
| turso_not_keyed db kn (o o' : object) db' r : object_fits json_text resolve sem valid init (mo_decl m) (mo_code m) d (mo_tab m) o ->
    numbers_fit json_text fresh d db -> r <> Panic ->
    save_on M sem valid init (mo_code m) o db = (r, o', db') -> (forall k, ~ CodegenSpec.stores sem o' (do_pk (mo_code m)) k) ->
    turso_step m db kn db' kn
| turso_deleted db kn (o : object) k db' kn' : CodegenSpec.stores sem o (do_pk (mo_code m)) k -> given_fits json_text (mo_tab m) (do_pkcol (mo_code m)) k ->
    delete_on M sem (mo_code m) o db = (Ok tt, db') -> learnt kn m k Absent kn' -> turso_step m db kn db' kn'
| turso_not_deleted db kn (o : object) k db' e : CodegenSpec.stores sem o (do_pk (mo_code m)) k -> given_fits json_text (mo_tab m) (do_pkcol (mo_code m)) k ->
    delete_on M sem (mo_code m) o db = (Err e, db') -> turso_step m db kn db' kn.

(** Any number of calls, on objects of any of the models. *)
Inductive turso_history : edb -> knowledge -> edb -> knowledge -> Prop :=
| turso_no_more db kn : turso_history db kn db kn
| turso_one_more db kn m db1 kn1 db2 kn2 : In m models -> turso_step m db kn db1 kn1 -> turso_history db1 kn1 db2 kn2 -> turso_history db kn db2 kn2.

(** [get] finds what is known, whatever the state of the connection. *)
Definition turso_found (C : Type) (conn_query : C -> string -> list tvalue -> outcome (list (list tvalue)) * C)
  (m : model) (k : SqlVal) (x : status object) : Prop :=
  match x with
  | Absent => forall c, turso_get (X := X) json_text kw C conn_query sem (mo_code m) c k = Err NoSuchObject
  | Present o => forall c, exists o2 c', turso_get (X := X) json_text kw C conn_query sem (mo_code m) c k = Ok (o2, c')
                   /\ equal_objects resolve (mo_decl m) o o2
  | Unclear => True
  end.
End Spec.
