(** What becomes of the objects of some models while they are saved and deleted.
    Specification only. *)
From Verif Require Import Base SqlVal Adb AdbSpec Sql SqlStmt Query QuerySpec Stmt StmtSpec LiteralSpec Ddl DdlSpec SqliteSem SqliteData
  Backend BackendSpec MigrateSpec DataCalls StoredSpec Conn Many Conv Codegen CodegenSpec ObjSpec Saved SavedSpec.

(** A model: its declaration, its code and its table. *)
Record model := { mo_decl : sdef; mo_code : dbobject; mo_tab : ATable }.
Notation table_name m := (do_table (mo_code m)).

(** What is known of the object with a key: there is none, it is this one, or nothing is
    known, after a save of it that failed. *)
Inductive status (O : Type) := Absent | Present (o : O) | Unclear.
Arguments Absent {O}. Arguments Present {O}. Arguments Unclear {O}.
Definition is_present {O} (x : status O) : Prop := exists o, x = Present o.

Section Spec.
Context {U X : Type}.
Variable json_text : string -> option string.
Variable resolve : bool -> list string -> string -> option string.
Variable sem : ty -> codec U.
Variable valid : U -> bool.
Variable init : U -> SqlVal -> outcome unit * U.
Variable kw : string -> bool.
Variable dl : dialect.
Variable conv : bool -> list string -> lvalue -> option lvalue.
Variable veq : lvalue -> lvalue -> bool.
Variable read : bool -> string -> f64.
Variable strict : bool.
Variable E : engine.
Variable fresh : etab -> Z.
Variable d : ADB.
Variable models : list model.
Notation object := (@object U (many X)).
Notation M := (sqlite_methods json_text kw dl conv veq read E fresh).

(** Every model is in the schema, and no table is used for two purposes. *)
Definition all_deployed : Prop :=
  forall m, In m models -> deployed json_text resolve sem (mo_decl m) (mo_code m) kw dl conv veq read strict E d (mo_tab m).
Definition apart : Prop := forall m m', In m models -> In m' models ->
  (table_name m = table_name m' -> m = m')
  /\ forall f, In f (relation_fields resolve (mo_decl m')) -> table_name m <> relation_name (table_name m') f.

(** What is known, by table and key. *)
Definition knowledge := string -> SqlVal -> status object.
Definition learnt (kn : knowledge) (m : model) (k : SqlVal) (x : status object) (kn' : knowledge) : Prop :=
  kn' (table_name m) k = x /\ forall n i, n <> table_name m \/ i <> k -> kn' n i = kn n i.

(** One call: what it does to the database and to what is known.
    - a save that succeeds makes the object present, unless its automatic key was set
      although no such object is there: then it changes nothing (C58_missing_row_refuted);
    - after a save that fails nothing is known of the object;
    - a delete that succeeds makes it absent; one that fails changes nothing. *)
Inductive step (m : model) : edb -> knowledge -> edb -> knowledge -> Prop :=
| saved db kn (o o' : object) k db' kn' : object_fits json_text resolve sem valid init (mo_decl m) (mo_code m) d (mo_tab m) o ->
    numbers_fit json_text fresh d db ->
    save_on M sem valid init (mo_code m) o db = (Ok tt, o', db') -> CodegenSpec.stores sem o' (do_pk (mo_code m)) k ->
    fields_survive resolve sem (mo_decl m) o' ->
    (numbered_already valid (mo_code m) o -> is_present (kn (table_name m) k)) ->
    learnt kn m k (Present o') kn' -> step m db kn db' kn'
| saved_nothing db kn (o o' : object) k db' : object_fits json_text resolve sem valid init (mo_decl m) (mo_code m) d (mo_tab m) o ->
    numbers_fit json_text fresh d db ->
    save_on M sem valid init (mo_code m) o db = (Ok tt, o', db') -> CodegenSpec.stores sem o' (do_pk (mo_code m)) k ->
    numbered_already valid (mo_code m) o -> ~ is_present (kn (table_name m) k) ->
    step m db kn db' kn
| not_saved db kn (o o' : object) k db' kn' e : object_fits json_text resolve sem valid init (mo_decl m) (mo_code m) d (mo_tab m) o ->
    numbers_fit json_text fresh d db ->
    save_on M sem valid init (mo_code m) o db = (Err e, o', db') -> CodegenSpec.stores sem o' (do_pk (mo_code m)) k ->
    learnt kn m k Unclear kn' -> step m db kn db' kn'
| not_keyed db kn (o o' : object) db' r : object_fits json_text resolve sem valid init (mo_decl m) (mo_code m) d (mo_tab m) o ->
    numbers_fit json_text fresh d db -> r <> Panic ->
    save_on M sem valid init (mo_code m) o db = (r, o', db') -> (forall k, ~ CodegenSpec.stores sem o' (do_pk (mo_code m)) k) ->
    step m db kn db' kn
| deleted db kn (o : object) k db' kn' : CodegenSpec.stores sem o (do_pk (mo_code m)) k -> given_fits json_text (mo_tab m) (do_pkcol (mo_code m)) k ->
    delete_on M sem (mo_code m) o db = (Ok tt, db') -> learnt kn m k Absent kn' -> step m db kn db' kn'
| not_deleted db kn (o : object) k db' e : CodegenSpec.stores sem o (do_pk (mo_code m)) k -> given_fits json_text (mo_tab m) (do_pkcol (mo_code m)) k ->
    delete_on M sem (mo_code m) o db = (Err e, db') -> step m db kn db' kn.

(** Any number of calls, on objects of any of the models. *)
Inductive history : edb -> knowledge -> edb -> knowledge -> Prop :=
| no_more db kn : history db kn db kn
| one_more db kn m db1 kn1 db2 kn2 : In m models -> step m db kn db1 kn1 -> history db1 kn1 db2 kn2 -> history db kn db2 kn2.

(** [get] finds what is known. *)
Definition gets (m : model) (k : SqlVal) (db : edb) (r : outcome object) : Prop :=
  sqlite_get_answers json_text kw dl E sem (mo_code m) k db r.
Definition found (m : model) (k : SqlVal) (db : edb) (x : status object) : Prop :=
  match x with
  | Absent => forall r, gets m k db r <-> r = Err NoSuchObject
  | Present o => (exists r, gets m k db r) /\ forall r, gets m k db r -> exists o2, r = Ok o2 /\ equal_objects resolve (mo_decl m) o o2
  | Unclear => True
  end.
(** To begin with a key is known to have no object only where the table has no row with
    it; of all others nothing is known. *)
Definition known_before (D : Sql.db) (kn : knowledge) : Prop :=
  forall m k, In m models -> kn (table_name m) k = Unclear \/ kn (table_name m) k = Absent /\ ~ row_exists E (mo_code m) D k.
Definition all_found (db : edb) (kn : knowledge) : Prop :=
  forall m k, In m models -> given_fits json_text (mo_tab m) (do_pkcol (mo_code m)) k -> found m k db (kn (table_name m) k).
End Spec.
