(** What becomes of stored rows when the schema changes, and the life of a database whose
    rows are changed between migrations.  Specification only. *)
From Verif Require Import Base SqlVal Sql SqlStmt Adb AdbSpec Literal Ddl DdlSpec Backend BackendSpec SqliteSem MigrateSpec
  SqliteData DataCalls StoredSpec Chain Deploy DeploySpec.

(** A value of a column whose kind is now [ty]: 32-bit integers become 64-bit ones. *)
Definition widened (ty : SqlType) (v : SqlVal) : SqlVal :=
  match v, ty with VInt z, TBigInt => VBigInt z | _, _ => v end.
Definition widens (ty ty' : SqlType) : Prop := ty' = ty \/ (ty = TInt /\ ty' = TBigInt).
(** The kind of a column. *)
Definition is_kind (c : AColumn) (ty : SqlType) : Prop := type_denotes (c_type c) = inl (TyId ty).

(** A change that no row of any table can be at odds with: a column that stays keeps its
    kind, or gets the wider one, and becomes neither a key nor a reference if it was none;
    new columns are neither keys nor references, and take their default. *)
Record gentle (json_text : string -> option string) (old new : ADB) : Prop := {
  ge_kind : forall n t u c c' ty, In (n, t) (a_tables old) -> In (n, u) (a_tables new) -> In c (t_cols t) -> In c' (t_cols u) ->
    c_name c = c_name c' -> is_kind c ty -> exists ty', is_kind c' ty' /\ widens ty ty';
  ge_key : forall n t u c c', In (n, t) (a_tables old) -> In (n, u) (a_tables new) -> In c (t_cols t) -> In c' (t_cols u) ->
    c_name c = c_name c' -> (c_pk c' = true -> c_pk c = true) /\ (c_unique c' = true -> c_pk c = true \/ c_unique c = true)
    /\ (forall f, refers c' f -> refers c f);
  ge_added : forall n c, added_column old new n c -> c_pk c = false /\ c_unique c = false /\ c_ref c = None
    /\ exists ty, is_kind c ty /\ forall v, column_default c = Ok v -> column_takes json_text c (widened ty v) }.

(** [r'] is [r] in the new table: what stays has its value, what is new its default (that
    of a 64-bit column is a 32-bit zero). *)
Definition row_after (t u : ATable) (r r' : Sql.row) : Prop :=
  (forall n, In n (map fst r') <-> has_column u n)
  /\ forall c, In c (t_cols u) ->
     (forall v ty, has_column t (c_name c) -> field (c_name c) r = Some v -> is_kind c ty -> field (c_name c) r' = Some (widened ty v))
     /\ (~ has_column t (c_name c) -> exists v ty, column_default c = Ok v /\ is_kind c ty /\ field (c_name c) r' = Some (widened ty v)).
(** The rows after the change: those of the tables that stay, in the same order. *)
Definition rows_after (old new : ADB) (D D' : Sql.db) : Prop :=
  (forall n t u, In (n, t) (a_tables old) -> In (n, u) (a_tables new) -> Forall2 (row_after t u) (D n) (D' n))
  /\ (forall n, has_table new n -> ~ has_table old n -> D' n = [])
  /\ (forall n, has_table old n -> ~ has_table new n -> D' n = [])
  /\ (forall n, ~ has_table old n -> ~ has_table new n -> D' n = D n).

(** All schemas of a history can be declared, and each change is gentle. *)
Fixpoint gentle_all (json_text : string -> option string) (d : ADB) (tos : list ADB) : Prop :=
  match tos with
  | [] => True
  | to :: r => gentle json_text d to /\ gentle_all json_text to r
  end.
(** In both directions. *)
Fixpoint gentle_both (json_text : string -> option string) (d : ADB) (tos : list ADB) : Prop :=
  match tos with
  | [] => True
  | to :: r => gentle json_text d to /\ gentle json_text to d /\ gentle_both json_text to r
  end.

(** * A life *)
(** What happens to a database: a call of the program that uses it, or all migrations
    deployed or undone. *)
Inductive event := Used (c : DataCalls.call) | Commanded (c : command).
Section Life.
  Context {M : Type} (c : Coll M) (exec : string -> DBS edb -> outcome (DBS edb)) (bk : string).
  Variable use : edb -> DataCalls.call -> edb.
  Definition event_done (s : DBS edb) (e : event) : DBS edb :=
    match e with
    | Used k => {| dbs_rest := use (dbs_rest s) k; dbs_mig := dbs_mig s |}
    | Commanded k => commands c exec bk [k] s
    end.
  Definition life (es : list event) (s : DBS edb) : DBS edb := fold_left event_done es s.
End Life.
(** What that does to the rows: [D] in the [i]th schema of the history [h] becomes [D'] in
    the [j]th.  Calls are accepted or refused as by the schema of the time, and the rows
    go from schema to schema. *)
Inductive lived (json_text : string -> option string) (E : engine) (h : list ADB) : nat -> Sql.db -> list event -> nat -> Sql.db -> Prop :=
| lv_end i D : lived json_text E h i D [] i D
| lv_used i d D c D1 es j D2 : nth_error h i = Some d -> follow json_text E d D [c] D1 ->
    lived json_text E h i D1 es j D2 -> lived json_text E h i D (Used c :: es) j D2
| lv_commanded i k D x D1 es j D2 : walked rows_after h i k D D1 ->
    lived json_text E h k D1 es j D2 -> lived json_text E h i D (Commanded x :: es) j D2.
