(** What it means for a PostgreSQL database to have a schema, and which schemas the
    property speaks of.  Specification only. *)
From Verif Require Import Base SqlVal Sql Adb AdbSpec QuerySpec Literal LiteralSpec Ddl DdlSpec PgSem.

(** * Schemas that can be declared *)

(** A type's name that is not a keyword of a column definition, and no serial type. *)
Definition type_name_fine (n : string) : Prop :=
  identifier n = true /\ kmem (upper n) ("SERIAL" :: "BIGSERIAL" :: cons_words) = false.
(** A column that can be declared: named by an identifier, of a known type, its
    reference resolved.  Only integers are numbered automatically; such columns and the
    primary key are never NULL, and the former have no default of their own. *)
Definition pg_column_fine (c : AColumn) : Prop :=
  identifier (c_name c) = true
  /\ match type_denotes (c_type c) with
     | inl (TyName n) | inl (TyId (TCustom n)) => type_name_fine n
     | inl (TyId _) => True
     | inr _ => False
     end
  /\ (c_auto c = true -> (type_denotes (c_type c) = inl (TyId TInt) \/ type_denotes (c_type c) = inl (TyId TBigInt))
                         /\ c_default c = None)
  /\ (c_auto c = true \/ c_pk c = true -> c_nullable c = false)
  /\ match c_ref c with
     | None => True
     | Some (RefLiteral r) => identifier (rl_table r) = true /\ identifier (rl_column r) = true
     | Some (RefDeferred _) => False
     end.
Definition pg_table_fine (t : ATable) : Prop :=
  identifier (t_name t) = true /\ t_cols t <> [] /\ Forall pg_column_fine (t_cols t).
Definition pg_schema_fine (d : ADB) : Prop := forall n t, In (n, t) (a_tables d) -> pg_table_fine t.

(** The column [c] of a kept table becomes [c']. *)
Definition changed_column (old new : ADB) (n : string) (c c' : AColumn) : Prop :=
  exists t u, In (n, t) (a_tables old) /\ In (n, u) (a_tables new) /\ In c (t_cols t) /\ In c' (t_cols u)
    /\ c_name c = c_name c' /\ ~ same_column c c'.
(** The default values the script writes have literals. *)
Definition pg_defaults_fine (old new : ADB) : Prop :=
  (forall n c, added_column old new n c -> default_fine c)
  /\ (forall n c c' v, changed_column old new n c c' -> c_default c' = Some v -> readable_literal v).

(** * Catalogue *)

(** How a name that butane wrote is spelled in the catalogue: quoted names as they are,
    the others in lower case. *)
Definition cat (kw : string -> bool) (w : string) : string := if kw w then w else lower w.

(** The name PostgreSQL knows a type by. *)
Definition pg_words (c : AColumn) : list string :=
  match type_denotes (c_type c) with
  | inl (TyId TBool) => ["BOOLEAN"]
  | inl (TyId TInt) => ["INTEGER"]
  | inl (TyId TBigInt) => ["BIGINT"]
  | inl (TyId TReal) => ["DOUBLE"; "PRECISION"]
  | inl (TyId TText) => ["TEXT"]
  | inl (TyId TDate) => ["DATE"]
  | inl (TyId TTimestamp) => ["TIMESTAMP"]
  | inl (TyId TBlob) => ["BYTEA"]
  | inl (TyId TJson) => ["JSONB"]
  | inl (TyId (TCustom n)) | inl (TyName n) => [upper n]
  | inr _ => []
  end%string.

Section Spec.
Variable kw : string -> bool.
Notation cat := (cat kw).

(** A column of the database has the type and the nullability the schema says, and is
    numbered automatically if the schema says so. *)
Definition pg_declares (c : AColumn) (k : pcol) : Prop :=
  p_name k = cat (c_name c) /\ p_type k = pg_words c /\ p_notnull k = negb (c_nullable c)
  /\ (p_default k = Some DNext <-> c_auto c = true).
Definition pg_refers (c : AColumn) (f : fkdef) : Prop :=
  exists r, c_ref c = Some (RefLiteral r)
    /\ f = {| fk_col := cat (c_name c); fk_table := cat (rl_table r); fk_ref := cat (rl_column r) |}.
(** The constraint is one the column asks for. *)
Definition wants (c : AColumn) (x : pcons) : Prop :=
  match x with
  | PKey y => c_pk c = true /\ y = cat (c_name c)
  | PUnique y => c_unique c = true /\ y = cat (c_name c)
  | PRef f => pg_refers c f
  end.
Definition pg_table_is (t : ATable) (b : ptab) : Prop :=
  NoDup (map p_name (p_cols b))
  /\ (forall c, In c (t_cols t) -> exists k, In k (p_cols b) /\ pg_declares c k)
  /\ (forall k, In k (p_cols b) -> exists c, In c (t_cols t) /\ pg_declares c k)
  /\ (forall x, In x (map snd (p_cons b)) <-> exists c, In c (t_cols t) /\ wants c x).
(** The database has the schema's tables, and their constraints have the usual names. *)
Definition pg_has (d : ADB) (db : pdb) : Prop :=
  forall n t, In (n, t) (a_tables d) -> exists b, mget (cat n) db = Some b /\ pg_table_is t b
    /\ forall m x, In (m, x) (p_cons b) -> m = usual_name (cat n) x.

(** [n] and [c] are a table and a column of one of the schemas. *)
Definition named (old new : ADB) (n c : string) : Prop :=
  exists t, (In (n, t) (a_tables old) \/ In (n, t) (a_tables new)) /\ has_column t c.
Definition table_named (old new : ADB) (n : string) : Prop := has_table old n \/ has_table new n.
(** Constraints of the column may be dropped by name. *)
Definition altered (old new : ADB) (n c : string) : Prop :=
  exists t k, In (n, t) (a_tables old) /\ In k (t_cols t) /\ c_name k = c
    /\ ((c_ref k <> None /\ ~ has_table new n) \/ exists k', changed_column old new n k k').

(** Names do not get in each other's way. *)
Record names_clear (old new : ADB) (db : pdb) : Prop := {
  (* tables, and columns of a table, differ in more than upper and lower case *)
  nc_tables : forall n m, table_named old new n -> table_named old new m -> cat n = cat m -> n = m;
  nc_columns : forall n c c', named old new n c -> named old new n c' -> cat c = cat c' -> c = c';
  (* a name that is quoted where it stands alone is in lower case: in a constraint's
     name it is not quoted *)
  nc_plain : forall n c, altered old new n c -> cat n = lower n /\ cat c = lower c;
  (* the usual names of constraints are short, and no two constraints share one *)
  nc_short : forall n c, named old new n c -> String.length (cat n ++ "_" ++ cat c ++ "_fkey") <= 63;
  nc_distinct : forall n c m c', named old new n c -> named old new m c' ->
    (cat n ++ "_" ++ cat c)%string = (cat m ++ "_" ++ cat c')%string -> n = m;
  (* nor is one the name of a table, or of a constraint of a table that is not in the schemas *)
  nc_free : forall n c x, named old new n c -> cons_col x = cat c ->
    (forall m, table_named old new m -> cat m <> usual_name (cat n) x)
    /\ forall m b, mget m db = Some b -> (forall k, table_named old new k -> cat k <> m) ->
         m <> usual_name (cat n) x /\ forall y, ~ In (usual_name (cat n) x, y) (p_cons b) }.

(** * Changes PostgreSQL scripts can express *)

Definition one_primary (t : ATable) : Prop :=
  forall c c', In c (t_cols t) -> In c' (t_cols t) -> c_pk c = true -> c_pk c' = true -> c = c'.
Record pg_change (old new : ADB) : Prop := {
  (* one primary key; a table that has one keeps one *)
  pc_one_old : forall n t, In (n, t) (a_tables old) -> one_primary t;
  pc_one : forall n t, In (n, t) (a_tables new) -> one_primary t;
  pc_stays : forall n t u c, In (n, t) (a_tables old) -> In (n, u) (a_tables new) -> In c (t_cols t) -> c_pk c = true ->
    exists c', In c' (t_cols u) /\ c_pk c' = true;
  (* automatic numbering neither begins nor ends *)
  pc_auto : forall n c c', changed_column old new n c c' -> c_auto c' = c_auto c }.

(** The tokens a literal is written with. *)
Definition written (l : literal) : list tok :=
  match l with
  | LitWord w => [TWord w]
  | LitNum neg n => (if neg then [TMinus] else []) ++ [TNumber n]
  | LitStr s => [TStr s]
  | LitHex h => [TWord "x"; TStr h]
  end.
(** The default the schema gives the column. *)
Definition declared_default (read : bool -> string -> f64) (c : AColumn) (k : pcol) : Prop :=
  match c_default c with
  | Some v => exists l, p_default k = default_of l /\ denotes read (written l) v
  | None => p_default k = None
  end.
(** The default of a column that is kept changes only with the schema's, and to it. *)
Definition defaults_follow (read : bool -> string -> f64) (old new : ADB) (db db' : pdb) : Prop :=
  forall n t u c c', In (n, t) (a_tables old) -> In (n, u) (a_tables new) -> In c (t_cols t) -> In c' (t_cols u) -> c_name c = c_name c' ->
    exists b b' k k', mget (cat n) db = Some b /\ mget (cat n) db' = Some b'
      /\ pcol_at b (cat (c_name c)) = Some k /\ pcol_at b' (cat (c_name c)) = Some k'
      /\ (same_opt sqlval_same (c_default c) (c_default c') -> p_default k' = p_default k)
      /\ (~ same_opt sqlval_same (c_default c) (c_default c') -> declared_default read c' k').
(** The database has the new schema: the tables that are no longer in it are gone, and
    tables of neither schema are as before. *)
Definition pg_migrated (read : bool -> string -> f64) (old new : ADB) (db db' : pdb) : Prop :=
  pg_has new db'
  /\ (forall n, has_table old n -> ~ has_table new n -> mget (cat n) db' = None)
  /\ (forall m, (forall n, table_named old new n -> cat n <> m) -> mget m db' = mget m db)
  /\ defaults_follow read old new db db'.
(** * Changes the catalogue takes *)

(** The column that the catalogue calls [C] of the table it calls [T] is marked in the schema. *)
Definition marked (d : ADB) (T C : string) (mark : AColumn -> bool) : Prop :=
  exists n t c, In (n, t) (a_tables d) /\ In c (t_cols t) /\ cat n = T /\ cat (c_name c) = C /\ mark c = true.
(** It has a key that stays, or it has one and its table is new. *)
Definition steady (old new : ADB) (T C : string) : Prop :=
  (marked old T C c_pk /\ marked new T C c_pk) \/ (marked old T C c_unique /\ marked new T C c_unique)
  \/ ((forall n, has_table old n -> cat n <> T) /\ (marked new T C c_pk \/ marked new T C c_unique)).
(** The table is in neither schema. *)
Definition elsewhere (old new : ADB) (T : string) : Prop := forall n, table_named old new n -> cat n <> T.
(** The database has the table and the column, and it has a key. *)
Definition keyed (db : pdb) (T C : string) : Prop :=
  exists b, mget T db = Some b /\ (exists k, In k (p_cols b) /\ p_name k = C)
    /\ (In (PKey C) (map snd (p_cons b)) \/ In (PUnique C) (map snd (p_cons b))).
Definition targets (r : ARefLiteral) (P : string -> string -> Prop) : Prop := P (cat (rl_table r)) (cat (rl_column r)).

(** Nothing in the catalogue stands in the change's way. *)
Record pg_ready (old new : ADB) (db : pdb) : Prop := {
  (* the new tables are not there *)
  pr_absent : forall n, has_table new n -> ~ has_table old n -> mget (cat n) db = None;
  (* a reference in a table that stays, or in a table of neither schema, is to a key that stays *)
  pr_old_refs : forall n t c r, In (n, t) (a_tables old) -> has_table new n -> In c (t_cols t) -> c_ref c = Some (RefLiteral r) ->
    targets r (fun T C => steady old new T C \/ elsewhere old new T);
  pr_new_refs : forall n u c r, In (n, u) (a_tables new) -> has_table old n -> In c (t_cols u) -> c_ref c = Some (RefLiteral r) ->
    targets r (fun T C => steady old new T C \/ (elsewhere old new T /\ keyed db T C));
  pr_other_refs : forall m b f, mget m db = Some b -> elsewhere old new m -> In (PRef f) (map snd (p_cons b)) ->
    steady old new (fk_table f) (fk_ref f) \/ elsewhere old new (fk_table f);
  (* a reference in a new table is to a key of the new schema *)
  pr_first_refs : forall n u c r, In (n, u) (a_tables new) -> ~ has_table old n -> In c (t_cols u) -> c_ref c = Some (RefLiteral r) ->
    targets r (fun T C => marked new T C c_pk \/ marked new T C c_unique \/ (elsewhere old new T /\ keyed db T C));
  (* a column that is added is not numbered, not filled with bytes and not a second primary key *)
  pr_added : forall n c, added_column old new n c -> c_auto c = false /\ forall b, column_default c <> Ok (VBlob b);
  pr_added_key : forall n t c o, added_column old new n c -> c_pk c = true -> In (n, t) (a_tables old) -> In o (t_cols t) -> c_pk o = false;
  (* a column that changes keeps its type if it is numbered, does not become nullable if
     it was the primary key, and its default does not become one of bytes *)
  pr_changed : forall n c c', changed_column old new n c c' ->
    (c_auto c' = true -> same_type (c_type c) (c_type c')) /\ (c_pk c = true -> c_nullable c' = false)
    /\ forall b, c_default c' = Some (VBlob b) -> same_opt sqlval_same (c_default c) (c_default c') }.
End Spec.
