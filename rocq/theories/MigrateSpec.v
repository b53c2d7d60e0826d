(** What it means for a database to have a schema, and for rows to survive a change of
    schema.  Specification only. *)
From Verif Require Import Base SqlVal Sql Adb AdbSpec LiteralSpec Literal Ddl DdlSpec Backend BackendSpec SqliteSem.

(** The word SQLite knows a column's type by. *)
Definition class_word (c : class) : string :=
  match c with CInteger => "INTEGER" | CReal => "REAL" | CText => "TEXT" | CBlob => "BLOB" end.
Definition word (c : AColumn) : string :=
  match type_denotes (c_type c) with
  | inl (TyId t) => match class_of t with Some k => class_word k | None => "" end
  | _ => ""
  end.

(** A column of the database is as the schema says. *)
Definition declares (c : AColumn) (k : ecol) : Prop :=
  k_name k = c_name c /\ k_type k = [word c] /\ k_notnull k = negb (c_nullable c)
  /\ k_pk k = c_pk c /\ k_unique k = c_unique c.
Definition refers (c : AColumn) (f : fkdef) : Prop :=
  exists r, c_ref c = Some (RefLiteral r) /\ f = {| fk_col := c_name c; fk_table := rl_table r; fk_ref := rl_column r |}.
Definition table_is (strict : bool) (t : ATable) (b : etab) : Prop :=
  b_strict b = strict
  /\ NoDup (map k_name (b_cols b))
  /\ (forall c, In c (t_cols t) -> exists k, In k (b_cols b) /\ declares c k)
  /\ (forall k, In k (b_cols b) -> exists c, In c (t_cols t) /\ declares c k)
  /\ (forall f, In f (b_fks b) <-> exists c, In c (t_cols t) /\ refers c f).

Section Data.
Variable conv : bool -> list string -> lvalue -> option lvalue.
Variable strict : bool.

(** What is known of how values are stored: NULL and values of the column's own class
    are stored as they are, storing twice is storing once, and a whole number in a
    REAL column becomes the number its digits denote; -0 denotes minus zero. *)
Record storage_ok (read : bool -> string -> f64) : Prop := {
  so_null : forall w, conv strict [w] LNull = Some LNull;
  so_integer : forall z, conv strict ["INTEGER"] (LInteger z) = Some (LInteger z);
  so_real : forall r, f64_finite r = true -> conv strict ["REAL"] (LReal r) = Some (LReal r);
  so_text : forall s, conv strict ["TEXT"] (LText s) = Some (LText s);
  so_blob : forall s, conv strict ["BLOB"] (LBlob s) = Some (LBlob s);
  so_again : forall w v v', conv strict w v = Some v' -> conv strict w v' = Some v';
  so_whole : forall (neg : bool) n z, number_of n = Some z -> (neg = true -> z <> 0%Z) ->
    conv strict ["REAL"] (LInteger (if neg then - z else z)) = Some (LReal (read neg n));
  so_minus_zero : forall n, number_of n = Some 0%Z -> f64_mag (read true n) = 0%Z /\ read true n <> 0%Z }.

(** Each row has one value, stored as its column wants it, in each column. *)
Definition rows_are (t : ATable) (b : etab) : Prop :=
  forall r, In r (b_rows b) ->
    (NoDup (map fst r) /\ forall n, get r n <> None <-> has_column t n)
    /\ forall c v, In c (t_cols t) -> get r (c_name c) = Some v ->
         conv strict [word c] v = Some v /\ (c_nullable c = false -> v <> LNull).
(** The database has the schema's tables. *)
Definition realises (d : ADB) (db : edb) : Prop :=
  forall n t, In (n, t) (a_tables d) -> exists b, mget n db = Some b /\ table_is strict t b /\ rows_are t b.

(** The value is the column's default. *)
Definition default_held (c : AColumn) (v : lvalue) : Prop :=
  exists d, column_default c = Ok d /\ sqlite_write d = Ok v.
(** [r'] of the new table is what became of [r]: the value of a kept column is the old
    value, stored as the column now wants it (unchanged if the type did not change), and
    a new column has its default. *)
Definition row_kept (t u : ATable) (r r' : row) : Prop :=
  forall c, In c (t_cols u) -> exists v', get r' (c_name c) = Some v'
    /\ (forall c0, In c0 (t_cols t) -> c_name c0 = c_name c ->
          exists v, get r (c_name c) = Some v /\ conv strict [word c] v = Some v' /\ (word c0 = word c -> v' = v))
    /\ (~ has_column t (c_name c) -> default_held c v').
(** The rows of [b'] are those of [b], in the same order. *)
Definition rows_kept (t u : ATable) (b b' : etab) : Prop := Forall2 (row_kept t u) (b_rows b) (b_rows b').

(** [db'] has the new schema and the data of [db]. *)
Definition migrated (old new : ADB) (db db' : edb) : Prop :=
  realises new db'
  /\ (forall n t u, In (n, t) (a_tables old) -> In (n, u) (a_tables new) ->
        exists b b', mget n db = Some b /\ mget n db' = Some b' /\ rows_kept t u b b')
  /\ (forall n, has_table new n -> ~ has_table old n -> exists b', mget n db' = Some b' /\ b_rows b' = [])
  /\ (forall n, has_table old n -> ~ has_table new n -> mget n db' = None)
  /\ (forall n, ~ has_table old n -> ~ has_table new n -> mget n db' = mget n db).
End Data.

(** The default value of a new column is of the column's type, and its literal is exact:
    no timestamp (written with a T, read with a space) and no negative zero. *)
Definition default_exact (c : AColumn) : Prop :=
  forall d, column_default c = Ok d ->
    match d with
    | VNull => True
    | VTimestamp _ => False
    | VReal r => f64_mag r <> 0%Z \/ r = 0%Z
    | VInt z | VBigInt z => (- 9223372036854775808 <= z <= 9223372036854775807)%Z
    | _ => True
    end
    /\ (forall ty, sqlval_type d = Some ty -> exists k, class_of ty = Some k /\ word c = class_word k).
(** Nothing refers to a table by the name a rebuilt table has for a while. *)
Definition temporary (n : string) : string := (n ++ "__butane_tmp")%string.
Definition no_temporary (new : ADB) (db : edb) : Prop :=
  (forall m b f n, mget m db = Some b -> In f (b_fks b) -> fk_table f <> temporary n)
  /\ (forall m t c f n, In (m, t) (a_tables new) -> In c (t_cols t) -> refers c f -> fk_table f <> temporary n).
(** New columns in kept tables refer to nothing. *)
Definition added_unreferring (old new : ADB) : Prop := forall n c, added_column old new n c -> c_ref c = None.

(** * When a script can run *)

(** A table the script rebuilds: a column is changed, or one with a reference goes. *)
Definition rebuilt (old new : ADB) (n : string) : Prop :=
  exists t u, In (n, t) (a_tables old) /\ In (n, u) (a_tables new)
    /\ ((exists c c', In c (t_cols t) /\ In c' (t_cols u) /\ c_name c = c_name c' /\ ~ same_column c c')
        \/ (exists c, In c (t_cols t) /\ c_ref c <> None /\ ~ has_column u (c_name c))).
Definition one_key (t : ATable) : Prop :=
  forall c c', In c (t_cols t) -> In c' (t_cols t) -> c_pk c = true -> c_pk c' = true -> c_name c = c_name c'.
(** The table is there and the column one of its keys. *)
Definition key_of (d : ADB) (n c : string) : Prop :=
  exists t k, In (n, t) (a_tables d) /\ In k (t_cols t) /\ c_name k = c /\ (c_pk k = true \/ c_unique k = true).

Section Ready.
Variable conv : bool -> list string -> lvalue -> option lvalue.
Variable veq : lvalue -> lvalue -> bool.
Variable strict : bool.

(** The rows of [b] can be stored in column [c] as it is described: every value fits,
    is not NULL where that is not allowed, is the key of a row where the column refers to
    a table, and is there once where the column is a key. *)
Definition fits (db : edb) (b : etab) (c : AColumn) : Prop :=
  exists vs, Forall2 (fun r v' => exists v, get r (c_name c) = Some v /\ conv strict [word c] v = Some v') (b_rows b) vs
    /\ (c_nullable c = false -> Forall (fun v => v <> LNull) vs)
    /\ (c_pk c = true \/ c_unique c = true -> no_twice veq vs = true)
    /\ (forall f, refers c f -> Forall (fun v => v = LNull \/ exists p, mget (fk_table f) db = Some p /\ holds veq p (fk_ref f) v = true) vs).
(** No row of another table refers to a row of the table. *)
Definition unreferred (db : edb) (n : string) : Prop :=
  forall m b f r v p, mget m db = Some b -> m <> n -> In f (b_fks b) -> fk_table f = n -> In r (b_rows b) ->
    get r (fk_col f) = Some v -> v <> LNull -> mget n db = Some p -> holds veq p (fk_ref f) v = false.

Record ready (old new : ADB) (db : edb) : Prop := {
  (* the names of new and rebuilt tables are free *)
  rd_free : forall n, has_table new n -> ~ has_table old n -> mget n db = None;
  rd_temporary : forall n, rebuilt old new n -> mget (temporary n) db = None /\ ~ has_table old (temporary n) /\ ~ has_table new (temporary n);
  (* one primary key, that does not move to another column *)
  rd_key : forall n u, In (n, u) (a_tables new) -> one_key u;
  rd_key_stays : forall n t u c c', In (n, t) (a_tables old) -> In (n, u) (a_tables new) -> In c (t_cols t) -> In c' (t_cols u) ->
    c_pk c = true -> c_pk c' = true -> c_name c = c_name c';
  rd_old_key : forall n t, In (n, t) (a_tables old) -> one_key t;
  (* added columns are no keys and their default can be stored *)
  rd_added : forall n c, added_column old new n c -> c_pk c = false /\ c_unique c = false
    /\ (c_nullable c = false -> column_default c <> Ok VNull);
  (* removed columns without a reference are no keys *)
  rd_removed : forall n t u c, In (n, t) (a_tables old) -> In (n, u) (a_tables new) -> In c (t_cols t) -> ~ has_column u (c_name c) ->
    c_ref c = None -> c_pk c = false /\ c_unique c = false;
  (* removed tables have no referring rows *)
  rd_dropped : forall n, has_table old n -> ~ has_table new n -> unreferred db n;
  (* no row refers to a row of a rebuilt table *)
  rd_rebuilt : forall n m b f r v, rebuilt old new n -> mget m db = Some b -> In f (b_fks b) -> fk_table f = n -> In r (b_rows b) ->
    get r (fk_col f) = Some v -> v = LNull;
  rd_rebuilt_new : forall n m t u b c f r v, rebuilt old new n -> In (m, t) (a_tables old) -> In (m, u) (a_tables new) -> In c (t_cols u) ->
    refers c f -> fk_table f = n -> mget m db = Some b -> In r (b_rows b) -> get r (c_name c) = Some v -> v = LNull;
  (* a rebuilt table refers only to keys, before and after, of tables that stay *)
  rd_parents : forall n t u c f, rebuilt old new n -> In (n, t) (a_tables old) -> In (n, u) (a_tables new) ->
    In c (t_cols t) \/ In c (t_cols u) -> refers c f ->
    key_of new (fk_table f) (fk_ref f) /\ (has_table old (fk_table f) -> key_of old (fk_table f) (fk_ref f));
  (* the rows of a rebuilt table are as the old schema says and fit the new one *)
  rd_fits : forall n t u b c, rebuilt old new n -> In (n, t) (a_tables old) -> In (n, u) (a_tables new) -> mget n db = Some b ->
    In c (t_cols t) \/ (In c (t_cols u) /\ has_column t (c_name c)) -> fits db b c }.
End Ready.
