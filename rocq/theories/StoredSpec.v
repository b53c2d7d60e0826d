(** What it means that a database keeps the rows that were written, and when it may refuse
    to.  Specification only. *)
From Verif Require Import Base SqlVal Sql SqlStmt Query QuerySpec Stmt StmtSpec Adb AdbSpec LiteralSpec Ddl DdlSpec
  Backend BackendSpec SqliteSem MigrateSpec SqliteData DataCalls.

Section Spec.
Variable json_text : string -> option string.
Variable E : engine.

(** * Values *)

(** A value of the column's kind that exists and that a database can hold; no value only
    where the column may be without. *)
Definition column_takes (c : AColumn) (v : SqlVal) : Prop :=
  exists ty, type_denotes (c_type c) = inl (TyId ty) /\ of_kind v ty /\ value_ok json_text v /\ ~ is_custom v
    /\ (forall r, v = VReal r -> f64_finite r = true)
    /\ (v = VNull -> c_nullable c = true /\ c_pk c = false).
(** The value for the column of this name. *)
Definition given_fits (t : ATable) (n : string) (v : SqlVal) : Prop :=
  exists c, In c (t_cols t) /\ c_name c = n /\ column_takes c v.
(** A row has one fitting value for each column. *)
Definition row_fits (t : ATable) (r : Sql.row) : Prop :=
  NoDup (map fst r) /\ (forall n, In n (map fst r) <-> has_column t n)
  /\ Forall (fun p => given_fits t (fst p) (snd p)) r.

(** The column of this name is of the kind. *)
Definition kind_is (t : ATable) (n : string) (ty : SqlType) : Prop :=
  exists c, In c (t_cols t) /\ c_name c = n /\ type_denotes (c_type c) = inl (TyId ty).

(** * The data *)

(** The values stored are those of the row, written. *)
Definition row_is (r : Sql.row) (x : row) : Prop :=
  Forall2 (fun p q => fst p = fst q /\ sqlite_write (snd p) = Ok (snd q)) r x.
(** The database has the rows [D]. *)
Definition has_rows (D : Sql.db) (db : edb) : Prop :=
  forall n, match mget n db with Some b => Forall2 row_is (D n) (b_rows b) | None => D n = [] end.

(** Two values are equal for the engine. *)
Definition equal (x y : SqlVal) : Prop := compare3 E CEq x y = Some true.
(** No key is there twice, and each reference is the key of a row. *)
Record legal (d : ADB) (D : Sql.db) : Prop := {
  lg_keys : forall n t c i j r s x y, In (n, t) (a_tables d) -> In c (t_cols t) -> c_pk c = true \/ c_unique c = true ->
    i < j -> nth_error (D n) i = Some r -> nth_error (D n) j = Some s ->
    field (c_name c) r = Some x -> field (c_name c) s = Some y -> ~ equal x y;
  lg_refs : forall n t c f r x, In (n, t) (a_tables d) -> In c (t_cols t) -> refers c f ->
    In r (D n) -> field (fk_col f) r = Some x -> x = VNull \/
    exists p y, In p (D (fk_table f)) /\ field (fk_ref f) p = Some y /\ equal x y }.

(** References are to keys. *)
Definition references_keys (d : ADB) : Prop :=
  forall n t c f, In (n, t) (a_tables d) -> In c (t_cols t) -> refers c f -> key_of d (fk_table f) (fk_ref f).

(** The database has the tables of the schema and in them the rows [D]; other tables
    refer to nothing. *)
Record keeps (conv : bool -> list string -> lvalue -> option lvalue) (strict : bool) (d : ADB) (D : Sql.db) (db : edb) : Prop := {
  kp_sorted : msorted db;
  kp_tables : realises conv strict d db;
  kp_rows : has_rows D db;
  kp_fit : forall n t, In (n, t) (a_tables d) -> Forall (row_fits t) (D n);
  kp_others : forall n b, mget n db = Some b -> has_table d n \/ b_fks b = [];
  kp_legal : legal d D }.

(** * The engine *)

(** A value as it is bound. *)
Definition bound_as (v : SqlVal) : SqlVal :=
  match sqlite_write v with Ok l => as_val (sqlite_keeps l) | _ => v end.
(** Values compare as they are bound and stored. *)
Record compares_stored (veq : lvalue -> lvalue -> bool) : Prop := {
  cs_cmp : forall v w, e_cmp E v w = e_cmp E (bound_as v) (bound_as w);
  cs_like : forall v w, e_like E v w = e_like E (bound_as v) (bound_as w);
  cs_ord : forall v w, e_ord E v w = e_ord E (bound_as v) (bound_as w);
  cs_veq : forall l m, veq l m = true <-> equal (as_val l) (as_val m) }.

(** * Calls *)

Definition call_table (c : call) : string :=
  match c with
  | InsertOnly t _ _ | InsertOrReplace t _ _ _ | UpdateRow t _ _ _ _ | DeleteWhere t _ => t
  end.
(** The call is about a table of the schema [d] and columns of it, with values of their
    kinds.  An insert may leave out a generated key. *)
Definition call_fits (dl : dialect) (d : ADB) (D : Sql.db) (c : call) : Prop :=
  exists t, In (call_table c, t) (a_tables d) /\
  match c with
  | InsertOnly _ cols vs =>
      NoDup cols /\ Forall2 (given_fits t) cols vs
      /\ (forall c, In c (t_cols t) -> In (c_name c) cols \/ (c_auto c = true /\ word c = "INTEGER"))
  | InsertOrReplace n cols pk vs =>
      NoDup cols /\ Forall2 (given_fits t) cols vs
      /\ (forall c, In c (t_cols t) -> In (c_name c) cols)
      /\ (exists c, In c (t_cols t) /\ c_name c = pk /\ (c_pk c = true \/ c_unique c = true))
      /\ n <> "excluded"
  | UpdateRow _ pk k cols vs =>
      cols <> [] /\ NoDup cols /\ Forall2 (given_fits t) cols vs /\ has_column t pk /\ ~ is_custom k
  | DeleteWhere n e =>
      bracket_free Anywhere e /\ supported dl e /\ filter_ok E D n (Some e) /\ Forall (fun v => ~ is_custom v) (bound_values e)
  end.

(** [extra] has a key of number [z] for each column left out. *)
Definition generated (t : ATable) (cols : list string) (z : Z) (extra : Sql.row) : Prop :=
  NoDup (map fst extra) /\ (forall n, In n (map fst extra) <-> has_column t n /\ ~ In n cols)
  /\ Forall (fun p => given_fits t (fst p) (snd p) /\ sqlite_write (snd p) = Ok (LInteger z)) extra.
(** [D'] are the rows the call asks for, [z] being the next generated key. *)
Definition asks (d : ADB) (z : Z) (c : call) (D D' : Sql.db) : Prop :=
  match c with
  | InsertOnly n cols vs =>
      exists t extra, In (n, t) (a_tables d) /\ generated t cols z extra
        /\ D' = with_table D n (D n ++ [combine cols vs ++ extra])
  | InsertOrReplace n cols pk vs =>
      exists k, field pk (combine cols vs) = Some k
        /\ D' = with_table D n (if existsb (has_key E pk k) (D n)
                                then (if Nat.ltb 1 (List.length cols)
                                      then rewrite_rows (has_key E pk k) (assign (combine cols vs)) (D n) else D n)
                                else D n ++ [combine cols vs])
  | UpdateRow n pk k cols vs => D' = with_table D n (rewrite_rows (has_key E pk k) (assign (combine cols vs)) (D n))
  | DeleteWhere n e => D' = with_table D n (filter (fun r => negb (row_matches E D n (Some e) r)) (D n))
  end.
(** The number the engine gives fits the kind of the key. *)
Definition numbers_fit (fresh : etab -> Z) (d : ADB) (db : edb) : Prop :=
  forall n t b c, In (n, t) (a_tables d) -> mget n db = Some b -> In c (t_cols t) -> c_auto c = true ->
    exists k, column_takes c k /\ sqlite_write k = Ok (LInteger (fresh b)).
End Spec.

(** * Many calls *)
(** [D'] are the rows after the calls that were accepted: those that left no key twice
    and no reference without its row; the others changed nothing.  [z] is the number
    the engine gives a row. *)
Inductive follow (json_text : string -> option string) (E : engine) (d : ADB) : Sql.db -> list call -> Sql.db -> Prop :=
| fo_end D : follow json_text E d D [] D
| fo_taken D z c D1 cs D2 : asks json_text E d z c D D1 -> legal E d D1 ->
    follow json_text E d D1 cs D2 -> follow json_text E d D (c :: cs) D2
| fo_refused D z c D1 cs D2 : asks json_text E d z c D D1 -> ~ legal E d D1 ->
    follow json_text E d D cs D2 -> follow json_text E d D (c :: cs) D2.

(** * What is relied on *)
(** The engine reads SQL as SQLite does, compares and stores values as described. *)
Record stores (kw : string -> bool) (dl : dialect) (conv : bool -> list string -> lvalue -> option lvalue)
    (veq : lvalue -> lvalue -> bool) (read : bool -> string -> f64) (strict : bool) (E : engine) : Prop := {
  sr_quotes : quotes_enough kw dl;
  sr_excluded : reserved dl "excluded" = false;
  sr_engine : engine_ok E;
  sr_compares : compares_stored E veq;
  sr_storage : storage_ok conv strict read }.
(** A schema whose tables can be declared and whose references are to keys. *)
Record usable (d : ADB) : Prop := {
  us_wf : wf_schema d;
  us_fine : schema_fine d;
  us_keys : references_keys d }.
