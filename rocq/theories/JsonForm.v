(** The JSON form of what butane stores in files: the derived [Serialize] and
    [Deserialize] implementations, externally tagged enums, structs as objects.
    Models butane_core/src/lib.rs:371-397, sqlval.rs:77-94, custom.rs:18-33 and 141-245,
    migrations/adb.rs:45-49, 73-115, 177-181, 299-303, 333-338, 381-396, 417-437,
    migrations/fsmigrations.rs:15-51, migrations/memmigrations.rs:12-18, 105-110 and
    butane_cli/src/lib.rs:34-37.

    [serde(default)] and [skip_serializing_if] are those of adb.rs:430 and 435 and
    fsmigrations.rs:23 and 28. *)
From Verif Require Import Base SqlVal Time Query Json Adb Store FsStore.

(** * Reading: the pieces of the derived [Deserialize] *)

Definition de_string (j : json) : outcome string :=
  match j with JStr s => Ok s | _ => Err SerdeJson end.
Definition de_bool (j : json) : outcome bool :=
  match j with JBool b => Ok b | _ => Err SerdeJson end.
(** An integer type from [lo] to [hi]; a real is refused. *)
Definition de_int (lo hi : Z) (j : json) : outcome Z :=
  match j with
  | JInt z => if Z.leb lo z && Z.leb z hi then Ok z else Err SerdeJson
  | _ => Err SerdeJson
  end.
Definition de_real (j : json) : outcome f64 :=
  match j with
  | JReal r => Ok r
  | JInt z => Ok (f64_signed (Z.leb 0 z) (f64_of_int (Z.abs z)))
  | _ => Err SerdeJson
  end.
Definition de_option {A} (f : json -> outcome A) (j : json) : outcome (option A) :=
  match j with JNull => Ok None | _ => omap Some (f j) end.
Fixpoint de_all {A} (f : json -> outcome A) (l : list json) : outcome (list A) :=
  match l with
  | [] => Ok []
  | x :: r => do a <- f x; do b <- de_all f r; Ok (a :: b)
  end.
Definition de_list {A} (f : json -> outcome A) (j : json) : outcome (list A) :=
  match j with JArr l => de_all f l | _ => Err SerdeJson end.
(** A [BTreeMap]: of members with the same key the last one stays. *)
Fixpoint de_members {K A} `{OrdKey K} (key : string -> outcome K) (f : json -> outcome A)
    (l : list (string * json)) (m : smap K A) : outcome (smap K A) :=
  match l with
  | [] => Ok m
  | (k, x) :: r => do k' <- key k; do a <- f x; de_members key f r (mput k' a m)
  end.
Definition de_map {K A} `{OrdKey K} (key : string -> outcome K) (f : json -> outcome A) (j : json)
    : outcome (smap K A) :=
  match j with JObj l => de_members key f l [] | _ => Err SerdeJson end.

(** The members of a struct with these fields.  An array gives the fields in order
    ([true]); in an object unknown members are ignored and a repeated field is an
    error. *)
Definition times (n : string) (l : list (string * json)) : nat :=
  length (filter (fun m => String.eqb (fst m) n) l).
Definition fields (names : list string) (j : json) : outcome (bool * list (string * json)) :=
  match j with
  | JObj l => if existsb (fun n => Nat.ltb 1 (times n l)) names then Err SerdeJson else Ok (false, l)
  | JArr l => if Nat.leb (length l) (length names) then Ok (true, combine names l) else Err SerdeJson
  | _ => Err SerdeJson
  end.
Definition find_member (n : string) (l : list (string * json)) : option json :=
  option_map snd (find (fun m => String.eqb (fst m) n) l).
(** A field that must be there; one with [serde(default)]; an [Option] without it,
    which only an object may leave out. *)
Definition need {A} (fs : bool * list (string * json)) (n : string) (f : json -> outcome A) : outcome A :=
  match find_member n (snd fs) with Some j => f j | None => Err SerdeJson end.
Definition defaulted {A} (fs : bool * list (string * json)) (n : string) (f : json -> outcome A) (d : A) : outcome A :=
  match find_member n (snd fs) with Some j => f j | None => Ok d end.
Definition optional {A} (fs : bool * list (string * json)) (n : string) (f : json -> outcome A) : outcome (option A) :=
  match find_member n (snd fs) with
  | Some j => de_option f j
  | None => if fst fs then Err SerdeJson else Ok None
  end.

(** An enum: the variant's name alone, or an object with one member. *)
Definition variant (j : json) : outcome (string * option json) :=
  match j with
  | JStr s => Ok (s, None)
  | JObj [(k, v)] => Ok (k, Some v)
  | _ => Err SerdeJson
  end.
Definition unit_variant {A} (c : option json) (a : A) : outcome A :=
  match c with None | Some JNull => Ok a | _ => Err SerdeJson end.
Definition newtype_variant {A B} (c : option json) (f : json -> outcome A) (mk : A -> B) : outcome B :=
  match c with Some j => omap mk (f j) | None => Err SerdeJson end.
Definition tagged (n : string) (j : json) : json := JObj [(n, j)].

(** Writing a list whose parts may have no form. *)
Fixpoint ser_all {A B} (f : A -> outcome B) (l : list A) : outcome (list B) :=
  match l with
  | [] => Ok []
  | x :: r => do a <- f x; do b <- ser_all f r; Ok (a :: b)
  end.
Definition ser_option {A} (f : A -> outcome json) (o : option A) : outcome json :=
  match o with None => Ok JNull | Some a => f a end.
Definition ser_member {K A} (key : K -> string) (f : A -> outcome json) (p : K * A) : outcome (string * json) :=
  do j <- f (snd p); Ok (key (fst p), j).
Definition ser_map {K A} (key : K -> string) (f : A -> outcome json) (m : smap K A) : outcome json :=
  omap JObj (ser_all (ser_member key f) m).
Definition ser_str (s : string) : outcome json := Ok (JStr s).

(** * PostgreSQL types, custom.rs:141-245

    [Kind::Multirange], for which the code panics, is left out. *)
Inductive pgtype := PgType (name : string) (oid : Z) (kind : pgkind) (schema : string)
with pgkind :=
| PgSimple
| PgEnum (l : list string)
| PgPseudo
| PgArray (t : pgtype)
| PgRange (t : pgtype)
| PgDomain (t : pgtype)
| PgComposite (l : list (string * pgtype)).
Definition pg_name (t : pgtype) : string := match t with PgType n _ _ _ => n end.

Fixpoint ser_pgtype (t : pgtype) : json :=
  match t with
  | PgType n o k s => JObj [("name", JStr n); ("oid", JInt o); ("kind", ser_pgkind k); ("schema", JStr s)]
  end
with ser_pgkind (k : pgkind) : json :=
  match k with
  | PgSimple => JStr "Simple"
  | PgEnum l => tagged "Enum" (JArr (map JStr l))
  | PgPseudo => JStr "Pseudo"
  | PgArray t => tagged "Array" (ser_pgtype t)
  | PgRange t => tagged "Range" (ser_pgtype t)
  | PgDomain t => tagged "Domain" (ser_pgtype t)
  | PgComposite l => tagged "Composite"
      (JArr (map (fun p => JObj [("name", JStr (fst p)); ("ty", ser_pgtype (snd p))]) l))
  end.
(** [fuel] bounds the nesting; the text's own limit is 128. *)
Fixpoint de_pgtype (fuel : nat) (j : json) : outcome pgtype :=
  match fuel with
  | O => Err SerdeJson
  | S d =>
      do fs <- fields ["name"; "oid"; "kind"; "schema"] j;
      do n <- need fs "name" de_string;
      do o <- need fs "oid" (de_int 0 4294967295);
      do k <- need fs "kind" (fun j =>
                do v <- variant j;
                let '(name, c) := v in
                if String.eqb name "Simple" then unit_variant c PgSimple
                else if String.eqb name "Enum" then newtype_variant c (de_list de_string) PgEnum
                else if String.eqb name "Pseudo" then unit_variant c PgPseudo
                else if String.eqb name "Array" then newtype_variant c (de_pgtype d) PgArray
                else if String.eqb name "Range" then newtype_variant c (de_pgtype d) PgRange
                else if String.eqb name "Domain" then newtype_variant c (de_pgtype d) PgDomain
                else if String.eqb name "Composite" then
                  newtype_variant c (de_list (fun j =>
                    do fs <- fields ["name"; "ty"] j;
                    do n <- need fs "name" de_string;
                    do t <- need fs "ty" (de_pgtype d);
                    Ok (n, t))) PgComposite
                else Err SerdeJson);
      do s <- need fs "schema" de_string;
      Ok (PgType n o k s)
  end.

(** * A JSON value as Rust holds it

    [serde_json::Value] keeps the members of an object in a [BTreeMap]. *)
Fixpoint norm (v : json) : json :=
  match v with
  | JArr l => JArr (map norm l)
  | JObj l => JObj ((fix go (l : list (string * json)) (m : smap string json) : smap string json :=
                       match l with
                       | [] => m
                       | (k, x) :: r => go r (mput k (norm x) m)
                       end) l [])
  | _ => v
  end.

(** Bytes, as the numbers of [Vec<u8>]. *)
Definition ser_bytes (b : string) : json :=
  JArr (map (fun c => JInt (Z.of_N (N_of_ascii c))) (list_ascii_of_string b)).
Definition de_bytes (j : json) : outcome string :=
  omap (fun l => string_of_list_ascii (map (fun z => ascii_of_N (Z.to_N z)) l)) (de_list (de_int 0 255) j).

Section Forms.
  (** What ryu writes for a finite f64, and the PostgreSQL type of a name (in this model
      a custom type is its name). *)
  Variable show : f64 -> string.
  Variable pg_of : string -> pgtype.

  (** [SqlType], lib.rs:371-397, and [SqlTypeCustom], custom.rs:18-22 *)
  Definition ser_custom (n : string) : json := tagged "Pg" (ser_pgtype (pg_of n)).
  Definition ser_sqltype (t : SqlType) : json :=
    match t with
    | TBool => JStr "Bool"
    | TInt => JStr "Int"
    | TBigInt => JStr "BigInt"
    | TReal => JStr "Real"
    | TText => JStr "Text"
    | TDate => JStr "Date"
    | TTimestamp => JStr "Timestamp"
    | TBlob => JStr "Blob"
    | TJson => JStr "Json"
    | TCustom n => tagged "Custom" (ser_custom n)
    end.
  Definition de_custom (j : json) : outcome string :=
    do v <- variant j;
    let '(name, c) := v in
    if String.eqb name "Pg" then newtype_variant c (de_pgtype 128) pg_name else Err SerdeJson.
  Definition de_sqltype (j : json) : outcome SqlType :=
    do v <- variant j;
    let '(name, c) := v in
    if String.eqb name "Bool" then unit_variant c TBool
    else if String.eqb name "Int" then unit_variant c TInt
    else if String.eqb name "BigInt" then unit_variant c TBigInt
    else if String.eqb name "Real" then unit_variant c TReal
    else if String.eqb name "Text" then unit_variant c TText
    else if String.eqb name "Date" then unit_variant c TDate
    else if String.eqb name "Timestamp" then unit_variant c TTimestamp
    else if String.eqb name "Blob" then unit_variant c TBlob
    else if String.eqb name "Json" then unit_variant c TJson
    else if String.eqb name "Custom" then newtype_variant c de_custom TCustom
    else Err SerdeJson.

  (** [SqlVal], sqlval.rs:77-94, and [SqlValCustom], custom.rs:25-33.  A JSON value is
      represented by its text; a text that is none has no form. *)
  Definition ser_sqlval (v : SqlVal) : outcome json :=
    match v with
    | VNull => Ok (JStr "Null")
    | VBool b => Ok (tagged "Bool" (JBool b))
    | VInt i => Ok (tagged "Int" (JInt i))
    | VBigInt i => Ok (tagged "BigInt" (JInt i))
    | VReal r => Ok (tagged "Real" (JReal r))
    | VText s => Ok (tagged "Text" (JStr s))
    | VBlob b => Ok (tagged "Blob" (ser_bytes b))
    | VJson j => do v <- from_text j; Ok (tagged "Json" (norm v))
    | VDate d => Ok (tagged "Date" (JStr (format_date d)))
    | VTimestamp t => Ok (tagged "Timestamp" (JStr (format_timestamp "T" t)))
    | VCustom n b => Ok (tagged "Custom"
        (tagged "Pg" (JObj [("ty", ser_pgtype (pg_of n)); ("data", ser_bytes b)])))
    end.
  Definition de_sqlval (j : json) : outcome SqlVal :=
    do v <- variant j;
    let '(name, c) := v in
    if String.eqb name "Null" then unit_variant c VNull
    else if String.eqb name "Bool" then newtype_variant c de_bool VBool
    else if String.eqb name "Int" then newtype_variant c (de_int (-2147483648) 2147483647) VInt
    else if String.eqb name "BigInt" then
      newtype_variant c (de_int (-9223372036854775808) 9223372036854775807) VBigInt
    else if String.eqb name "Real" then newtype_variant c de_real VReal
    else if String.eqb name "Text" then newtype_variant c de_string VText
    else if String.eqb name "Blob" then newtype_variant c de_bytes VBlob
    else if String.eqb name "Json" then
      newtype_variant c (fun j => Ok (to_string show (norm j))) VJson
    else if String.eqb name "Date" then
      newtype_variant c (fun j => do s <- de_string j;
                                  match parse_date s with Some d => Ok d | None => Err SerdeJson end) VDate
    else if String.eqb name "Timestamp" then
      newtype_variant c (fun j => do s <- de_string j;
                                  match parse_timestamp "T" s with Some t => Ok t | None => Err SerdeJson end) VTimestamp
    else if String.eqb name "Custom" then
      newtype_variant c (fun j =>
        do v <- variant j;
        let '(name, c) := v in
        if String.eqb name "Pg" then
          newtype_variant c (fun j =>
            do fs <- fields ["ty"; "data"] j;
            do t <- need fs "ty" (de_pgtype 128);
            do b <- need fs "data" de_bytes;
            Ok (VCustom (pg_name t) b)) (fun v => v)
        else Err SerdeJson) (fun v => v)
    else Err SerdeJson.

  (** [TypeIdentifier], adb.rs:45-49 *)
  Definition ser_typeid (t : TypeIdentifier) : json :=
    match t with TyId t => tagged "Ty" (ser_sqltype t) | TyName n => tagged "Name" (JStr n) end.
  Definition de_typeid (j : json) : outcome TypeIdentifier :=
    do v <- variant j;
    let '(name, c) := v in
    if String.eqb name "Ty" then newtype_variant c de_sqltype TyId
    else if String.eqb name "Name" then newtype_variant c de_string TyName
    else Err SerdeJson.
  (** [DeferredSqlType], adb.rs:333-338; [TypeKey] as in Adb.v *)
  Definition ser_dtype (t : DeferredSqlType) : json :=
    match t with
    | Known t => tagged "Known" (ser_sqltype t)
    | KnownId t => tagged "KnownId" (ser_typeid t)
    | Deferred k => tagged "Deferred" (JStr (typekey_ser k))
    end.
  Definition de_dtype (j : json) : outcome DeferredSqlType :=
    do v <- variant j;
    let '(name, c) := v in
    if String.eqb name "Known" then newtype_variant c de_sqltype Known
    else if String.eqb name "KnownId" then newtype_variant c de_typeid KnownId
    else if String.eqb name "Deferred" then
      newtype_variant c (fun j => do s <- de_string j; typekey_de s) Deferred
    else Err SerdeJson.
  (** [ARef] and [ARefLiteral], adb.rs:381-396 *)
  Definition ser_ref (r : ARef) : json :=
    match r with
    | RefLiteral l => tagged "Literal"
        (JObj [("table_name", JStr (rl_table l)); ("column_name", JStr (rl_column l))])
    | RefDeferred d => tagged "Deferred" (ser_dtype d)
    end.
  Definition de_ref (j : json) : outcome ARef :=
    do v <- variant j;
    let '(name, c) := v in
    if String.eqb name "Literal" then
      newtype_variant c (fun j =>
        do fs <- fields ["table_name"; "column_name"] j;
        do t <- need fs "table_name" de_string;
        do c <- need fs "column_name" de_string;
        Ok {| rl_table := t; rl_column := c |}) RefLiteral
    else if String.eqb name "Deferred" then newtype_variant c de_dtype RefDeferred
    else Err SerdeJson.

  (** [AColumn], adb.rs:417-437 *)
  Definition ser_column (c : AColumn) : outcome json :=
    do d <- ser_option ser_sqlval (c_default c);
    Ok (JObj ([("name", JStr (c_name c)); ("sqltype", ser_dtype (c_type c));
               ("nullable", JBool (c_nullable c)); ("pk", JBool (c_pk c)); ("auto", JBool (c_auto c));
               ("unique", JBool (c_unique c)); ("default", d)]
              ++ match c_ref c with None => [] | Some r => [("reference", ser_ref r)] end)).
  Definition de_column (j : json) : outcome AColumn :=
    do fs <- fields ["name"; "sqltype"; "nullable"; "pk"; "auto"; "unique"; "default"; "reference"] j;
    do n <- need fs "name" de_string;
    do t <- need fs "sqltype" de_dtype;
    do nl <- need fs "nullable" de_bool;
    do pk <- need fs "pk" de_bool;
    do au <- need fs "auto" de_bool;
    do un <- defaulted fs "unique" de_bool false;
    do df <- optional fs "default" de_sqlval;
    do rf <- defaulted fs "reference" (de_option de_ref) None;
    Ok {| c_name := n; c_type := t; c_nullable := nl; c_pk := pk; c_auto := au; c_unique := un;
          c_default := df; c_ref := rf |}.
  (** [ATable], adb.rs:299-303 *)
  Definition ser_table (t : ATable) : outcome json :=
    do cs <- ser_all ser_column (t_cols t);
    Ok (JObj [("name", JStr (t_name t)); ("columns", JArr cs)]).
  Definition de_table (j : json) : outcome ATable :=
    do fs <- fields ["name"; "columns"] j;
    do n <- need fs "name" de_string;
    do cs <- need fs "columns" (de_list de_column);
    Ok {| t_name := n; t_cols := cs |}.
  (** [SqlTypeMap], fsmigrations.rs:15 *)
  Definition ser_types (m : smap TypeKey DeferredSqlType) : outcome json :=
    ser_map typekey_ser (fun t => Ok (ser_dtype t)) m.
  Definition de_types (j : json) : outcome (smap TypeKey DeferredSqlType) := de_map typekey_de de_dtype j.
  (** [ADB], adb.rs:177-181 *)
  Definition ser_adb (a : ADB) : outcome json :=
    do ts <- ser_map (fun k => k) ser_table (a_tables a);
    do xs <- ser_types (a_types a);
    Ok (JObj [("tables", ts); ("extra_types", xs)]).
  Definition de_adb (j : json) : outcome ADB :=
    do fs <- fields ["tables"; "extra_types"] j;
    do ts <- need fs "tables" (de_map (fun k => Ok k) de_table);
    do xs <- need fs "extra_types" de_types;
    Ok {| a_tables := ts; a_types := xs |}.

  (** [MigrationInfo], fsmigrations.rs:19-32 *)
  Definition ser_info (i : Info) : json :=
    JObj (match in_from i with None => [] | Some n => [("from_name", JStr n)] end
          ++ match in_bases i with
             | [] => []
             | m => [("table_bases", JObj (map (fun p => (fst p, JStr (snd p))) m))]
             end
          ++ [("backends", JArr (map JStr (in_backends i)))]).
  Definition de_info (j : json) : outcome Info :=
    do fs <- fields ["from_name"; "table_bases"; "backends"] j;
    do f <- defaulted fs "from_name" (de_option de_string) None;
    do b <- defaulted fs "table_bases" (de_map (fun k => Ok k) de_string) [];
    do bs <- need fs "backends" (de_list de_string);
    Ok {| in_from := f; in_bases := b; in_backends := bs |}.
  (** [MigrationsState], fsmigrations.rs:44-46 *)
  Definition ser_state (l : option string) : json :=
    JObj [("latest", match l with None => JNull | Some n => JStr n end)].
  Definition de_state (j : json) : outcome (option string) :=
    do fs <- fields ["latest"] j;
    optional fs "latest" de_string.

  (** [MemMigration] and [MemMigrations], memmigrations.rs:12-18, 105-110 *)
  Definition ser_texts (m : smap string string) : outcome json := ser_map (fun k => k) ser_str m.
  Definition ser_migration (m : MemMigration) : outcome json :=
    do d <- ser_adb (mm_db m);
    do f <- ser_option ser_str (mm_from m);
    do u <- ser_texts (mm_up m);
    do w <- ser_texts (mm_down m);
    Ok (JObj [("name", JStr (mm_name m)); ("db", d); ("from", f); ("up", u); ("down", w)]).
  Definition de_texts (j : json) : outcome (smap string string) := de_map (fun k => Ok k) de_string j.
  Definition de_migration (j : json) : outcome MemMigration :=
    do fs <- fields ["name"; "db"; "from"; "up"; "down"] j;
    do n <- need fs "name" de_string;
    do d <- need fs "db" de_adb;
    do f <- optional fs "from" de_string;
    do u <- need fs "up" de_texts;
    do w <- need fs "down" de_texts;
    Ok {| mm_name := n; mm_db := d; mm_from := f; mm_up := u; mm_down := w |}.
  Definition ser_store (s : MemStore) : outcome json :=
    do ms <- ser_map (fun k => k) ser_migration (ms_migs s);
    do c <- ser_migration (ms_current s);
    do l <- ser_option ser_str (ms_latest s);
    Ok (JObj [("migrations", ms); ("current", c); ("latest", l)]).
  Definition de_store (j : json) : outcome MemStore :=
    do fs <- fields ["migrations"; "current"; "latest"] j;
    do ms <- need fs "migrations" (de_map (fun k => Ok k) de_migration);
    do c <- need fs "current" de_migration;
    do l <- optional fs "latest" de_string;
    Ok {| ms_migs := ms; ms_current := c; ms_latest := l |}.

  (** [CliState], butane_cli/src/lib.rs:34-37 *)
  Definition ser_clistate (embedded : bool) : json := JObj [("embedded", JBool embedded)].
  Definition de_clistate (j : json) : outcome bool :=
    do fs <- fields ["embedded"] j;
    need fs "embedded" de_bool.

  (** * The files

      What is written: pretty text for everything but types.json, and a newline at the
      end (fsmigrations.rs:79-83, 114-127, 180-185, 255-262, 375-386). *)
  Definition file_json (f : file) : outcome json :=
    match f with
    | FInfo i => Ok (ser_info i)
    | FTable t => ser_table t
    | FTypes ts => ser_types ts
    | FState l => Ok (ser_state l)
    | FSql _ | FTorn _ => Err SerdeJson
    end.
  Definition file_text (f : file) : outcome string :=
    match f with
    | FSql s | FTorn s => Ok s
    | FTypes _ => do j <- file_json f; Ok (to_string show j ++ newline)%string
    | _ => do j <- file_json f; Ok (to_string_pretty show j ++ newline)%string
    end.
  (** What is read: [info] (fsmigrations.rs:138), a table (287, 297), the types (248, 300)
      and the state (365), from the bytes of the file. *)
  Definition info_of_text (s : string) : outcome Info := do j <- from_text s; de_info j.
  Definition table_of_text (s : string) : outcome ATable := do j <- from_text s; de_table j.
  Definition types_of_text (s : string) : outcome (smap TypeKey DeferredSqlType) :=
    do j <- from_text s; de_types j.
  Definition state_of_text (s : string) : outcome (option string) := do j <- from_text s; de_state j.
  (** butane_cli/src/lib.rs:38-56 *)
  Definition clistate_text (embedded : bool) : string :=
    (to_string_pretty show (ser_clistate embedded) ++ newline)%string.
  Definition clistate_of_text (s : string) : outcome bool := do j <- from_text s; de_clistate j.
  (** [MemMigrations::from_json], memmigrations.rs:120-122, and the text made for it,
      butane_cli/src/lib.rs:373 *)
  Definition store_text (s : MemStore) : outcome string :=
    do j <- ser_store s; Ok (to_string_pretty show j).
  Definition store_of_text (s : string) : outcome MemStore := do j <- from_text s; de_store j.
End Forms.
