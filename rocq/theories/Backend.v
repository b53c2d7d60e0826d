(** SQL values as each backend writes and reads them.
    Models butane_core/src/db/sqlite.rs:500-541, 618-660;
    butane_core/src/db/turso.rs:755-940; butane_core/src/db/pg.rs:414-546, 568-586,
    699-730.  The identity of backend errors is not modelled: an error of the
    driver is [DbError 0], an error of chrono or serde_json [DbError 1]. *)
From Verif Require Import Base SqlVal Time Turso.

(** [serde_json::from_str] followed by [to_string]: the canonical text of a
    JSON text, if it is one. *)
Section Json.
Variable json_text : string -> option string.

(** * SQLite *)

(** rusqlite's Value / ValueRef. *)
Inductive lvalue :=
| LNull
| LInteger (i : Z)
| LReal (r : f64)
| LText (s : string)
| LBlob (b : string).

(** sqlite.rs:513-541 *)
Definition sqlite_write (v : SqlVal) : outcome lvalue :=
  match v with
  | VBool b => Ok (LInteger (if b then 1 else 0))
  | VInt i => Ok (LInteger i)
  | VBigInt i => Ok (LInteger i)
  | VReal r => Ok (LReal r)
  | VText t => Ok (LText t)
  | VBlob b => Ok (LBlob b)
  | VJson j => Ok (LText j)
  | VDate d => Ok (LText (format_date d))
  | VTimestamp t => Ok (LText (format_timestamp " " t))
  | VNull => Ok LNull
  | VCustom _ _ => Panic
  end.

(** The engine: sqlite3_bind_double stores a NaN as NULL; a column declared
    with the value's own storage class keeps the value. *)
Definition sqlite_keeps (x : lvalue) : lvalue :=
  match x with LReal r => if f64_is_nan r then LNull else x | _ => x end.

(** ValueRef::as_i64 and so on. *)
Definition l_i64 (x : lvalue) : outcome Z := match x with LInteger i => Ok i | _ => Err (DbError 0) end.
Definition l_f64 (x : lvalue) : outcome f64 := match x with LReal r => Ok r | _ => Err (DbError 0) end.
Definition l_str (x : lvalue) : outcome string := match x with LText s => Ok s | _ => Err (DbError 0) end.
Definition l_blob (x : lvalue) : outcome string := match x with LBlob s => Ok s | _ => Err (DbError 0) end.

(** [i as i32] *)
Definition as_i32 (i : Z) : Z := ((i + 2 ^ 31) mod 2 ^ 32 - 2 ^ 31)%Z.
Definition parsed {A B} (f : A -> B) (x : option A) : outcome B :=
  match x with Some a => Ok (f a) | None => Err (DbError 1) end.

(** sqlite.rs:631-660 *)
Definition sqlite_read (x : lvalue) (ty : SqlType) : outcome SqlVal :=
  match x with
  | LNull => Ok VNull
  | _ =>
      match ty with
      | TBool => do i <- l_i64 x ; Ok (VBool (negb (Z.eqb i 0)))
      | TInt => do i <- l_i64 x ; Ok (VInt (as_i32 i))
      | TBigInt => do i <- l_i64 x ; Ok (VBigInt i)
      | TReal => do r <- l_f64 x ; Ok (VReal r)
      | TText => do s <- l_str x ; Ok (VText s)
      | TJson => do s <- l_str x ; parsed VJson (json_text s)
      | TDate => do s <- l_str x ; parsed VDate (parse_date s)
      | TTimestamp => do s <- l_str x ; parsed VTimestamp (parse_timestamp " " s)
      | TBlob => do b <- l_blob x ; Ok (VBlob b)
      | TCustom _ => Err IncompatibleCustomT
      end
  end.

(** * Turso *)

(** The engine, like SQLite. *)
Definition turso_keeps (x : tvalue) : tvalue :=
  match x with TvReal r => if f64_is_nan r then TvNull else x | _ => x end.

(** turso.rs:782-903 *)
Definition turso_value_to_sqlval_typed (x : tvalue) (ty : SqlType) : outcome SqlVal :=
  match x with
  | TvNull => Ok VNull
  | _ =>
      match ty with
      | TBool => match x with TvInteger i => Ok (VBool (negb (Z.eqb i 0))) | _ => Err (Internal "Expected integer for Bool") end
      | TInt => match x with TvInteger i => Ok (VInt (as_i32 i)) | _ => Err (Internal "Expected integer for Int") end
      | TBigInt => match x with TvInteger i => Ok (VBigInt i) | _ => Err (Internal "Expected integer for BigInt") end
      | TReal => match x with TvReal r => Ok (VReal r) | _ => Err (Internal "Expected real for Real") end
      | TText => match x with TvText t => Ok (VText t) | _ => Err (Internal "Expected text for Text") end
      | TJson => match x with TvText t => parsed VJson (json_text t) | _ => Err (Internal "Expected text for Json") end
      | TDate => match x with TvText t => parsed VDate (parse_date t) | _ => Err (Internal "Expected text for Date") end
      | TTimestamp => match x with TvText t => parsed VTimestamp (parse_timestamp " " t) | _ => Err (Internal "Expected text for Timestamp") end
      | TBlob => match x with TvBlob b => Ok (VBlob b) | _ => Err (Internal "Expected blob for Blob") end
      | TCustom _ => Err IncompatibleCustomT
      end
  end.
(** TursoRow, turso.rs:916-940: the row holds values read with the types of the
    requested columns; [get] checks the kind asked for.  VecRow,
    connmethods.rs:226-243, checks likewise. *)
Definition row_get (values : list SqlVal) (idx : nat) (ty : SqlType) (out_of_bounds : error) : outcome SqlVal :=
  match nth_error values idx with
  | None => Err out_of_bounds
  | Some v => if is_compatible v ty true then Ok v else Err CannotConvertSqlVal
  end.

(** * PostgreSQL *)

(** The column types butane declares, pg.rs:699-730, and any other. *)
Inductive pgtype :=
| PBool | PInt4 | PInt8 | PFloat8 | PTextT | PBytea | PJsonb | PDate | PTimestamp | POther (name : string).
Definition pg_column_type (ty : SqlType) : pgtype :=
  match ty with
  | TBool => PBool | TInt => PInt4 | TBigInt => PInt8 | TReal => PFloat8 | TText => PTextT
  | TBlob => PBytea | TJson => PJsonb | TDate => PDate | TTimestamp => PTimestamp
  | TCustom n => POther n
  end.

(** A value on the wire.  A timestamp is a number of microseconds; it is
    represented by its calendar fields with microseconds. *)
Inductive pgvalue :=
| GNull
| GBool (b : bool)
| GInt4 (i : Z)
| GInt8 (i : Z)
| GFloat8 (r : f64)
| GText (s : string)
| GBytea (b : string)
| GJsonb (j : string)
| GDate (d : date)
| GTimestamp (d : date) (h m s us : Z)
| GOther (name data : string).

(** The server's smallest date is 4713 BC, which is year -4712. *)
Definition pg_date_in_range (d : date) : bool := Z.leb (-4712) (d_year d).

(** pg.rs:431-473 through the driver's [to_sql_checked], which refuses any
    other column type.  Simplified: of the text types only TEXT is modelled, and
    a leap second is refused (the driver turns it into the following second). *)
Definition pg_write (v : SqlVal) (col : pgtype) : outcome pgvalue :=
  match v, col with
  | VNull, _ => Ok GNull
  | VBool b, PBool => Ok (GBool b)
  | VInt i, PInt4 => Ok (GInt4 i)
  | VBigInt i, PInt8 => Ok (GInt8 i)
  | VReal r, PFloat8 => Ok (GFloat8 r)
  | VText t, PTextT => Ok (GText t)
  | VBlob b, PBytea => Ok (GBytea b)
  | VJson j, PJsonb => Ok (GJsonb j)
  | VDate d, PDate => if pg_date_in_range d then Ok (GDate d) else Err (DbError 0)
  | VTimestamp t, PTimestamp =>
      if pg_date_in_range (t_date t) && Z.ltb (t_nano t) 1000000000
      then Ok (GTimestamp (t_date t) (t_hour t) (t_min t) (t_sec t) (t_nano t / 1000))
      else Err (DbError 0)
  | VCustom ty data, POther name => if String.eqb ty name then Ok (GOther name data) else Err (Internal "postgres type mismatch")
  | _, _ => Err (DbError 0)
  end.

(** pg.rs:488-527 *)
Definition pg_decode (x : pgvalue) : SqlVal :=
  match x with
  | GNull => VNull
  | GBool b => VBool b
  | GInt4 i => VInt i
  | GInt8 i => VBigInt i
  | GFloat8 r => VReal r
  | GText s => VText s
  | GBytea b => VBlob b
  | GJsonb j => VJson j
  | GDate d => VDate d
  | GTimestamp d h m s us => VTimestamp {| t_date := d; t_hour := h; t_min := m; t_sec := s; t_nano := us * 1000 |}
  | GOther n d => VCustom n d
  end.
(** pg.rs:568-586 *)
Definition pg_read (x : pgvalue) (ty : SqlType) : outcome SqlVal :=
  let v := pg_decode x in
  if is_compatible v ty true then Ok v else Err SqlResultTypeMismatch.

End Json.
