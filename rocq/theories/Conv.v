(** Rust field types and their SQL values.
    Models butane_core/src/sqlval.rs:187-303, 366-735 and
    butane_core/src/uuid.rs. *)
From Verif Require Import Base SqlVal Time.

(** * Machine numbers *)

Inductive iwidth := I8 | I16 | I32 | I64 | U8 | U16 | U32.
Definition bits (w : iwidth) : Z :=
  match w with I8 | U8 => 8 | I16 | U16 => 16 | I32 | U32 => 32 | I64 => 64 end.
Definition lowest (w : iwidth) : Z :=
  match w with I8 | I16 | I32 | I64 => - 2 ^ (bits w - 1) | U8 | U16 | U32 => 0 end.
(** Rust's [as] between integer types: the low bits. *)
Definition wrap (w : iwidth) (z : Z) : Z := ((z - lowest w) mod 2 ^ bits w + lowest w)%Z.

(** f32 as its bit pattern. *)
Definition f32 := Z.
Definition f32_exp (b : f32) : Z := (b / 2 ^ 23) mod 256.
Definition f32_frac (b : f32) : Z := b mod 2 ^ 23.
Definition f32_is_nan (b : f32) : bool := Z.eqb (f32_exp b) 255 && negb (Z.eqb (f32_frac b) 0).
(** [f64::from(f32)]: exact.  A NaN keeps its payload and becomes quiet. *)
Definition f32_to_f64 (b : f32) : f64 :=
  let s := (b / 2 ^ 31)%Z in
  let e := f32_exp b in
  let m := f32_frac b in
  (s * 2 ^ 63 +
   (if Z.eqb e 255 then 2047 * 2 ^ 52 + (if Z.eqb m 0 then 0 else Z.lor m (2 ^ 22) * 2 ^ 29)
    else if Z.eqb e 0 then
      (if Z.eqb m 0 then 0
       else let k := Z.log2 m in (874 + k) * 2 ^ 52 + (m * 2 ^ (52 - k) - 2 ^ 52))
    else (e + 896) * 2 ^ 52 + m * 2 ^ 29))%Z.
(** Division by a power of two, to the nearest, ties to even. *)
Definition round_shift (a k : Z) : Z :=
  let q := (a / 2 ^ k)%Z in
  let r := (a mod 2 ^ k)%Z in
  if Z.ltb (2 ^ k) (2 * r) || (Z.eqb (2 ^ k) (2 * r) && Z.odd q) then (q + 1)%Z else q.
(** [f64 as f32]: the nearest f32, infinity beyond the largest. *)
Definition f64_to_f32 (b : f64) : f32 :=
  let s := (b / 2 ^ 63)%Z in
  let e := ((b / 2 ^ 52) mod 2048)%Z in
  let m := (b mod 2 ^ 52)%Z in
  (s * 2 ^ 31 +
   (if Z.eqb e 2047 then 255 * 2 ^ 23 + (if Z.eqb m 0 then 0 else Z.lor (m / 2 ^ 29) (2 ^ 22))
    else
      let sig := if Z.eqb e 0 then m else m + 2 ^ 52 in
      let x := if Z.eqb e 0 then 1 else e in
      if Z.leb 897 x then Z.min (255 * 2 ^ 23) ((x - 897) * 2 ^ 23 + round_shift sig 29)
      else round_shift sig (29 + (897 - x))))%Z.

(** * Uuid text *)

Definition hex_digit (z : N) : ascii :=
  ascii_of_N (if N.ltb z 10 then 48 + z else 87 + z)%N.
Definition hex_val (c : ascii) : option N :=
  let n := N_of_ascii c in
  if N.leb 48 n && N.leb n 57 then Some (n - 48)%N
  else if N.leb 97 n && N.leb n 102 then Some (n - 87)%N
  else if N.leb 65 n && N.leb n 70 then Some (n - 55)%N
  else None.
Fixpoint hex_bytes (s : string) : option string :=
  match s with
  | "" => Some ""
  | String a (String b r) =>
      match hex_val a, hex_val b, hex_bytes r with
      | Some x, Some y, Some t => Some (String (ascii_of_N (16 * x + y)) t)
      | _, _, _ => None
      end
  | _ => None
  end.
(** uuid-1's [parse_hyphenated]: hyphens at 8, 13, 18 and 23 of 36 characters. *)
Definition parse_hyphenated (s : string) : option string :=
  if String.eqb (substring 8 1 s) "-" && String.eqb (substring 13 1 s) "-"
     && String.eqb (substring 18 1 s) "-" && String.eqb (substring 23 1 s) "-"
  then hex_bytes (substring 0 8 s ++ substring 9 4 s ++ substring 14 4 s ++ substring 19 4 s
                  ++ substring 24 12 s)%string
  else None.
(** [Uuid::parse_str]: 32 digits, hyphenated, in braces, or with the urn prefix. *)
Definition parse_uuid (s : string) : option string :=
  match String.length s with
  | 32 => hex_bytes s
  | 36 => parse_hyphenated s
  | 38 => if String.eqb (substring 0 1 s) "{" && String.eqb (substring 37 1 s) "}"
          then parse_hyphenated (substring 1 36 s) else None
  | 45 => if String.eqb (substring 0 9 s) "urn:uuid:" then parse_hyphenated (substring 9 36 s) else None
  | _ => None
  end.

(** * Field types *)

(** The types with a [FieldType] implementation that do not depend on a model:
    sqlval.rs:412-423, 425-526, 605-676, 695-735; uuid.rs; autopk.rs:44-112.
    [HashMap] and [BTreeMap] are below; [ForeignKey] is in Fkey.v. *)
Inductive rty :=
| RBool
| RInt (w : iwidth)
| RF64
| RF32
| RString
| RBytes
| RJson
| RNaiveDateTime
| RDateTimeUtc
| RNaiveDate
| RUuid
| ROption (t : rty)
| RAutoPk (t : rty).

(** The values of each type.  A [Vec<u8>] and the 16 bytes of a uuid are byte
    strings, a JSON value its canonical text. *)
Fixpoint rust (t : rty) : Type :=
  match t with
  | RBool => bool
  | RInt _ => Z
  | RF64 => f64
  | RF32 => f32
  | RString | RBytes | RJson | RUuid => string
  | RNaiveDateTime | RDateTimeUtc => timestamp
  | RNaiveDate => date
  | ROption t | RAutoPk t => option (rust t)
  end.

(** Which integer types become [Int] and which [BigInt], sqlval.rs:412-421. *)
Definition big (w : iwidth) : bool := match w with I64 | U32 => true | _ => false end.

(** FieldType::SQLTYPE *)
Fixpoint rsqltype (t : rty) : SqlType :=
  match t with
  | RBool => TBool
  | RInt w => if big w then TBigInt else TInt
  | RF64 | RF32 => TReal
  | RString => TText
  | RBytes | RUuid => TBlob
  | RJson => TJson
  | RNaiveDateTime | RDateTimeUtc => TTimestamp
  | RNaiveDate => TDate
  | ROption t | RAutoPk t => rsqltype t
  end.

(** ToSql::to_sql; [to_sql_ref] and [into_sql] build the same value.
    An uninitialised [AutoPk] panics, autopk.rs:36-38, 71-81. *)
Fixpoint to_sql (t : rty) : rust t -> outcome SqlVal :=
  match t with
  | RBool => fun b => Ok (VBool b)
  | RInt w => fun z => Ok (if big w then VBigInt z else VInt z)
  | RF64 => fun r => Ok (VReal r)
  | RF32 => fun r => Ok (VReal (f32_to_f64 r))
  | RString => fun s => Ok (VText s)
  | RBytes => fun s => Ok (VBlob s)
  | RJson => fun j => Ok (VJson j)
  | RNaiveDateTime => fun d => Ok (VTimestamp d)
  | RDateTimeUtc => fun d => Ok (VTimestamp d)
  | RNaiveDate => fun d => Ok (VDate d)
  | RUuid => fun u => Ok (VBlob u)
  | ROption t => fun o => match o with None => Ok VNull | Some x => to_sql t x end
  | RAutoPk t => fun o => match o with None => Panic | Some x => to_sql t x end
  end.

(** FromSql::from_sql and from_sql_ref. *)
Fixpoint from_sql (t : rty) (v : SqlVal) : outcome (rust t) :=
  match t return outcome (rust t) with
  | RBool => match v with VBool b => Ok b | _ => Err CannotConvertSqlVal end
  | RInt w => match v with
              | VInt z => if big w then Err CannotConvertSqlVal else Ok (wrap w z)
              | VBigInt z => if big w then Ok (wrap w z) else Err CannotConvertSqlVal
              | _ => Err CannotConvertSqlVal
              end
  | RF64 => match v with VReal r => Ok r | _ => Err CannotConvertSqlVal end
  | RF32 => match v with VReal r => Ok (f64_to_f32 r) | _ => Err CannotConvertSqlVal end
  | RString => match v with VText s => Ok s | _ => Err CannotConvertSqlVal end
  | RBytes => match v with VBlob s => Ok s | _ => Err CannotConvertSqlVal end
  | RJson => match v with VJson j => Ok j | _ => Err CannotConvertSqlVal end
  | RNaiveDateTime => match v with VTimestamp d => Ok d | _ => Err CannotConvertSqlVal end
  | RDateTimeUtc => match v with VTimestamp d => Ok d | _ => Err CannotConvertSqlVal end
  | RNaiveDate => match v with VDate d => Ok d | _ => Err CannotConvertSqlVal end
  | RUuid => match v with
             | VBlob b => if Nat.eqb (String.length b) 16 then Ok b else Err CannotConvertSqlVal
             | VText s => match parse_uuid s with Some u => Ok u | None => Err CannotConvertSqlVal end
             | _ => Err CannotConvertSqlVal
             end
  | ROption t => match v with VNull => Ok None | _ => do x <- from_sql t v ; Ok (Some x) end
  | RAutoPk t => do x <- from_sql t v ; Ok (Some x)
  end.

(** * Maps stored as JSON, sqlval.rs:528-603 *)

Section Maps.
  Context {T : Type}.
  (** serde on the element type, and JSON objects as text: writing one and
      recognising one with its members. *)
  Variable ser : T -> string.
  Variable de : string -> option T.
  Variable object : list (string * string) -> string.
  Variable members : string -> option (list (string * string)).

  Definition map_to_sql (m : list (string * T)) : SqlVal :=
    VJson (object (map (fun kv => (fst kv, ser (snd kv))) m)).
  (** [T::deserialize(v).unwrap()] for each member. *)
  Fixpoint map_members (l : list (string * string)) : outcome (list (string * T)) :=
    match l with
    | [] => Ok []
    | (k, j) :: l' =>
        match de j with
        | None => Panic
        | Some x => do r <- map_members l' ; Ok ((k, x) :: r)
        end
    end.
  Definition map_from_sql (v : SqlVal) : outcome (list (string * T)) :=
    match v with
    | VJson j => match members j with Some l => map_members l | None => Err CannotConvertSqlVal end
    | _ => Err CannotConvertSqlVal
    end.
End Maps.
