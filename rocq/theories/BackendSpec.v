(** Values that exist, and what a column of a kind can hold.
    Specification only. *)
From Verif Require Import Base SqlVal Time.

(** The value exists in Rust: its numbers are in range, its date exists, its
    JSON text is canonical. *)
Definition value_ok (json_text : string -> option string) (v : SqlVal) : Prop :=
  match v with
  | VInt i => (- 2 ^ 31 <= i < 2 ^ 31)%Z
  | VBigInt i => (- 2 ^ 63 <= i < 2 ^ 63)%Z
  | VReal r => (0 <= r < 2 ^ 64)%Z
  | VJson j => json_text j = Some j
  | VDate d => valid_date d = true
  | VTimestamp t => valid_timestamp t = true
  | _ => True
  end.
(** The column's kind is the value's own, or the value is NULL. *)
Definition of_kind (v : SqlVal) (ty : SqlType) : Prop := v = VNull \/ sqlval_type v = Some ty.
Definition is_custom (v : SqlVal) : Prop := exists ty data, v = VCustom ty data.

(** What kind of thing SQLite stores for a kind of column. *)
Inductive class := CInteger | CReal | CText | CBlob.
Definition class_of (ty : SqlType) : option class :=
  match ty with
  | TBool | TInt | TBigInt => Some CInteger
  | TReal => Some CReal
  | TText | TJson | TDate | TTimestamp => Some CText
  | TBlob => Some CBlob
  | TCustom _ => None
  end.

(** PostgreSQL keeps microseconds, and dates from 4713 BC. *)
Definition pg_exact (v : SqlVal) : Prop :=
  match v with
  | VDate d => (-4712 <= d_year d)%Z
  | VTimestamp t => (-4712 <= d_year (t_date t))%Z /\ (t_nano t mod 1000 = 0)%Z /\ (t_nano t < 1000000000)%Z
  | _ => True
  end.
