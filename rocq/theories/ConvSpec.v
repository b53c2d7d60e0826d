(** Which Rust values exist, and which SQL values fit a Rust type.
    Specification only. *)
From Verif Require Import Base SqlVal Time Conv.

(** The integers of each type. *)
Definition int_in (w : iwidth) (z : Z) : Prop :=
  match w with
  | I8 => -128 <= z <= 127
  | I16 => -32768 <= z <= 32767
  | I32 => -2147483648 <= z <= 2147483647
  | I64 => -9223372036854775808 <= z <= 9223372036854775807
  | U8 => 0 <= z <= 255
  | U16 => 0 <= z <= 65535
  | U32 => 0 <= z <= 4294967295
  end%Z.
Definition int_values (w : iwidth) : Z :=
  match w with I8 | U8 => 256 | I16 | U16 => 65536 | I32 | U32 => 4294967296 | I64 => 18446744073709551616 end.
(** The integer fits the column of its kind: 32 bits or 64. *)
Definition fits_column (v : SqlVal) : Prop :=
  match v with VInt z => int_in I32 z | VBigInt z => int_in I64 z | _ => True end.

(** The numbers that f64 and f32 stand for, without the sign, in units of 2^-1074, the
    smallest f64. *)
Definition f64_units (b : f64) : Z :=
  let e := ((b / 2 ^ 52) mod 2048)%Z in
  let m := (b mod 2 ^ 52)%Z in
  if Z.eqb e 0 then m else ((m + 2 ^ 52) * 2 ^ (e - 1))%Z.
Definition f32_units (b : f32) : Z :=
  let e := ((b / 2 ^ 23) mod 256)%Z in
  let m := (b mod 2 ^ 23)%Z in
  ((if Z.eqb e 0 then m else (m + 2 ^ 23) * 2 ^ (e - 1)) * 2 ^ 925)%Z.
(** Infinity and the numbers below it are finite, above it are the NaNs. *)
Definition f64_top : Z := (2047 * 2 ^ 52)%Z.
Definition f32_top : Z := (255 * 2 ^ 23)%Z.

(** A value of the type that is not a NaN of the narrow float type and is not
    an unset automatic key. *)
Fixpoint rust_ok (t : rty) : rust t -> Prop :=
  match t with
  | RInt w => fun z => int_in w z
  | RF64 => fun r => (0 <= r < 2 ^ 64)%Z
  | RF32 => fun r => (0 <= r < 2 ^ 32)%Z /\ f32_is_nan r = false
  | RUuid => fun u => String.length u = 16
  | ROption t => fun o => match o with None => True | Some x => rust_ok t x end
  | RAutoPk t => fun o => match o with None => False | Some x => rust_ok t x end
  | _ => fun _ => True
  end.

Definition is_option (t : rty) : bool := match t with ROption _ => true | _ => false end.
(** No option directly inside an option. *)
Fixpoint single_option (t : rty) : Prop :=
  match t with
  | ROption t => is_option t = false /\ single_option t
  | RAutoPk t => is_option t = false /\ single_option t
  | _ => True
  end.
Fixpoint is_uuid (t : rty) : bool :=
  match t with RUuid => true | ROption t | RAutoPk t => is_uuid t | _ => false end.

(** The SQL value [v] denotes a value of the type: an integer in its range, a
    real number the type can hold, and not the text of a uuid. *)
Fixpoint fits_type (t : rty) (v : SqlVal) : Prop :=
  match t with
  | RInt w => match v with VInt z | VBigInt z => int_in w z | _ => True end
  | RF32 => match v with
            | VReal r => exists x, (0 <= x < 2 ^ 32)%Z /\ f32_is_nan x = false /\ r = f32_to_f64 x
            | _ => True
            end
  | RUuid => match v with VText _ => False | _ => True end
  | ROption t | RAutoPk t => fits_type t v
  | _ => True
  end.

(** The usual text of a uuid. *)
Definition hex_of (c : ascii) : string :=
  let n := N_of_ascii c in String (hex_digit (n / 16)) (String (hex_digit (n mod 16)) "").
Fixpoint hex_text (s : string) : string :=
  match s with "" => "" | String c r => (hex_of c ++ hex_text r)%string end.
Definition uuid_text (u : string) : string :=
  (hex_text (substring 0 4 u) ++ "-" ++ hex_text (substring 4 2 u) ++ "-" ++ hex_text (substring 6 2 u)
   ++ "-" ++ hex_text (substring 8 2 u) ++ "-" ++ hex_text (substring 10 6 u))%string.
