(** Default values and their SQL text.
    Models butane_core/src/db/helper.rs:225-253, 302-321. *)
From Verif Require Import Base SqlVal Adb Query Time.

(** 1970-01-01T00:00:00 and 0001-01-01 *)
Definition epoch : timestamp :=
  {| t_date := {| d_year := 1970; d_month := 1; d_day := 1 |}; t_hour := 0; t_min := 0; t_sec := 0; t_nano := 0 |}.
Definition day_one : date := {| d_year := 1; d_month := 1; d_day := 1 |}.

(** helper.rs:225-253 *)
Definition column_default (c : AColumn) : outcome SqlVal :=
  match c_default c with
  | Some v => Ok v
  | None =>
      if c_nullable c then Ok VNull
      else do t <- typeid c;
        match t with
        | TyId TBool => Ok (VBool false)
        | TyId TInt => Ok (VInt 0)
        | TyId TBigInt => Ok (VInt 0)
        | TyId TReal => Ok (VReal 0%Z)
        | TyId TText => Ok (VText "")
        | TyId TBlob => Ok (VBlob "")
        | TyId TJson => Ok (VJson "null")
        | TyId TTimestamp => Ok (VTimestamp epoch)
        | TyId TDate => Ok (VDate day_one)
        | TyId (TCustom _) => Err NoCustomDefault
        | TyName _ => Err NoCustomDefault
        end
  end.

(** hex::encode_upper *)
Definition hex_digit (n : Z) : ascii := ascii_of_N (Z.to_N (if Z.ltb n 10 then 48 + n else 55 + n)).
Fixpoint hex_upper (b : string) : string :=
  match b with
  | "" => ""
  | String c r => let n := Z.of_N (N_of_ascii c) in
                  String (hex_digit (n / 16)) (String (hex_digit (n mod 16)) (hex_upper r))
  end.

(** helper.rs:302-321.  [show] is Rust's Display for f64.  The format string of
    a date contains quotes itself (line 315). *)
Definition sql_literal_value (show : f64 -> string) (v : SqlVal) : outcome string :=
  match v with
  | VNull => Ok "NULL"%string
  | VBool b => Ok (if b then "true" else "false")%string
  | VInt i => Ok (dec i)
  | VBigInt i => Ok (dec i)
  | VReal r => Ok (show r)
  | VText s => Ok ("'" ++ s ++ "'")%string
  | VBlob b => Ok ("x'" ++ hex_upper b ++ "'")%string
  | VJson j => Ok j
  | VDate d => Ok ("'" ++ ("'" ++ format_date d ++ "'") ++ "'")%string
  | VTimestamp t => Ok ("'" ++ format_timestamp "T" t ++ "'")%string
  | VCustom _ _ => Err LiteralForCustomUnsupported
  end.
