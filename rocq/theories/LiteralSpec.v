(** What a literal in an SQL statement denotes.  Specification only. *)
From Verif Require Import Base SqlVal Sql QuerySpec Time.

(** The bytes written by pairs of hexadecimal digits. *)
Definition hex_val (c : ascii) : option Z :=
  let n := Z.of_N (N_of_ascii c) in
  if Z.leb 48 n && Z.leb n 57 then Some (n - 48)%Z
  else if Z.leb 65 n && Z.leb n 70 then Some (n - 55)%Z
  else if Z.leb 97 n && Z.leb n 102 then Some (n - 87)%Z else None.
Fixpoint hex_value (s : string) : option string :=
  match s with
  | "" => Some ""%string
  | String a (String b r) =>
      match hex_val a, hex_val b, hex_value r with
      | Some x, Some y, Some t => Some (String (ascii_of_N (Z.to_N (16 * x + y))) t)
      | _, _, _ => None
      end
  | _ => None
  end.

(** [read neg n]: the number the digits [n] with or without a minus sign are
    nearest to. *)
Section Denotes.
Variable read : bool -> string -> f64.

(** The tokens are a literal for the value, in a column of the value's type. *)
Inductive denotes : list tok -> SqlVal -> Prop :=
| den_null w : upper w = "NULL"%string -> denotes [TWord w] VNull
| den_true w : upper w = "TRUE"%string -> denotes [TWord w] (VBool true)
| den_false w : upper w = "FALSE"%string -> denotes [TWord w] (VBool false)
| den_int n z : number_of n = Some z -> denotes [TNumber n] (VInt z)
| den_neg_int n z : number_of n = Some z -> denotes [TMinus; TNumber n] (VInt (- z))
| den_bigint ts z : denotes ts (VInt z) -> denotes ts (VBigInt z)
| den_real n : denotes [TNumber n] (VReal (read false n))
| den_neg_real n : denotes [TMinus; TNumber n] (VReal (read true n))
| den_text s : denotes [TStr s] (VText s)
| den_blob w h b : upper w = "X"%string -> hex_value h = Some b -> denotes [TWord w; TStr h] (VBlob b)
| den_json j : denotes [TStr j] (VJson j)
| den_date s d : parse_date s = Some d -> denotes [TStr s] (VDate d)
| den_timestamp s c t : c = " "%char \/ c = "T"%char -> parse_timestamp c s = Some t -> denotes [TStr s] (VTimestamp t).

(** Whatever follows a literal in a statement: nothing, white space or punctuation. *)
Definition after_literal (s : string) : Prop :=
  match s with
  | "" => True
  | String c _ => (c = " " \/ c = "," \/ c = ")" \/ c = "(" \/ c = ";" \/ c = "010")%char
  end.

(** The text is read as one literal, for the value, and what follows is read as
    if it stood alone. *)
Definition literal_for (s : string) (v : SqlVal) : Prop :=
  exists ts, denotes ts v /\ forall rest, after_literal rest -> lex (s ++ rest) = ts ++ lex rest.

Definition f64_finite (r : f64) : bool := Z.ltb (f64_mag r) 9218868437227405312.
(** Rust's Display of a finite f64: digits with at most a point among them, the
    shortest that reads back as the same number. *)
Definition numeral (n : string) : Prop :=
  exists c r, n = String c r /\ is_digit c = true /\ all_chars (fun c : ascii => is_digit c || Ascii.eqb c ".") r = true.
Definition display_ok (show : f64 -> string) : Prop :=
  (forall r, f64_finite r = true -> exists neg n, show r = ((if neg : bool then "-" else "") ++ n)%string /\ numeral n /\ read neg n = r)
  /\ (forall r, f64_is_nan r = true -> show r = "NaN"%string)
  /\ (forall r, f64_mag r = 9218868437227405312%Z -> show r = "inf"%string \/ show r = "-inf"%string).
End Denotes.

(** Values whose literal is read back; the others are the exceptions C23 has. *)
Definition readable_literal (v : SqlVal) : Prop :=
  match v with
  | VText s => all_chars (fun c : ascii => negb (Ascii.eqb c "'")) s = true
  | VReal r => f64_finite r = true
  | VTimestamp t => valid_timestamp t = true
  | VJson _ | VDate _ | VCustom _ _ => False
  | _ => True
  end.
