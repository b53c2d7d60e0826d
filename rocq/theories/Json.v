(** JSON text, as serde_json 1.0.145 (the version in /repo/Cargo.lock, without the
    features [preserve_order], [arbitrary_precision] and [float_roundtrip]) writes and
    reads it for butane_core/src/migrations/fsmigrations.rs:79-83, 138, 183, 248-260,
    287-302, 361-386, butane_core/src/migrations/memmigrations.rs:120-122 and
    butane_cli/src/lib.rs:38-56, 373.

    Simplifications: a text is a string of bytes and is not checked to be UTF-8 (the
    code writes Rust strings); the text is turned into a value first and the value into
    the Rust type afterwards, while the code does both at once; members that no field
    asks for count towards the nesting limit; a [\u] escape of a surrogate is an error
    (nothing the code writes contains one). *)
From Verif Require Import Base SqlVal Query.
From Verif Require ConnSpec.
Open Scope Z_scope.

(** A value.  Members of an object keep their order and may repeat. *)
Inductive json :=
| JNull
| JBool (b : bool)
| JInt (z : Z)
| JReal (r : f64)
| JStr (s : string)
| JArr (l : list json)
| JObj (l : list (string * json)).

(** * Arithmetic on f64 that reading a number uses

    Numbers here are not negative: serde_json reads the sign separately. *)

Definition f64_inf : f64 := 9218868437227405312.
Definition f64_finite (b : f64) : bool := Z.ltb (f64_mag b) f64_inf.
(** A finite number as [m * 2^e]. *)
Definition f64_parts (b : f64) : Z * Z :=
  let ex := b / 2 ^ 52 in
  let fr := b mod 2 ^ 52 in
  if Z.eqb ex 0 then (fr, -1074) else (fr + 2 ^ 52, ex - 1075).
(** [n / d] as an integer, to the nearest, ties to even. *)
Definition div_even (n d : Z) : Z :=
  let q := n / d in
  let r := n mod d in
  if Z.ltb d (2 * r) || (Z.eqb d (2 * r) && Z.odd q) then q + 1 else q.
(** The numerator and denominator of [(n / d) / 2^e]. *)
Definition scaled (n d e : Z) : Z * Z :=
  if Z.leb 0 e then (n, d * 2 ^ e) else (n * 2 ^ (- e), d).
(** The exponent of the last bit of [n / d] as f64. *)
Definition ulp_exp (n d : Z) : Z :=
  let e := Z.log2 n - Z.log2 d - 52 in
  let '(a, b) := scaled n d e in
  Z.max (-1074) (if Z.ltb (a / b) (2 ^ 52) then e - 1 else e).
(** [n / d] as f64: the nearest, infinity beyond the largest. *)
Definition f64_ratio (n d : Z) : f64 :=
  if Z.eqb n 0 then 0
  else
    let e := ulp_exp n d in
    let '(a, b) := scaled n d e in
    Z.min f64_inf ((e + 1074) * 2 ^ 52 + div_even a b).
(** [2^e], above and below the line. *)
Definition pow2_up (e : Z) : Z := if Z.leb 0 e then 2 ^ e else 1.
Definition pow2_down (e : Z) : Z := if Z.leb 0 e then 1 else 2 ^ (- e).
Definition f64_mul (a b : f64) : f64 :=
  let '(m, e) := f64_parts a in
  let '(n, k) := f64_parts b in
  f64_ratio (m * n * pow2_up (e + k)) (pow2_down (e + k)).
Definition f64_div (a b : f64) : f64 :=
  let '(m, e) := f64_parts a in
  let '(n, k) := f64_parts b in
  f64_ratio (m * pow2_up (e - k)) (n * pow2_down (e - k)).
(** [significand as f64] *)
Definition f64_of_int (z : Z) : f64 := f64_ratio z 1.
(** [POW10], de.rs of serde_json: the constants 1e0 to 1e308. *)
Definition pow10 (k : Z) : f64 := f64_ratio (10 ^ k) 1.

(** [f64_from_parts], without the sign.  [None] is [NumberOutOfRange].  The loop runs
    at most three times: two divisions by 1e308 take any u64 to zero. *)
Fixpoint scale_loop (fuel : nat) (f : f64) (e : Z) : option f64 :=
  match fuel with
  | O => None
  | S n =>
      if Z.leb (Z.abs e) 308 then
        if Z.leb 0 e then
          let x := f64_mul f (pow10 e) in
          if Z.eqb x f64_inf then None else Some x
        else Some (f64_div f (pow10 (- e)))
      else if Z.eqb f 0 then Some 0
      else if Z.leb 0 e then None
      else scale_loop n (f64_div f (pow10 308)) (e + 308)
  end.
Definition f64_signed (pos : bool) (f : f64) : f64 := if pos then f else f + 2 ^ 63.
Definition from_parts (pos : bool) (sig e : Z) : option json :=
  option_map (fun f => JReal (f64_signed pos f)) (scale_loop 4 (f64_of_int sig) e).

(** * Reading a number *)

Definition digit (c : ascii) : option Z :=
  let n := Z.of_N (N_of_ascii c) in
  if Z.leb 48 n && Z.leb n 57 then Some (n - 48) else None.
Definition u64_max : Z := 18446744073709551615.

(** Digits that are only counted. *)
Fixpoint count_digits (k : Z) (s : string) : Z * string :=
  match s with
  | String c r => match digit c with Some _ => count_digits (k + 1) r | None => (k, s) end
  | EmptyString => (k, s)
  end.
(** Digits accumulated as long as they fit 64 bits: the number, how many were taken,
    whether a digit that no longer fits stopped it, and the rest. *)
Fixpoint take_digits (acc k : Z) (s : string) : Z * Z * bool * string :=
  match s with
  | String c r =>
      match digit c with
      | Some x => if Z.ltb u64_max (acc * 10 + x) then (acc, k, true, s)
                  else take_digits (acc * 10 + x) (k + 1) r
      | None => (acc, k, false, s)
      end
  | EmptyString => (acc, k, false, s)
  end.
(** Any number of digits. *)
Fixpoint all_digits (acc : Z) (s : string) : Z * string :=
  match s with
  | String c r => match digit c with Some x => all_digits (acc * 10 + x) r | None => (acc, s) end
  | EmptyString => (acc, s)
  end.
Definition with_rest (o : option json) (s : string) : option (json * string) :=
  option_map (fun v => (v, s)) o.

Definition is_exp (c : ascii) : bool := Ascii.eqb c "e" || Ascii.eqb c "E".
Definition from_exponent (pos : bool) (sig start : Z) (neg : bool) (s : string) : option (json * string) :=
  match s with
  | String c r =>
      match digit c with
      | None => None
      | Some x => let '(e, rest) := all_digits x r in
                  with_rest (from_parts pos sig (if neg then start - e else start + e)) rest
      end
  | EmptyString => None
  end.
(** [parse_exponent], after the letter.  An exponent that does not fit 32 bits gives
    zero or an error, as [scale_loop] does for it. *)
Definition read_exponent (pos : bool) (sig start : Z) (s : string) : option (json * string) :=
  match s with
  | String c r => if Ascii.eqb c "+" then from_exponent pos sig start false r
                  else if Ascii.eqb c "-" then from_exponent pos sig start true r
                  else from_exponent pos sig start false s
  | EmptyString => None
  end.
Definition after_digits (pos : bool) (sig e : Z) (s : string) : option (json * string) :=
  match s with
  | String c r => if is_exp c then read_exponent pos sig e r else with_rest (from_parts pos sig e) s
  | EmptyString => with_rest (from_parts pos sig e) s
  end.
(** [parse_decimal] and [parse_decimal_overflow], after the point. *)
Definition read_decimal (pos : bool) (sig before : Z) (s : string) : option (json * string) :=
  let '(sig', k, over, r) := take_digits sig 0 s in
  if over then let '(_, r') := count_digits 0 r in after_digits pos sig' (before - k) r'
  else if Z.eqb k 0 then None
  else after_digits pos sig' (before - k) r.
(** The end of [parse_number]: an integer. *)
Definition integer (pos : bool) (sig : Z) : json :=
  if pos then JInt sig
  else if Z.eqb sig 0 || Z.ltb (2 ^ 63) sig then JReal (f64_signed false (f64_of_int sig))
  else JInt (- sig).
(** [parse_number] *)
Definition read_rest (pos : bool) (sig : Z) (s : string) : option (json * string) :=
  match s with
  | String c r => if Ascii.eqb c "." then read_decimal pos sig 0 r
                  else if is_exp c then read_exponent pos sig 0 r
                  else Some (integer pos sig, s)
  | EmptyString => Some (integer pos sig, s)
  end.
(** [parse_long_integer] *)
Definition read_long (pos : bool) (sig : Z) (s : string) : option (json * string) :=
  let '(k, r) := count_digits 0 s in
  match r with
  | String c r' => if Ascii.eqb c "." then read_decimal pos sig k r' else after_digits pos sig k r
  | EmptyString => after_digits pos sig k r
  end.
(** [parse_integer] *)
Definition starts_digit (s : string) : bool :=
  match s with String c _ => match digit c with Some _ => true | None => false end | EmptyString => false end.
Definition read_unsigned (pos : bool) (s : string) : option (json * string) :=
  match s with
  | String c r =>
      match digit c with
      | None => None
      | Some x =>
          if Z.eqb x 0 then (if starts_digit r then None else read_rest pos 0 r)
          else let '(sig, _, over, rest) := take_digits x 0 r in
               if over then read_long pos sig rest else read_rest pos sig rest
      end
  | EmptyString => None
  end.
Definition read_number (s : string) : option (json * string) :=
  match s with
  | String c r => if Ascii.eqb c "-" then read_unsigned false r else read_unsigned true s
  | EmptyString => None
  end.

(** * Reading a value *)

Section Parts.
  Variable value : string -> option (json * string).

  (** The elements of an array after the first one's start; [SeqAccess]. *)
  Fixpoint read_elements (fuel : nat) (s : string) : option (list json * string) :=
    match fuel with
    | O => None
    | S n =>
        match value s with
        | None => None
        | Some (v, r) =>
            match ConnSpec.skip_ws r with
            | String c r' =>
                if Ascii.eqb c "," then
                  match read_elements n r' with Some (l, q) => Some (v :: l, q) | None => None end
                else if Ascii.eqb c "]" then Some ([v], r')
                else None
            | EmptyString => None
            end
        end
    end.
  (** The members of an object; [MapAccess]. *)
  Fixpoint read_members (fuel : nat) (s : string) : option (list (string * json) * string) :=
    match fuel with
    | O => None
    | S n =>
        match ConnSpec.expect_char ConnSpec.dquote s with
        | None => None
        | Some s1 =>
            match ConnSpec.read_string s1 with
            | None => None
            | Some (k, s2) =>
                match ConnSpec.expect_char ":" s2 with
                | None => None
                | Some s3 =>
                    match value s3 with
                    | None => None
                    | Some (v, r) =>
                        match ConnSpec.skip_ws r with
                        | String c r' =>
                            if Ascii.eqb c "," then
                              match read_members n r' with Some (l, q) => Some ((k, v) :: l, q) | None => None end
                            else if Ascii.eqb c "}" then Some ([(k, v)], r')
                            else None
                        | EmptyString => None
                        end
                    end
                end
            end
        end
    end.
End Parts.

(** [depth] is [remaining_depth]: opening an array or object takes one, and reaching
    zero is [RecursionLimitExceeded]. *)
Fixpoint read_value (depth : nat) (s : string) : option (json * string) :=
  match ConnSpec.skip_ws s with
  | EmptyString => None
  | String c r =>
      if Ascii.eqb c "n" then option_map (fun q => (JNull, q)) (ConnSpec.strip "ull" r)
      else if Ascii.eqb c "t" then option_map (fun q => (JBool true, q)) (ConnSpec.strip "rue" r)
      else if Ascii.eqb c "f" then option_map (fun q => (JBool false, q)) (ConnSpec.strip "alse" r)
      else if Ascii.eqb c ConnSpec.dquote then
        option_map (fun p => (JStr (fst p), snd p)) (ConnSpec.read_string r)
      else if Ascii.eqb c "[" then
        match depth with
        | S (S _ as d) =>
            match ConnSpec.expect_char "]" r with
            | Some q => Some (JArr [], q)
            | None => option_map (fun p => (JArr (fst p), snd p))
                        (read_elements (read_value d) (String.length r) r)
            end
        | _ => None
        end
      else if Ascii.eqb c "{" then
        match depth with
        | S (S _ as d) =>
            match ConnSpec.expect_char "}" r with
            | Some q => Some (JObj [], q)
            | None => option_map (fun p => (JObj (fst p), snd p))
                        (read_members (read_value d) (String.length r) r)
            end
        | _ => None
        end
      else read_number (String c r)
  end.

(** [from_str] and [from_reader]: one value and nothing but white space after it. *)
Definition from_text (s : string) : outcome json :=
  match read_value 128 s with
  | Some (v, r) => match ConnSpec.skip_ws r with EmptyString => Ok v | _ => Err SerdeJson end
  | None => Err SerdeJson
  end.

(** * Writing *)

Section Write.
  (** What the crate ryu writes for a finite f64. *)
  Variable show : f64 -> string.

  (** The formatter: [None] is [CompactFormatter], [Some n] is [PrettyFormatter] at
      indentation [n]. *)
  Fixpoint indent (n : nat) : string :=
    match n with O => "" | S k => ("  " ++ indent k)%string end.
  Definition gap (lay : option nat) : string :=
    match lay with None => "" | Some n => (ConnSpec.newline ++ indent n)%string end.
  Definition colon (lay : option nat) : string :=
    match lay with None => ":" | Some _ => ": " end.
  Definition inner (lay : option nat) : option nat := option_map S lay.

  Fixpoint write (lay : option nat) (v : json) : string :=
    match v with
    | JNull => "null"
    | JBool true => "true"
    | JBool false => "false"
    | JInt z => dec z
    | JReal r => if f64_finite r then show r else "null"
    | JStr s => ConnSpec.json_string s
    | JArr [] => "[]"
    | JArr l =>
        "[" ++ (fix elems (l : list json) : string :=
                  match l with
                  | [] => ""
                  | [x] => gap (inner lay) ++ write (inner lay) x
                  | x :: r => gap (inner lay) ++ write (inner lay) x ++ "," ++ elems r
                  end) l ++ gap lay ++ "]"
    | JObj [] => "{}"
    | JObj l =>
        "{" ++ (fix mems (l : list (string * json)) : string :=
                  match l with
                  | [] => ""
                  | [(k, x)] => gap (inner lay) ++ ConnSpec.json_string k ++ colon lay ++ write (inner lay) x
                  | (k, x) :: r => gap (inner lay) ++ ConnSpec.json_string k ++ colon lay
                                   ++ write (inner lay) x ++ "," ++ mems r
                  end) l ++ gap lay ++ "}"
    end%string.

  (** [serde_json::to_string] and [serde_json::to_string_pretty] *)
  Definition to_string (v : json) : string := write None v.
  Definition to_string_pretty (v : json) : string := write (Some O) v.
End Write.
