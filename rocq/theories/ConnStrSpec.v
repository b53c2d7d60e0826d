(** Specification of connection strings: what a scheme is, what a key-value string
    is, and which parameters a string carries. *)
From Verif Require Import Base ConnSpec.
Local Open Scope string_scope.

(** * URLs *)
Definition letters : string := "abcdefghijklmnopqrstuvwxyzABCDEFGHIJKLMNOPQRSTUVWXYZ".
Definition scheme_letters : string := letters ++ "0123456789+-.".
Fixpoint made_of (alphabet s : string) : Prop :=
  match s with
  | EmptyString => True
  | String c r => (exists a b, alphabet = a ++ String c b) /\ made_of alphabet r
  end.

(** The text names the scheme: it starts with a letter, then letters, digits and
    [+-.], then a colon.  Case is not significant, and the URL standard ignores
    blanks around the text and tabs and line ends in it ([url_input]). *)
Definition has_scheme (s scheme rest : string) : Prop :=
  exists c r, url_input s = String c r ++ ":" ++ rest /\
    made_of letters (String c "") /\ made_of scheme_letters r /\ lower (String c r) = scheme.

(** * Key-value strings *)
Inductive blank : string -> Prop :=
| blank_none : blank ""
| blank_more c r : In c space_chars -> blank r -> blank (c ++ r).

(** The text contains one of PostgreSQL's keys followed by an equals sign. *)
Definition names_key (s : string) : Prop :=
  exists pre key gap post, s = pre ++ key ++ gap ++ "=" ++ post /\
    In key ["hostaddr"; "host"; "dbname"; "user"; "port"] /\ blank gap.
Definition has_slashes (s : string) : Prop := exists a b, s = a ++ "://" ++ b.

(** * Parameters of a key-value string

    PostgreSQL's syntax (libpq, "Keyword/Value Connection Strings"): keys and
    values separated by blanks, a value in single quotes or without blanks, a
    backslash before a character standing for itself. *)
Inductive kvstate :=
| Between                     (* before a key *)
| InKey (k : string)
| AfterKey (k : string)       (* blanks before the equals sign *)
| AfterEq (k : string)        (* blanks before the value *)
| InValue (k v : string)
| Escaped (k v : string)
| InQuotes (k v : string)
| EscapedInQuotes (k v : string).

Definition ascii_blank (c : ascii) : bool := is_space (String c "").
Definition snoc (s : string) (c : ascii) : string := s ++ String c "".

Fixpoint pairs_from (st : kvstate) (s : string) : option (list (string * string)) :=
  match s with
  | EmptyString =>
      match st with
      | Between => Some []
      | InValue k v => Some [(k, v)]
      | _ => None
      end
  | String c r =>
      match st with
      | Between => if ascii_blank c then pairs_from Between r
                   else if Ascii.eqb c "=" then None else pairs_from (InKey (String c "")) r
      | InKey k => if ascii_blank c then pairs_from (AfterKey k) r
                   else if Ascii.eqb c "=" then pairs_from (AfterEq k) r else pairs_from (InKey (snoc k c)) r
      | AfterKey k => if ascii_blank c then pairs_from (AfterKey k) r
                      else if Ascii.eqb c "=" then pairs_from (AfterEq k) r else None
      | AfterEq k => if ascii_blank c then pairs_from (AfterEq k) r
                     else if Ascii.eqb c "'" then pairs_from (InQuotes k "") r
                     else if Ascii.eqb c backslash then pairs_from (Escaped k "") r
                     else pairs_from (InValue k (String c "")) r
      | InValue k v => if ascii_blank c then option_map (cons (k, v)) (pairs_from Between r)
                       else if Ascii.eqb c backslash then pairs_from (Escaped k v) r
                       else pairs_from (InValue k (snoc v c)) r
      | Escaped k v => pairs_from (InValue k (snoc v c)) r
      | InQuotes k v => if Ascii.eqb c "'" then option_map (cons (k, v)) (pairs_from Between r)
                        else if Ascii.eqb c backslash then pairs_from (EscapedInQuotes k v) r
                        else pairs_from (InQuotes k (snoc v c)) r
      | EscapedInQuotes k v => pairs_from (InQuotes k (snoc v c)) r
      end
  end.
Definition pairs (s : string) : option (list (string * string)) := pairs_from Between s.

(** * Parameters of a URL

    The query is what follows the first question mark, up to a hash sign; its
    parameters are separated by ampersands, name and value by an equals sign.
    Empty pieces are ignored; percent-encoding is left as it is. *)
Fixpoint cut (c : ascii) (s : string) : string * option string :=
  match s with
  | EmptyString => ("", None)
  | String d r => if Ascii.eqb c d then ("", Some r)
                  else let (a, b) := cut c r in (String d a, b)
  end.
Definition query_of (url : string) : string :=
  match snd (cut "?" (fst (cut "#" url))) with Some q => q | None => "" end.
Fixpoint split_on (c : ascii) (s : string) : list string :=
  match s with
  | EmptyString => [""]
  | String d r => if Ascii.eqb c d then "" :: split_on c r
                  else match split_on c r with
                       | [] => [String d ""]
                       | x :: l => String d x :: l
                       end
  end.
Definition parameters (url : string) : list (string * string) :=
  map (fun p => (fst (cut "=" p), match snd (cut "=" p) with Some v => v | None => "" end))
      (filter (fun p => negb (String.eqb p "")) (split_on "&" (query_of url))).

(** A text none of whose characters is in the list. *)
Fixpoint free_of (chars s : string) : Prop :=
  match s with
  | EmptyString => True
  | String c r => (forall a b, chars <> a ++ String c b) /\ free_of chars r
  end.
(** A key or value that needs no quoting in a key-value string. *)
Definition plain_key (s : string) : Prop :=
  s <> "" /\ free_of "=" s /\ forall a c b, s = a ++ String c b -> ascii_blank c = false.
Definition plain_value (s : string) : Prop :=
  s <> "" /\ free_of (String backslash "'") s /\ forall a c b, s = a ++ String c b -> ascii_blank c = false.
