(** What SQL text means: a lexer, a precedence parser and an evaluator for the
    part of SQL that butane's statements are written in.

    This file is specification.  Nothing in it is derived from butane's source:
    it fixes how a database engine reads a statement (bare and quoted names,
    reserved words, parameters, OR below AND below NOT below comparisons) and
    what the statement does.  The engine's own notions - how two values compare,
    which further words are reserved - are parameters. *)
From Coq Require Import DecimalString.
From Verif Require Import Base SqlVal.

(** * Tokens *)

Inductive cmpop := CEq | CNe | CLt | CGt | CLe | CGe.

Inductive tok :=
| TWord (w : string)        (* bare word: a keyword or a name *)
| TQuoted (w : string)      (* a name in double quotes *)
| TNumber (digits : string) (* unsigned number *)
| TStr (s : string)         (* 'text', '' inside standing for one quote *)
| TQ                        (* ? *)
| TParam (n : Z)            (* $n *)
| TOp (o : cmpop)
| TMinus | TLP | TRP | TComma | TDot | TSemi
| TBad.                     (* anything else *)

Definition c_in (lo hi c : ascii) : bool :=
  (nat_of_ascii lo <=? nat_of_ascii c)%nat && (nat_of_ascii c <=? nat_of_ascii hi)%nat.
Definition is_digit (c : ascii) : bool := c_in "0" "9" c.
Definition is_space (c : ascii) : bool :=
  match c with " " | "009" | "010" | "013" => true | _ => false end%char.
(** Letters, underscore and every byte of a non-ASCII character. *)
Definition is_alpha (c : ascii) : bool :=
  c_in "a" "z" c || c_in "A" "Z" c || Ascii.eqb c "_" || (128 <=? nat_of_ascii c)%nat.
Definition is_word (c : ascii) : bool := is_alpha c || is_digit c.

(** * Lexer *)

Inductive lstate :=
| LStart
| LWord (acc : string)
| LNumber (acc : string)
| LQuoted (acc : string)
| LStr (acc : string)
| LStrQ (acc : string)      (* inside a string literal, after a single quote *)
| LDollar (acc : string)
| LLess | LGreater.

Definition snoc (s : string) (c : ascii) : string := (s ++ String c "")%string.

Definition number_of (s : string) : option Z :=
  option_map (fun u => Z.of_uint u) (NilEmpty.uint_of_string s).

Definition dollar (acc : string) : tok :=
  match acc with
  | "" => TBad
  | _ => match number_of acc with Some n => TParam n | None => TBad end
  end.

(** The token that ends where the text ends. *)
Definition lflush (st : lstate) : list tok :=
  match st with
  | LStart => []
  | LWord a => [TWord a]
  | LNumber a => [TNumber a]
  | LQuoted _ | LStr _ => [TBad]
  | LStrQ a => [TStr a]
  | LDollar a => [dollar a]
  | LLess => [TOp CLt]
  | LGreater => [TOp CGt]
  end.

(** First character of a token. *)
Definition lstart (c : ascii) : list tok * lstate :=
  if is_space c then ([], LStart)
  else if is_alpha c then ([], LWord (String c ""))
  else if is_digit c then ([], LNumber (String c ""))
  else match c with
       | """" => ([], LQuoted "")
       | "'" => ([], LStr "")
       | "$" => ([], LDollar "")
       | "<" => ([], LLess)
       | ">" => ([], LGreater)
       | "?" => ([TQ], LStart)
       | "=" => ([TOp CEq], LStart)
       | "-" => ([TMinus], LStart)
       | "(" => ([TLP], LStart)
       | ")" => ([TRP], LStart)
       | "," => ([TComma], LStart)
       | "." => ([TDot], LStart)
       | ";" => ([TSemi], LStart)
       | _ => ([TBad], LStart)
       end%char.

Definition emit (t : tok) (r : list tok * lstate) : list tok * lstate :=
  (t :: fst r, snd r).

Definition lstep (st : lstate) (c : ascii) : list tok * lstate :=
  match st with
  | LStart => lstart c
  | LWord a => if is_word c then ([], LWord (snoc a c)) else emit (TWord a) (lstart c)
  | LNumber a => if is_word c || Ascii.eqb c "." then ([], LNumber (snoc a c))
                 else emit (TNumber a) (lstart c)
  | LQuoted a => if Ascii.eqb c """" then ([TQuoted a], LStart) else ([], LQuoted (snoc a c))
  | LStr a => if Ascii.eqb c "'" then ([], LStrQ a) else ([], LStr (snoc a c))
  | LStrQ a => if Ascii.eqb c "'" then ([], LStr (snoc a c)) else emit (TStr a) (lstart c)
  | LDollar a => if is_digit c then ([], LDollar (snoc a c)) else emit (dollar a) (lstart c)
  | LLess => if Ascii.eqb c ">" then ([TOp CNe], LStart)
             else if Ascii.eqb c "=" then ([TOp CLe], LStart)
             else emit (TOp CLt) (lstart c)
  | LGreater => if Ascii.eqb c "=" then ([TOp CGe], LStart)
                else emit (TOp CGt) (lstart c)
  end.

Fixpoint lex_from (st : lstate) (s : string) : list tok :=
  match s with
  | "" => lflush st
  | String c s' => fst (lstep st c) ++ lex_from (snd (lstep st c)) s'
  end.
Definition lex (s : string) : list tok := lex_from LStart s.

(** The k-th [?] of a statement stands for its k-th parameter. *)
Fixpoint number_params (k : Z) (ts : list tok) : list tok :=
  match ts with
  | [] => []
  | TQ :: r => TParam k :: number_params (k + 1) r
  | t :: r => t :: number_params k r
  end.
Definition tokens (s : string) : list tok := number_params 1 (lex s).

(** * Expressions *)

Notation colref := (option string * string)%type.

Inductive sexp :=
| SCol (c : colref)
| SLit (v : SqlVal)
| SParam (n : Z)                       (* n-th bound value, counting from 1 *)
| SOr (l : list sexp)
| SAnd (l : list sexp)
| SNot (e : sexp)
| SCmp (o : cmpop) (a b : sexp)
| SLike (a b : sexp)
| SIsNull (a : sexp)
| SIsNotNull (a : sexp)
| SIn (a : sexp) (l : list sexp)
| SInSelect (a : sexp) (distinct : bool) (c : colref) (tbl : string)
            (joins : list (string * colref * colref)) (w : sexp).

(** * Parser *)

Definition upper_char (c : ascii) : ascii :=
  if c_in "a" "z" c then ascii_of_nat (nat_of_ascii c - 32) else c.
Fixpoint upper (s : string) : string :=
  match s with "" => "" | String c r => String (upper_char c) (upper r) end.

(** Words that cannot be used as a bare name in this grammar. *)
Definition core_words : list string :=
  ["AND"; "OR"; "NOT"; "IN"; "IS"; "NULL"; "LIKE"; "SELECT"; "DISTINCT"; "FROM"; "WHERE";
   "INNER"; "JOIN"; "ON"; "TRUE"; "FALSE"; "ORDER"; "BY"; "ASC"; "DESC"; "LIMIT"; "OFFSET";
   "INSERT"; "INTO"; "VALUES"; "DEFAULT"; "UPDATE"; "SET"; "DELETE"; "RETURNING";
   "CONFLICT"; "DO"; "NOTHING"].

(** What differs from engine to engine in reading a statement. *)
Record dialect := {
  d_reserved : string -> bool;   (* further reserved words, asked in upper case *)
  d_empty_in : bool;             (* is [x IN ()] accepted? *)
  d_offset_alone : bool;         (* is OFFSET without LIMIT accepted? *)
  d_negative_limit : bool;       (* a negative LIMIT means none (else an error) *)
}.

Definition reserved (d : dialect) (w : string) : bool :=
  kmem (upper w) core_words || d_reserved d (upper w).

Definition is_kw (k : string) (t : tok) : bool :=
  match t with TWord w => String.eqb (upper w) k | _ => false end.
Definition eat (k : string) (ts : list tok) : option (list tok) :=
  match ts with t :: r => if is_kw k t then Some r else None | [] => None end.

Definition p_name (d : dialect) (ts : list tok) : option (string * list tok) :=
  match ts with
  | TWord w :: r => if reserved d w then None else Some (w, r)
  | TQuoted w :: r => Some (w, r)
  | _ => None
  end.
Definition p_colref (d : dialect) (ts : list tok) : option (colref * list tok) :=
  match p_name d ts with
  | Some (a, TDot :: r) =>
      match p_name d r with Some (b, r') => Some ((Some a, b), r') | None => None end
  | Some (a, r) => Some ((None, a), r)
  | None => None
  end.

Definition p_op (ts : list tok) : option (cmpop * list tok) :=
  match ts with TOp o :: r => Some (o, r) | _ => None end.

(** INNER JOIN t ON a = b, any number of times.  [fuel] bounds their number. *)
Fixpoint p_joins (d : dialect) (fuel : nat) (ts : list tok)
  : option (list (string * colref * colref) * list tok) :=
  match eat "INNER" ts with
  | None => Some ([], ts)
  | Some r =>
    match fuel with
    | O => None
    | S f =>
      match eat "JOIN" r with None => None | Some r =>
      match p_name d r with None => None | Some (t, r) =>
      match eat "ON" r with None => None | Some r =>
      match p_colref d r with None => None | Some (a, r) =>
      match r with
      | TOp CEq :: r =>
        match p_colref d r with None => None | Some (b, r) =>
        match p_joins d f r with None => None | Some (js, r) => Some ((t, a, b) :: js, r)
        end end
      | _ => None
      end end end end end
    end
  end.

Section Parser.
Variable d : dialect.

(** Precedence climbing.  [fuel] is larger than the recursion can use; see
    [parse_expr] for the bound. *)
Fixpoint p_or (fuel : nat) (ts : list tok) : option (sexp * list tok) :=
  match fuel with O => None | S f =>
    match p_and f ts with
    | None => None
    | Some (x, r) => match p_or_more f r with
                     | None => None
                     | Some (xs, r') => Some (SOr (x :: xs), r')
                     end
    end
  end
with p_or_more (fuel : nat) (ts : list tok) : option (list sexp * list tok) :=
  match fuel with O => None | S f =>
    match eat "OR" ts with
    | None => Some ([], ts)
    | Some r => match p_and f r with
                | None => None
                | Some (x, r) => match p_or_more f r with
                                 | None => None
                                 | Some (xs, r') => Some (x :: xs, r')
                                 end
                end
    end
  end
with p_and (fuel : nat) (ts : list tok) : option (sexp * list tok) :=
  match fuel with O => None | S f =>
    match p_not f ts with
    | None => None
    | Some (x, r) => match p_and_more f r with
                     | None => None
                     | Some (xs, r') => Some (SAnd (x :: xs), r')
                     end
    end
  end
with p_and_more (fuel : nat) (ts : list tok) : option (list sexp * list tok) :=
  match fuel with O => None | S f =>
    match eat "AND" ts with
    | None => Some ([], ts)
    | Some r => match p_not f r with
                | None => None
                | Some (x, r) => match p_and_more f r with
                                 | None => None
                                 | Some (xs, r') => Some (x :: xs, r')
                                 end
                end
    end
  end
with p_not (fuel : nat) (ts : list tok) : option (sexp * list tok) :=
  match fuel with O => None | S f =>
    match eat "NOT" ts with
    | Some r => match p_not f r with Some (x, r') => Some (SNot x, r') | None => None end
    | None => p_pred f ts
    end
  end
with p_pred (fuel : nat) (ts : list tok) : option (sexp * list tok) :=
  match fuel with O => None | S f =>
    match p_operand f ts with
    | None => None
    | Some (a, r) =>
      match p_op r with
      | Some (o, r) => match p_operand f r with
                       | Some (b, r') => Some (SCmp o a b, r')
                       | None => None
                       end
      | None =>
      match eat "LIKE" r with
      | Some r => match p_operand f r with
                  | Some (b, r') => Some (SLike a b, r')
                  | None => None
                  end
      | None =>
      match eat "IS" r with
      | Some r => match eat "NULL" r with
                  | Some r' => Some (SIsNull a, r')
                  | None => match eat "NOT" r with
                            | None => None
                            | Some r => match eat "NULL" r with
                                        | Some r' => Some (SIsNotNull a, r')
                                        | None => None
                                        end
                            end
                  end
      | None =>
      match eat "IN" r with
      | Some (TLP :: r) =>
          match eat "SELECT" r with
          | Some r =>
            let '(dist, r) := match eat "DISTINCT" r with Some r' => (true, r') | None => (false, r) end in
            match p_colref d r with None => None | Some (c, r) =>
            match eat "FROM" r with None => None | Some r =>
            match p_name d r with None => None | Some (t, r) =>
            match p_joins d f r with None => None | Some (js, r) =>
            match eat "WHERE" r with None => None | Some r =>
            match p_or f r with
            | Some (w, TRP :: r') => Some (SInSelect a dist c t js w, r')
            | _ => None
            end end end end end end
          | None =>
            match r with
            | TRP :: r' => if d_empty_in d then Some (SIn a [], r') else None
            | _ => match p_operand f r with
                   | None => None
                   | Some (x, r) => match p_list f r with
                                    | Some (xs, TRP :: r') => Some (SIn a (x :: xs), r')
                                    | _ => None
                                    end
                   end
            end
          end
      | Some _ => None
      | None => Some (a, r)
      end end end end
    end
  end
with p_list (fuel : nat) (ts : list tok) : option (list sexp * list tok) :=
  match fuel with O => None | S f =>
    match ts with
    | TComma :: r => match p_operand f r with
                     | None => None
                     | Some (x, r) => match p_list f r with
                                      | None => None
                                      | Some (xs, r') => Some (x :: xs, r')
                                      end
                     end
    | _ => Some ([], ts)
    end
  end
with p_operand (fuel : nat) (ts : list tok) : option (sexp * list tok) :=
  match fuel with O => None | S f =>
    match ts with
    | TMinus :: TNumber s :: r =>
        match number_of s with Some n => Some (SLit (VBigInt (- n)), r) | None => None end
    | TNumber s :: r =>
        match number_of s with Some n => Some (SLit (VBigInt n), r) | None => None end
    | TStr s :: r => Some (SLit (VText s), r)
    | TParam n :: r => Some (SParam n, r)
    | TLP :: r => match p_or f r with
                  | Some (x, TRP :: r') => Some (x, r')
                  | _ => None
                  end
    | _ =>
      match eat "TRUE" ts with Some r => Some (SLit (VBool true), r) | None =>
      match eat "FALSE" ts with Some r => Some (SLit (VBool false), r) | None =>
      match eat "NULL" ts with Some r => Some (SLit VNull, r) | None =>
      match p_colref d ts with Some (c, r) => Some (SCol c, r) | None => None
      end end end end
    end
  end.

(** Every step of the recursion consumes a token or goes one of six levels
    down, so this fuel is never used up by a derivation that exists. *)
Definition fuel_for (ts : list tok) : nat := 8 * List.length ts + 8.
Definition p_expr (ts : list tok) : option (sexp * list tok) := p_or (fuel_for ts) ts.

End Parser.

(** * Values and three-valued logic *)

(** The engine's comparisons.  [e_cmp] is [None] when the result is unknown,
    [e_ord] is the total order used by ORDER BY. *)
Record engine := {
  e_cmp : SqlVal -> SqlVal -> option comparison;
  e_like : SqlVal -> SqlVal -> option bool;
  e_ord : SqlVal -> SqlVal -> comparison;
}.

(** What any SQL engine guarantees: comparing with NULL is unknown, and a number
    is the same number whether it is an i32 or an i64. *)
Record engine_ok (E : engine) : Prop := {
  null_l : forall v, e_cmp E VNull v = None;
  null_r : forall v, e_cmp E v VNull = None;
  int_cmp : forall v i, e_cmp E v (VInt i) = e_cmp E v (VBigInt i);
  int_like : forall v i, e_like E v (VInt i) = e_like E v (VBigInt i);
}.

Notation tv := (option bool).   (* None = unknown *)
Definition and3 (a b : tv) : tv :=
  match a, b with
  | Some false, _ | _, Some false => Some false
  | Some true, Some true => Some true
  | _, _ => None
  end.
Definition or3 (a b : tv) : tv :=
  match a, b with
  | Some true, _ | _, Some true => Some true
  | Some false, Some false => Some false
  | _, _ => None
  end.
Definition not3 (a : tv) : tv := option_map negb a.

Definition holds (o : cmpop) (c : comparison) : bool :=
  match o, c with
  | CEq, Eq | CNe, Lt | CNe, Gt | CLt, Lt | CGt, Gt
  | CLe, Lt | CLe, Eq | CGe, Gt | CGe, Eq => true
  | _, _ => false
  end.
Definition compare3 (E : engine) (o : cmpop) (a b : SqlVal) : tv :=
  option_map (holds o) (e_cmp E a b).
(** x IN (v1, ..., vn): true if some comparison is, else unknown if some is, else false. *)
Definition in3 (E : engine) (x : SqlVal) (l : list SqlVal) : tv :=
  fold_right (fun v acc => or3 (compare3 E CEq x v) acc) (Some false) l.

Definition of_tv (t : tv) : SqlVal := match t with Some b => VBool b | None => VNull end.
(** [None]: not a truth value, the statement is rejected. *)
Definition to_tv (v : SqlVal) : option tv :=
  match v with VBool b => Some (Some b) | VNull => Some None | _ => None end.
Definition is_null (v : SqlVal) : bool := match v with VNull => true | _ => false end.

(** * Rows, databases, scopes *)

Notation row := (list (string * SqlVal)).
Notation db := (string -> list row).
(** The rows in scope of one SELECT, each with its table's name; a query inside
    another sees the outer frames too. *)
Notation frame := (list (string * row)).

Fixpoint field (c : string) (r : row) : option SqlVal :=
  match r with
  | [] => None
  | (n, v) :: r' => if String.eqb n c then Some v else field c r'
  end.
(** All values a column reference could mean in a frame. *)
Definition candidates (c : colref) (f : frame) : list SqlVal :=
  flat_map (fun tr =>
    match fst c with
    | Some t => if String.eqb t (fst tr)
                then match field (snd c) (snd tr) with Some v => [v] | None => [] end else []
    | None => match field (snd c) (snd tr) with Some v => [v] | None => [] end
    end) f.
(** The innermost frame that knows the column decides; two candidates there are
    ambiguous, which is an error ([None]). *)
Fixpoint lookup (c : colref) (fs : list frame) : option SqlVal :=
  match fs with
  | [] => None
  | f :: fs' => match candidates c f with
                | [] => lookup c fs'
                | [v] => Some v
                | _ => None
                end
  end.

Fixpoint all_some {A} (l : list (option A)) : option (list A) :=
  match l with
  | [] => Some []
  | Some a :: l' => option_map (cons a) (all_some l')
  | None :: _ => None
  end.

Definition obind2 {A B} (x : option A) (f : A -> option B) : option B :=
  match x with Some a => f a | None => None end.

(** The frames produced by FROM tbl INNER JOIN ... : every combination of rows
    whose ON condition is true.  [None] if a column cannot be resolved. *)
Fixpoint join_frames (E : engine) (D : db) (outer : list frame)
  (js : list (string * colref * colref)) (fs : list frame) : option (list frame) :=
  match js with
  | [] => Some fs
  | (t, a, b) :: js' =>
      obind2
        (all_some (map (fun f => all_some (map (fun r =>
           let f' := f ++ [(t, r)] in
           match lookup a (f' :: outer), lookup b (f' :: outer) with
           | Some x, Some y => Some (match compare3 E CEq x y with
                                     | Some true => [f'] | _ => [] end)
           | _, _ => None
           end) (D t))) fs))
        (fun l => join_frames E D outer js' (concat (concat l)))
  end.

Definition base_frames (D : db) (t : string) : list frame := map (fun r => [(t, r)]) (D t).

(** Keep the frames on which a condition is true. *)
Fixpoint select_frames (cond : frame -> option tv) (fs : list frame) : option (list frame) :=
  match fs with
  | [] => Some []
  | f :: fs' =>
      match cond f, select_frames cond fs' with
      | Some (Some true), Some l => Some (f :: l)
      | Some _, Some l => Some l
      | _, _ => None
      end
  end.

Definition and_all (l : list tv) : tv := fold_right and3 (Some true) l.
Definition or_all (l : list tv) : tv := fold_right or3 (Some false) l.

Section Eval.
Variables (E : engine) (D : db) (params : list SqlVal).

Definition param (n : Z) : option SqlVal :=
  if (0 <? n)%Z then nth_error params (Z.to_nat (n - 1)) else None.

(** The value of an expression; [None] is an error (unknown or ambiguous
    column, missing parameter, a non-boolean where a condition is needed). *)
Fixpoint sval (scope : list frame) (e : sexp) : option SqlVal :=
  match e with
  | SCol c => lookup c scope
  | SLit v => Some v
  | SParam n => param n
  | SOr [x] => sval scope x
  | SOr l => obind2 (all_some (map (fun x => obind2 (sval scope x) to_tv) l))
                    (fun ts => Some (of_tv (or_all ts)))
  | SAnd [x] => sval scope x
  | SAnd l => obind2 (all_some (map (fun x => obind2 (sval scope x) to_tv) l))
                     (fun ts => Some (of_tv (and_all ts)))
  | SNot x => obind2 (obind2 (sval scope x) to_tv) (fun t => Some (of_tv (not3 t)))
  | SCmp o a b =>
      obind2 (sval scope a) (fun x => obind2 (sval scope b) (fun y =>
        Some (of_tv (compare3 E o x y))))
  | SLike a b =>
      obind2 (sval scope a) (fun x => obind2 (sval scope b) (fun y =>
        Some (of_tv (e_like E x y))))
  | SIsNull a => obind2 (sval scope a) (fun x => Some (VBool (is_null x)))
  | SIsNotNull a => obind2 (sval scope a) (fun x => Some (VBool (negb (is_null x))))
  | SIn a l =>
      obind2 (sval scope a) (fun x =>
        obind2 (all_some (map (sval scope) l)) (fun vs => Some (of_tv (in3 E x vs))))
  | SInSelect a dist c t js w =>
      obind2 (sval scope a) (fun x =>
      obind2 (join_frames E D scope js (base_frames D t)) (fun fs =>
      obind2 (select_frames (fun f => obind2 (sval (f :: scope) w) to_tv) fs) (fun sel =>
      obind2 (all_some (map (fun f => lookup c (f :: scope)) sel)) (fun vs =>
        Some (of_tv (in3 E x vs))))))
  end.

Definition struth (scope : list frame) (e : sexp) : option tv := obind2 (sval scope e) to_tv.
End Eval.
