(** What SQL statements mean: SELECT, INSERT, UPDATE, DELETE.  Specification,
    continued from [Sql]. *)
From Coq Require Import Permutation.
From Verif Require Import Base SqlVal Sql.

(** * Grammar *)

Record select := {
  sel_distinct : bool;
  sel_cols : list colref;
  sel_table : string;
  sel_joins : list (string * colref * colref);
  sel_where : option sexp;
  sel_order : list (string * bool);   (* column, descending? *)
  sel_limit : option Z;
  sel_offset : option Z;
}.

(** What an INSERT does when its key exists already: fail, do nothing, or set
    columns to the given expressions. *)
Inductive on_conflict :=
| Fail
| Nothing_if (key : string)
| Update_if (key : string) (sets : list (string * sexp)).

Inductive stmt :=
| Select (s : select)
| Insert (tbl : string) (cols : list string) (vals : list sexp) (c : on_conflict) (ret : option string)
| InsertDefaults (tbl : string) (ret : option string)
| Update (tbl : string) (sets : list (string * sexp)) (w : sexp)
| Delete (tbl : string) (w : sexp).

Section Parser.
Variable d : dialect.

(** One or more, separated by commas. *)
Fixpoint p_sep {A} (p : list tok -> option (A * list tok)) (fuel : nat) (ts : list tok)
  : option (list A * list tok) :=
  match p ts with
  | None => None
  | Some (a, TComma :: r) =>
      match fuel with
      | O => None
      | S f => match p_sep p f r with Some (l, r') => Some (a :: l, r') | None => None end
      end
  | Some (a, r) => Some ([a], r)
  end.

Definition p_int (ts : list tok) : option (Z * list tok) :=
  match ts with
  | TMinus :: TNumber s :: r => option_map (fun n => (- n, r)%Z) (number_of s)
  | TNumber s :: r => option_map (fun n => (n, r)) (number_of s)
  | _ => None
  end.

Definition p_order (ts : list tok) : option (string * bool * list tok) :=
  match p_name d ts with
  | None => None
  | Some (c, r) =>
      match eat "ASC" r with
      | Some r' => Some ((c, false), r')
      | None => match eat "DESC" r with
                | Some r' => Some ((c, true), r')
                | None => Some ((c, false), r)
                end
      end
  end.

(** [( item, ..., item )] *)
Definition p_paren {A} (p : list tok -> option (A * list tok)) (ts : list tok)
  : option (list A * list tok) :=
  match ts with
  | TLP :: r => match p_sep p (List.length r) r with
                | Some (l, TRP :: r') => Some (l, r')
                | _ => None
                end
  | _ => None
  end.

Definition p_value (ts : list tok) : option (sexp * list tok) := p_operand d (fuel_for ts) ts.

Definition p_where (ts : list tok) : option (option sexp * list tok) :=
  match eat "WHERE" ts with
  | None => Some (None, ts)
  | Some r => match p_expr d r with Some (w, r') => Some (Some w, r') | None => None end
  end.
Definition p_orders (ts : list tok) : option (list (string * bool) * list tok) :=
  match eat "ORDER" ts with
  | None => Some ([], ts)
  | Some r => match eat "BY" r with
              | None => None
              | Some r => p_sep p_order (List.length r) r
              end
  end.
Definition p_opt_int (k : string) (ts : list tok) : option (option Z * list tok) :=
  match eat k ts with
  | None => Some (None, ts)
  | Some r => match p_int r with Some (n, r') => Some (Some n, r') | None => None end
  end.

Definition p_select (ts : list tok) : option (select * list tok) :=
  match eat "SELECT" ts with None => None | Some r =>
  let '(dist, r) := match eat "DISTINCT" r with Some r' => (true, r') | None => (false, r) end in
  match p_sep (p_colref d) (List.length r) r with None => None | Some (cols, r) =>
  match eat "FROM" r with None => None | Some r =>
  match p_name d r with None => None | Some (t, r) =>
  match p_joins d (List.length r) r with None => None | Some (js, r) =>
  match p_where r with None => None | Some (w, r) =>
  match p_orders r with None => None | Some (o, r) =>
  match p_opt_int "LIMIT" r with None => None | Some (lim, r) =>
  match p_opt_int "OFFSET" r with None => None | Some (off, r) =>
    match lim, off with
    | None, Some _ => if d_offset_alone d
                      then Some ({| sel_distinct := dist; sel_cols := cols; sel_table := t; sel_joins := js;
                                    sel_where := w; sel_order := o; sel_limit := lim; sel_offset := off |}, r)
                      else None
    | _, _ => Some ({| sel_distinct := dist; sel_cols := cols; sel_table := t; sel_joins := js;
                       sel_where := w; sel_order := o; sel_limit := lim; sel_offset := off |}, r)
    end
  end end end end end end end end end.

Definition p_returning (ts : list tok) : option (option string * list tok) :=
  match eat "RETURNING" ts with
  | None => Some (None, ts)
  | Some r => match p_name d r with Some (c, r') => Some (Some c, r') | None => None end
  end.

Definition same_length {A B} (l : list A) (m : list B) : bool := Nat.eqb (List.length l) (List.length m).

(** ON CONFLICT (key) DO NOTHING | ON CONFLICT (key) DO UPDATE SET (c, ...) = (v, ...) *)
Definition p_conflict (ts : list tok) : option (on_conflict * list tok) :=
  match eat "ON" ts with
  | None => Some (Fail, ts)
  | Some r =>
    match eat "CONFLICT" r with None => None | Some r =>
    match p_paren (p_name d) r with
    | Some ([k], r) =>
      match eat "DO" r with None => None | Some r =>
      match eat "NOTHING" r with
      | Some r => Some (Nothing_if k, r)
      | None =>
        match eat "UPDATE" r with None => None | Some r =>
        match eat "SET" r with None => None | Some r =>
        match p_paren (p_name d) r with
        | Some (cs, TOp CEq :: r) =>
          match p_paren p_value r with
          | Some (vs, r) => if same_length cs vs then Some (Update_if k (combine cs vs), r) else None
          | None => None
          end
        | _ => None
        end end end
      end end
    | _ => None
    end end
  end.

Definition p_set (ts : list tok) : option (string * sexp * list tok) :=
  match p_name d ts with
  | Some (c, TOp CEq :: r) =>
      match p_value r with Some (v, r') => Some ((c, v), r') | None => None end
  | _ => None
  end.

Definition p_insert (ts : list tok) : option (stmt * list tok) :=
  match eat "INSERT" ts with None => None | Some r =>
  match eat "INTO" r with None => None | Some r =>
  match p_name d r with None => None | Some (t, r) =>
  match eat "DEFAULT" r with
  | Some r =>
      match eat "VALUES" r with None => None | Some r =>
      match p_returning r with None => None | Some (ret, r) => Some (InsertDefaults t ret, r) end end
  | None =>
      match p_paren (p_name d) r with None => None | Some (cs, r) =>
      match eat "VALUES" r with None => None | Some r =>
      match p_paren p_value r with None => None | Some (vs, r) =>
      match p_conflict r with None => None | Some (c, r) =>
      match p_returning r with None => None | Some (ret, r) =>
        if same_length cs vs then Some (Insert t cs vs c ret, r) else None
      end end end end end
  end end end end.

Definition p_update (ts : list tok) : option (stmt * list tok) :=
  match eat "UPDATE" ts with None => None | Some r =>
  match p_name d r with None => None | Some (t, r) =>
  match eat "SET" r with None => None | Some r =>
  match p_sep p_set (List.length r) r with None => None | Some (l, r) =>
  match eat "WHERE" r with None => None | Some r =>
  match p_expr d r with None => None | Some (w, r) => Some (Update t l w, r)
  end end end end end end.

Definition p_delete (ts : list tok) : option (stmt * list tok) :=
  match eat "DELETE" ts with None => None | Some r =>
  match eat "FROM" r with None => None | Some r =>
  match p_name d r with None => None | Some (t, r) =>
  match eat "WHERE" r with None => None | Some r =>
  match p_expr d r with None => None | Some (w, r) => Some (Delete t w, r)
  end end end end end.

Definition p_stmt (ts : list tok) : option (stmt * list tok) :=
  match p_select ts with
  | Some (s, r) => Some (Select s, r)
  | None => match p_insert ts with
            | Some x => Some x
            | None => match p_update ts with
                      | Some x => Some x
                      | None => p_delete ts
                      end
            end
  end.

(** A statement's text, read completely; a final semicolon is allowed. *)
Definition parse_stmt (s : string) : option stmt :=
  match p_stmt (tokens s) with
  | Some (x, []) | Some (x, [TSemi]) => Some x
  | _ => None
  end.
(** A condition's text, read completely. *)
Definition parse_cond (s : string) : option sexp :=
  match p_expr d (tokens s) with Some (x, []) => Some x | _ => None end.
End Parser.

(** * Meaning *)

Section Exec.
Variables (d : dialect) (E : engine).

(** ** SELECT *)

(** Row [f] may come before row [g]. *)
Fixpoint ord_le (ord : list (string * bool)) (f g : frame) : Prop :=
  match ord with
  | [] => True
  | (c, desc) :: r =>
      exists x y, lookup (None, c) [f] = Some x /\ lookup (None, c) [g] = Some y /\
        let k := if desc then e_ord E y x else e_ord E x y in
        k = Lt \/ (k = Eq /\ ord_le r f g)
  end.

(** OFFSET, then LIMIT.  [None]: the engine refuses a negative number. *)
Definition window {A} (lim off : option Z) (l : list A) : option (list A) :=
  let l := match off with
           | None => Some l
           | Some n => if (0 <=? n)%Z then Some (skipn (Z.to_nat n) l)
                       else if d_negative_limit d then Some l else None
           end in
  match lim with
  | None => l
  | Some n => if (0 <=? n)%Z then option_map (firstn (Z.to_nat n)) l
              else if d_negative_limit d then l else None
  end.

(** The engine may choose any order of the rows that ORDER BY allows. *)
Definition arranged (ord : list (string * bool)) (l l' : list frame) : Prop :=
  Permutation l l' /\ StronglySorted (ord_le ord) l'.

Definition project (cols : list colref) (fs : list frame) : option (list (list SqlVal)) :=
  all_some (map (fun f => all_some (map (fun c => lookup c [f]) cols)) fs).

(** Rows equal for DISTINCT: no difference the ordering can see. *)
Definition same_row (a b : list SqlVal) : Prop := Forall2 (fun x y => e_ord E x y = Eq) a b.
(** The distinct rows: each row given has an equal one among them, none twice. *)
Definition distinct_of (l l' : list (list SqlVal)) : Prop :=
  incl l' l /\ (forall r, In r l -> exists r', In r' l' /\ same_row r r')
  /\ ForallOrdPairs (fun a b => ~ same_row a b) l'.

Definition selected (D : db) (V : list SqlVal) (s : select) : option (list frame) :=
  obind2 (join_frames E D [] (sel_joins s) (base_frames D (sel_table s))) (fun fs =>
    match sel_where s with
    | None => Some fs
    | Some w => select_frames (fun f => struth E D V [f] w) fs
    end).

(** [rows] is a possible result of the query. *)
Definition select_returns (D : db) (V : list SqlVal) (s : select) (rows : list (list SqlVal)) : Prop :=
  exists fs fs' win, selected D V s = Some fs /\ arranged (sel_order s) fs fs'
    /\ window (sel_limit s) (sel_offset s) fs' = Some win
    /\ if sel_distinct s
       then exists all, project (sel_cols s) win = Some all /\ distinct_of all rows
       else project (sel_cols s) win = Some rows.

(** ** Changing a table *)

(** Set a column of a row; a column the row does not have is an error. *)
Fixpoint set_field (c : string) (v : SqlVal) (r : row) : option row :=
  match r with
  | [] => None
  | (n, x) :: r' => if String.eqb n c then Some ((n, v) :: r')
                    else option_map (cons (n, x)) (set_field c v r')
  end.
Fixpoint set_fields (l : list (string * SqlVal)) (r : row) : option row :=
  match l with
  | [] => Some r
  | (c, v) :: l' => obind2 (set_field c v r) (set_fields l')
  end.

Definition sets_in (D : db) V (scope : list frame) (l : list (string * sexp)) : option (list (string * SqlVal)) :=
  all_some (map (fun cv => option_map (pair (fst cv)) (sval E D V scope (snd cv))) l).

Definition with_table (D : db) (t : string) (rows : list row) : db :=
  fun n => if String.eqb n t then rows else D n.

(** Rewrite the rows for which [cond] is true. *)
Fixpoint update_rows (cond : row -> option tv) (f : row -> option row) (l : list row) : option (list row) :=
  match l with
  | [] => Some []
  | r :: l' =>
      match cond r, update_rows cond f l' with
      | Some (Some true), Some m => option_map (fun r' => r' :: m) (f r)
      | Some _, Some m => Some (r :: m)
      | _, _ => None
      end
  end.
Fixpoint delete_rows (cond : row -> option tv) (l : list row) : option (list row) :=
  match l with
  | [] => Some []
  | r :: l' =>
      match cond r, delete_rows cond l' with
      | Some (Some true), Some m => Some m
      | Some _, Some m => Some (r :: m)
      | _, _ => None
      end
  end.

(** [fill t cs] is what the engine puts into the columns an INSERT leaves out
    (generated keys, defaults). *)
Variable fill : string -> list string -> row.

Definition conflicting (key : string) (v : SqlVal) (r : row) : option tv :=
  option_map (fun x => compare3 E CEq x v) (field key r).

(** The database after a statement and the value it returns; [None] if the
    engine refuses it. *)
Definition exec (D : db) (V : list SqlVal) (s : stmt) : option (db * option SqlVal) :=
  match s with
  | Select _ => Some (D, None)
  | Insert t cs vs c ret =>
      obind2 (all_some (map (sval E D V []) vs)) (fun xs =>
        let new := combine cs xs ++ fill t cs in
        let inserted := (with_table D t (D t ++ [new]), obind2 ret (fun c => field c new)) in
        match c with
        | Fail => Some inserted
        | Nothing_if k =>
            obind2 (field k new) (fun kv =>
            obind2 (all_some (map (conflicting k kv) (D t))) (fun ts =>
              if existsb (fun t => match t with Some true => true | _ => false end) ts
              then Some (D, None) else Some inserted))
        | Update_if k sets =>
            obind2 (field k new) (fun kv =>
            obind2 (all_some (map (conflicting k kv) (D t))) (fun ts =>
              if existsb (fun t => match t with Some true => true | _ => false end) ts
              then option_map (fun rows => (with_table D t rows, None))
                     (update_rows (conflicting k kv)
                        (fun r => obind2 (sets_in D V [[(t, r); ("excluded", new)]] sets) (fun l => set_fields l r))
                        (D t))
              else Some inserted))
        end)
  | InsertDefaults t ret =>
      let new := fill t [] in
      Some (with_table D t (D t ++ [new]), obind2 ret (fun c => field c new))
  | Update t sets w =>
      option_map (fun rows => (with_table D t rows, None))
        (update_rows (fun r => struth E D V [[(t, r)]] w)
           (fun r => obind2 (sets_in D V [[(t, r)]] sets) (fun l => set_fields l r)) (D t))
  | Delete t w =>
      option_map (fun rows => (with_table D t rows, None))
        (delete_rows (fun r => struth E D V [[(t, r)]] w) (D t))
  end.
End Exec.
