(** What statements that define tables mean: grammar.  Specification, continued from
    [Sql]; nothing in this file is derived from butane's source.  It covers the
    statements of SQLite's, libSQL's and PostgreSQL's manuals that change tables,
    as far as they are written in this grammar's keywords. *)
From Verif Require Import Base SqlVal Sql.

(** * Statements *)

Inductive literal :=
| LitWord (w : string)               (* NULL, true, ... *)
| LitNum (neg : bool) (n : string)   (* a number with or without a minus sign *)
| LitStr (s : string)                (* 'text' *)
| LitHex (h : string).               (* X'hex digits' *)

Inductive colcons :=
| KNotNull
| KPrimary (autoincrement : bool)
| KUnique
| KDefault (l : literal).

(** A column: its name, the words of its type, its constraints in order. *)
Record coldef := { cd_name : string; cd_type : list string; cd_cons : list colcons }.
(** FOREIGN KEY (fk_col) REFERENCES fk_table(fk_ref) *)
Record fkdef := { fk_col : string; fk_table : string; fk_ref : string }.

Inductive ddl :=
| CreateTable (if_absent : bool) (t : string) (cols : list coldef) (fks : list fkdef) (strict : bool)
| DropTable (t : string)
| CopyTable (into : string) (cols : list string) (from : string)  (* INSERT INTO into SELECT cols FROM from *)
| AddCol (t : string) (c : coldef)
| DropCol (t c : string)
| RenameTable (t new : string)
| RenameCol (t c new : string)
| AddForeignKey (t : string) (f : fkdef)
| AddPrimaryKey (t c : string)
| AddUnique (t c : string)
| DropConstraint (if_exists : bool) (t name : string)
| SetType (t c : string) (ty : list string)
| SetNotNull (t c : string) (yes : bool)
| SetDefault (t c : string) (l : option literal).

(** * Grammar *)

(** Words that begin something else where a name could stand. *)
Definition ddl_words : list string := ["FOREIGN"; "IF"; "COLUMN"; "CONSTRAINT"].
(** Words that begin a column constraint, and so end a type. *)
Definition cons_words : list string := ["NOT"; "PRIMARY"; "UNIQUE"; "DEFAULT"; "AUTOINCREMENT"; "REFERENCES"].

Section Parser.
Variable d : dialect.
(** How a bare name is spelled in the catalogue (PostgreSQL: in lower case). *)
Variable fold : string -> string.

Definition p_dname (ts : list tok) : option (string * list tok) :=
  match ts with
  | TWord w :: r => if reserved d w || kmem (upper w) ddl_words then None else Some (fold w, r)
  | TQuoted w :: r => Some (w, r)
  | _ => None
  end.
Fixpoint eats (ks : list string) (ts : list tok) : option (list tok) :=
  match ks with
  | [] => Some ts
  | k :: ks' => match eat k ts with Some r => eats ks' r | None => None end
  end.

Fixpoint p_type (ts : list tok) : list string * list tok :=
  match ts with
  | TWord w :: r => if kmem (upper w) cons_words then ([], ts)
                    else let '(l, r') := p_type r in (w :: l, r')
  | _ => ([], ts)
  end.

Definition p_literal (ts : list tok) : option (literal * list tok) :=
  match ts with
  | TWord w :: TStr h :: r => if String.eqb (upper w) "X" then Some (LitHex h, r) else None
  | TWord w :: r => Some (LitWord w, r)
  | TMinus :: TNumber n :: r => Some (LitNum true n, r)
  | TNumber n :: r => Some (LitNum false n, r)
  | TStr s :: r => Some (LitStr s, r)
  | _ => None
  end.

(** Column constraints, any number.  [fuel] bounds their number. *)
Fixpoint p_cons (fuel : nat) (ts : list tok) : option (list colcons * list tok) :=
  match fuel with
  | O => Some ([], ts)
  | S f =>
    match eats ["NOT"; "NULL"] ts with
    | Some r => match p_cons f r with Some (l, r') => Some (KNotNull :: l, r') | None => None end
    | None =>
    match eats ["PRIMARY"; "KEY"; "AUTOINCREMENT"] ts with
    | Some r => match p_cons f r with Some (l, r') => Some (KPrimary true :: l, r') | None => None end
    | None =>
    match eats ["PRIMARY"; "KEY"] ts with
    | Some r => match p_cons f r with Some (l, r') => Some (KPrimary false :: l, r') | None => None end
    | None =>
    match eat "UNIQUE" ts with
    | Some r => match p_cons f r with Some (l, r') => Some (KUnique :: l, r') | None => None end
    | None =>
    match eat "DEFAULT" ts with
    | Some r => match p_literal r with
                | Some (x, r1) => match p_cons f r1 with
                                  | Some (l, r') => Some (KDefault x :: l, r')
                                  | None => None
                                  end
                | None => None
                end
    | None => Some ([], ts)
    end end end end end
  end.
Definition p_coldef (ts : list tok) : option (coldef * list tok) :=
  match p_dname ts with
  | None => None
  | Some (n, r) =>
      let '(ty, r) := p_type r in
      match p_cons (List.length r) r with
      | Some (cs, r) => Some ({| cd_name := n; cd_type := ty; cd_cons := cs |}, r)
      | None => None
      end
  end.

(** (name) *)
Definition p_in_paren (ts : list tok) : option (string * list tok) :=
  match ts with
  | TLP :: r => match p_dname r with Some (n, TRP :: r') => Some (n, r') | _ => None end
  | _ => None
  end.
(** (col) REFERENCES table(col), after FOREIGN KEY *)
Definition p_fk (ts : list tok) : option (fkdef * list tok) :=
  match p_in_paren ts with None => None | Some (c, r) =>
  match eat "REFERENCES" r with None => None | Some r =>
  match p_dname r with None => None | Some (t, r) =>
  match p_in_paren r with None => None | Some (k, r) =>
    Some ({| fk_col := c; fk_table := t; fk_ref := k |}, r)
  end end end end.

(** The table constraints at the end of CREATE TABLE, up to the closing parenthesis.
    SQLite takes them with or without commas between them. *)
Fixpoint p_fks (fuel : nat) (ts : list tok) : option (list fkdef * list tok) :=
  match fuel with
  | O => None
  | S f =>
    match eats ["FOREIGN"; "KEY"] ts with None => None | Some r =>
    match p_fk r with
    | Some (k, TRP :: r) => Some ([k], r)
    | Some (k, TComma :: r) => match p_fks f r with Some (l, r') => Some (k :: l, r') | None => None end
    | Some (k, r) => match p_fks f r with Some (l, r') => Some (k :: l, r') | None => None end
    | None => None
    end end
  end.
Fixpoint p_items (fuel : nat) (ts : list tok) : option (list coldef * list fkdef * list tok) :=
  match fuel with
  | O => None
  | S f =>
    match p_coldef ts with
    | Some (c, TRP :: r) => Some ([c], [], r)
    | Some (c, TComma :: r) =>
        match eat "FOREIGN" r with
        | Some _ => match p_fks f r with Some (l, r') => Some ([c], l, r') | None => None end
        | None => match p_items f r with
                  | Some (cs, l, r') => Some (c :: cs, l, r')
                  | None => None
                  end
        end
    | _ => None
    end
  end.
Fixpoint p_names (fuel : nat) (ts : list tok) : option (list string * list tok) :=
  match fuel with
  | O => None
  | S f =>
    match p_dname ts with
    | Some (c, TComma :: r) => match p_names f r with Some (l, r') => Some (c :: l, r') | None => None end
    | Some (c, r) => Some ([c], r)
    | None => None
    end
  end.

Definition p_create (ts : list tok) : option (ddl * list tok) :=
  let '(b, r) := match eats ["IF"; "NOT"; "EXISTS"] ts with Some r => (true, r) | None => (false, ts) end in
  match p_dname r with
  | Some (t, TLP :: r) =>
      match p_items (List.length r) r with
      | Some (cs, l, r) =>
          match eat "STRICT" r with
          | Some r => Some (CreateTable b t cs l true, r)
          | None => Some (CreateTable b t cs l false, r)
          end
      | None => None
      end
  | _ => None
  end.
Definition p_copy (ts : list tok) : option (ddl * list tok) :=
  match p_dname ts with None => None | Some (t, r) =>
  match eat "SELECT" r with None => None | Some r =>
  match p_names (List.length r) r with None => None | Some (cs, r) =>
  match eat "FROM" r with None => None | Some r =>
  match p_dname r with None => None | Some (u, r) => Some (CopyTable t cs u, r)
  end end end end end.

(** Alternatives. *)
Definition orelse {A} (x y : option A) : option A := match x with Some _ => x | None => y end.
Definition after {A} (ks : list string) (ts : list tok) (k : list tok -> option A) : option A :=
  match eats ks ts with Some r => k r | None => None end.
Definition named (ts : list tok) (k : string -> ddl) : option (ddl * list tok) :=
  match p_dname ts with Some (n, r) => Some (k n, r) | None => None end.
Definition parenthesised (ts : list tok) (k : string -> ddl) : option (ddl * list tok) :=
  match p_in_paren ts with Some (n, r) => Some (k n, r) | None => None end.

Definition p_alter_col (t : string) (ts : list tok) : option (ddl * list tok) :=
  match p_dname ts with None => None | Some (c, r) =>
    orelse (after ["SET"; "DATA"; "TYPE"] r (fun r => let '(ty, r) := p_type r in Some (SetType t c ty, r)))
   (orelse (after ["SET"; "NOT"; "NULL"] r (fun r => Some (SetNotNull t c true, r)))
   (orelse (after ["DROP"; "NOT"; "NULL"] r (fun r => Some (SetNotNull t c false, r)))
   (orelse (after ["SET"; "DEFAULT"] r (fun r =>
              match p_literal r with Some (l, r) => Some (SetDefault t c (Some l), r) | None => None end))
           (after ["DROP"; "DEFAULT"] r (fun r => Some (SetDefault t c None, r))))))
  end.
Definition p_alter (ts : list tok) : option (ddl * list tok) :=
  match p_dname ts with None => None | Some (t, r) =>
    orelse (after ["ADD"; "COLUMN"] r (fun r =>
              match p_coldef r with Some (c, r) => Some (AddCol t c, r) | None => None end))
   (orelse (after ["ADD"; "FOREIGN"; "KEY"] r (fun r =>
              match p_fk r with Some (f, r) => Some (AddForeignKey t f, r) | None => None end))
   (orelse (after ["ADD"; "PRIMARY"; "KEY"] r (fun r => parenthesised r (AddPrimaryKey t)))
   (orelse (after ["ADD"; "UNIQUE"] r (fun r => parenthesised r (AddUnique t)))
   (orelse (after ["DROP"; "COLUMN"] r (fun r => named r (DropCol t)))
   (orelse (after ["DROP"; "CONSTRAINT"; "IF"; "EXISTS"] r (fun r => named r (DropConstraint true t)))
   (orelse (after ["DROP"; "CONSTRAINT"] r (fun r => named r (DropConstraint false t)))
   (orelse (after ["RENAME"; "TO"] r (fun r => named r (RenameTable t)))
   (orelse (after ["RENAME"; "COLUMN"] r (fun r =>
              match p_dname r with
              | Some (c, r) => after ["TO"] r (fun r => named r (RenameCol t c))
              | None => None
              end))
           (after ["ALTER"; "COLUMN"] r (p_alter_col t))))))))))
  end.
Definition p_ddl (ts : list tok) : option (ddl * list tok) :=
  orelse (after ["CREATE"; "TABLE"] ts p_create)
 (orelse (after ["DROP"; "TABLE"] ts (fun r => named r DropTable))
 (orelse (after ["INSERT"; "INTO"] ts p_copy)
         (after ["ALTER"; "TABLE"] ts p_alter))).

(** A statement's text, read completely; a final semicolon is allowed. *)
Definition parse_ddl (s : string) : option ddl :=
  match p_ddl (lex s) with
  | Some (x, []) | Some (x, [TSemi]) => Some x
  | _ => None
  end.
(** A script: statements, each ended by a semicolon. *)
Fixpoint p_script (fuel : nat) (ts : list tok) : option (list ddl) :=
  match ts with
  | [] => Some []
  | _ =>
    match fuel with
    | O => None
    | S f => match p_ddl ts with
             | Some (x, TSemi :: r) => option_map (cons x) (p_script f r)
             | _ => None
             end
    end
  end.
Definition parse_script (s : string) : option (list ddl) :=
  let ts := lex s in p_script (List.length ts) ts.
End Parser.
