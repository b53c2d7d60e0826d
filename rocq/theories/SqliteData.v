(** What statements that change rows do in a SQLite database with declared tables (and in
    Turso, which keeps SQLite's rules).  Specification: written from SQLite's manual
    (lang_insert, lang_update, lang_delete, lang_upsert, autoinc, stricttables,
    foreignkeys), not from butane's source.  Which rows a statement makes is said by
    [SqlStmt.exec]; here, what the declared columns make of the values and when the
    statement is refused.

    Simplifications: as in [SqliteSem]; columns named in a condition are looked up when a
    row is examined, so that a condition with an unknown column is accepted on an empty
    table; constraints are checked when the statement ends. *)
From Verif Require Import Base SqlVal Sql SqlStmt LiteralSpec Ddl Backend SqliteSem.

(** A stored value, as an expression sees it. *)
Definition as_val (l : lvalue) : SqlVal :=
  match l with
  | LNull => VNull
  | LInteger z => VBigInt z
  | LReal r => VReal r
  | LText s => VText s
  | LBlob b => VBlob b
  end.
Definition shown (r : row) : Sql.row := map (fun p => (fst p, as_val (snd p))) r.
Definition shown_db (db : edb) : Sql.db :=
  fun n => match mget n db with Some t => map shown (b_rows t) | None => [] end.

Section Engine.
Variable conv : bool -> list string -> lvalue -> option lvalue.
Variable veq : lvalue -> lvalue -> bool.
Variable read : bool -> string -> f64.
(** How values compare. *)
Variable E : engine.
(** The key given to the next row of a table that is given none. *)
Variable fresh : etab -> Z.

(** INTEGER PRIMARY KEY is another name for the row's number. *)
Definition rowid (k : ecol) : bool :=
  k_pk k && match k_type k with [w] => String.eqb w "INTEGER" | _ => false end.
Definition is_integer (v : lvalue) : bool := match v with LInteger _ => true | _ => false end.

(** What the columns that an INSERT leaves out get. *)
Definition left_out (t : etab) (cs : list string) : option Sql.row :=
  mapm (fun k =>
          if rowid k then Some (k_name k, VBigInt (fresh t))
          else match k_default k with
               | Some l => option_map (fun v => (k_name k, as_val v)) (lit_value read l)
               | None => Some (k_name k, VNull)
               end)
       (filter (fun k => negb (existsb (String.eqb (k_name k)) cs)) (b_cols t)).

(** A value as its column keeps it.  NULL for the row's number asks for the next one;
    that number is an integer; a column of a STRICT table's key is NOT NULL. *)
Definition stored_cell (t : etab) (p : string * SqlVal) : option (string * lvalue) :=
  match col_at t (fst p), sqlite_write (snd p) with
  | Some k, Ok l =>
      let l := sqlite_keeps l in
      let l := if rowid k && lnull l then LInteger (fresh t) else l in
      match conv (b_strict t) (k_type k) l with
      | Some w => if (k_notnull k || (b_strict t && k_pk k)) && lnull w then None
                  else if rowid k && negb (is_integer w) then None
                  else Some (fst p, w)
      | None => None
      end
  | _, _ => None
  end.
Definition stored_row (t : etab) (r : Sql.row) : option row :=
  if forallb (fun k => existsb (String.eqb (k_name k)) (map fst r)) (b_cols t)
  then mapm (stored_cell t) r else None.

(** The foreign keys of the table [t] and those that refer to it have their parents. *)
Definition references_hold (db : edb) (t : string) : bool :=
  forallb (fun p => forallb (fun f =>
      negb (String.eqb (fst p) t || String.eqb (fk_table f) t)
      || (parent_ok db f && forallb (fk_holds veq db f) (b_rows (snd p))))
    (b_fks (snd p))) db.

(** The table is left with these rows, if its keys and all references allow it. *)
Definition settle (db : edb) (t : string) (tb : etab) (rows : list Sql.row) : option edb :=
  match mapm (stored_row tb) rows with
  | Some rs =>
      let tb' := with_rows tb rs in
      let db' := mput t tb' db in
      if keys_ok veq tb' && references_hold db' t then Some db' else None
  | None => None
  end.

(** The columns a statement names to be set are there. *)
Definition knows (t : etab) (cs : list string) : bool := forallb (fun c => is_some (col_at t c)) cs.
Definition key_there (t : etab) (c : string) : bool :=
  match col_at t c with Some k => k_pk k || k_unique k | None => false end.
Definition names_fine (t : etab) (st : stmt) : bool :=
  match st with
  | Insert _ cs _ c _ =>
      knows t cs && distinct cs
      && match c with
         | Fail => true
         | Nothing_if k => key_there t k
         | Update_if k sets => key_there t k && knows t (map fst sets)
         end
  | InsertDefaults _ _ => true
  | Update _ sets _ => knows t (map fst sets)
  | Delete _ _ => true
  | Select _ => false
  end.
Definition target (st : stmt) : option string :=
  match st with
  | Insert t _ _ _ _ | InsertDefaults t _ | Update t _ _ | Delete t _ => Some t
  | Select _ => None
  end.
Definition added (t : etab) (st : stmt) : option Sql.row :=
  match st with Insert _ cs _ _ _ => left_out t cs | InsertDefaults _ _ => left_out t [] | _ => Some [] end.

(** The database after a statement with bound values; [None]: refused. *)
Definition change (db : edb) (V : list SqlVal) (st : stmt) : option edb :=
  match target st with
  | Some t =>
      match mget t db with
      | Some tb =>
          if names_fine tb st then
            match added tb st with
            | Some extra =>
                match SqlStmt.exec E (fun _ _ => extra) (shown_db db) V st with
                | Some (D', _) => settle db t tb (D' t)
                | None => None
                end
            | None => None
            end
          else None
      | None => None
      end
  | None => None
  end.
End Engine.
