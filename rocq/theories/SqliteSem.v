(** What statements that define tables do: SQLite (and Turso, which keeps SQLite's
    rules).  Specification: written from SQLite's manual (lang_createtable,
    lang_altertable, stricttables, foreignkeys), not from butane's source.  Foreign
    keys are enforced, as on every connection butane opens (sqlite.rs:69).

    Simplifications: names are compared exactly (SQLite ignores the case of ASCII
    letters); indexes, views, triggers and CHECK constraints do not occur. *)
From Verif Require Import Base SqlVal Sql LiteralSpec Ddl Backend.

(** * Tables *)

Record ecol := {
  k_name : string;
  k_type : list string;
  k_notnull : bool;
  k_pk : bool;
  k_unique : bool;
  k_default : option literal }.
Definition row := list (string * lvalue).
Record etab := { b_cols : list ecol; b_fks : list fkdef; b_strict : bool; b_rows : list row }.
Definition edb := smap string etab.

Definition get (r : row) (c : string) : option lvalue :=
  option_map snd (find (fun p => String.eqb (fst p) c) r).
Definition col_at (t : etab) (c : string) : option ecol := find (fun k => String.eqb (k_name k) c) (b_cols t).
Definition is_some {A} (o : option A) : bool := match o with Some _ => true | None => false end.
Definition with_rows (t : etab) (rs : list row) : etab :=
  {| b_cols := b_cols t; b_fks := b_fks t; b_strict := b_strict t; b_rows := rs |}.

Section Engine.
(** How a value is stored in a column of the type ([None]: refused). *)
Variable conv : bool -> list string -> lvalue -> option lvalue.
(** The engine's comparison of two values that are not NULL. *)
Variable veq : lvalue -> lvalue -> bool.
(** The number that digits, with or without a minus sign, are nearest to. *)
Variable read : bool -> string -> f64.

Definition lnull (v : lvalue) : bool := match v with LNull => true | _ => false end.

(** The value of a literal.  Whole numbers that fit 64 bits are integers. *)
Definition lit_value (l : literal) : option lvalue :=
  match l with
  | LitWord w => if String.eqb (upper w) "NULL" then Some LNull
                 else if String.eqb (upper w) "TRUE" then Some (LInteger 1)
                 else if String.eqb (upper w) "FALSE" then Some (LInteger 0)
                 else None
  | LitNum neg n =>
      match number_of n with
      | Some z => let z := if neg then Z.opp z else z in
                  if Z.leb (- 9223372036854775808) z && Z.leb z 9223372036854775807 then Some (LInteger z)
                  else Some (LReal (read neg n))
      | None => Some (LReal (read neg n))
      end
  | LitStr s => Some (LText s)
  | LitHex h => option_map LBlob (hex_value h)
  end.

(** * Declarations *)

Definition ecol_of (c : coldef) : ecol :=
  {| k_name := cd_name c; k_type := map upper (cd_type c);
     k_notnull := existsb (fun k => match k with KNotNull => true | _ => false end) (cd_cons c);
     k_pk := existsb (fun k => match k with KPrimary _ => true | _ => false end) (cd_cons c);
     k_unique := existsb (fun k => match k with KUnique => true | _ => false end) (cd_cons c);
     k_default := fold_left (fun a k => match k with KDefault l => Some l | _ => a end) (cd_cons c) None |}.
(** The types a STRICT table may have. *)
Definition strict_types : list (list string) := [["INT"]; ["INTEGER"]; ["REAL"]; ["TEXT"]; ["BLOB"]; ["ANY"]].
Definition type_ok (strict : bool) (c : ecol) : bool :=
  negb strict || existsb (fun t => if list_eq_dec string_dec t (k_type c) then true else false) strict_types.
Fixpoint distinct (l : list string) : bool :=
  match l with [] => true | x :: r => negb (existsb (String.eqb x) r) && distinct r end.

Definition create (db : edb) (if_absent : bool) (t : string) (cs : list coldef) (fs : list fkdef) (strict : bool) : option edb :=
  if is_some (mget t db) then (if if_absent then Some db else None)
  else
    let cols := map ecol_of cs in
    if distinct (map k_name cols) && forallb (type_ok strict) cols
       && (List.length (filter k_pk cols) <=? 1)%nat
       && forallb (fun f => existsb (String.eqb (fk_col f)) (map k_name cols)) fs
    then Some (mput t {| b_cols := cols; b_fks := fs; b_strict := strict; b_rows := [] |} db)
    else None.

(** * Rows *)

(** Does a row of [t] have the value in the column? *)
Definition holds (t : etab) (c : string) (v : lvalue) : bool :=
  existsb (fun r => match get r c with Some w => veq v w | None => false end) (b_rows t).
(** Does some row of another table refer to a row of [t]? *)
Definition referenced (db : edb) (t : string) (tb : etab) : bool :=
  existsb (fun p => negb (String.eqb (fst p) t)
    && existsb (fun f => String.eqb (fk_table f) t
         && existsb (fun r => match get r (fk_col f) with
                              | Some v => negb (lnull v) && holds tb (fk_ref f) v
                              | None => false
                              end) (b_rows (snd p)))
               (b_fks (snd p))) db.
(** DROP TABLE deletes the rows first; a row that is referred to cannot be deleted. *)
Definition drop (db : edb) (t : string) : option edb :=
  match mget t db with
  | Some tb => if referenced db t tb then None else Some (mdel t db)
  | None => None
  end.

(** One row of INSERT: each value is stored as its column wants it. *)
Fixpoint store (strict : bool) (cols : list ecol) (vs : list lvalue) : option row :=
  match cols, vs with
  | [], [] => Some []
  | c :: cols', v :: vs' =>
      match conv strict (k_type c) v, store strict cols' vs' with
      | Some w, Some r => if k_notnull c && lnull w then None else Some ((k_name c, w) :: r)
      | _, _ => None
      end
  | _, _ => None
  end.
Fixpoint mapm {A B} (f : A -> option B) (l : list A) : option (list B) :=
  match l with
  | [] => Some []
  | x :: r => match f x, mapm f r with Some y, Some ys => Some (y :: ys) | _, _ => None end
  end.
(** No two rows have the same value in a column that is a key. *)
Fixpoint no_twice (l : list lvalue) : bool :=
  match l with [] => true | v :: r => (lnull v || negb (existsb (veq v) r)) && no_twice r end.
Definition column_values (c : string) (rs : list row) : list lvalue :=
  flat_map (fun r => match get r c with Some v => [v] | None => [] end) rs.
Definition keys_ok (t : etab) : bool :=
  forallb (fun c => negb (k_pk c || k_unique c) || no_twice (column_values (k_name c) (b_rows t))) (b_cols t).
(** A foreign key's parent is there and its column is a key. *)
Definition parent_ok (db : edb) (f : fkdef) : bool :=
  match mget (fk_table f) db with
  | Some p => match col_at p (fk_ref f) with Some c => k_pk c || k_unique c | None => false end
  | None => false
  end.
Definition fk_holds (db : edb) (f : fkdef) (r : row) : bool :=
  match get r (fk_col f) with
  | Some v => lnull v || match mget (fk_table f) db with Some p => holds p (fk_ref f) v | None => false end
  | None => true
  end.
(** INSERT INTO into SELECT cols FROM from *)
Definition copy (db : edb) (into : string) (cols : list string) (from : string) : option edb :=
  match mget into db, mget from db with
  | Some t, Some s =>
      if forallb (fun c => is_some (col_at s c)) cols && forallb (parent_ok db) (b_fks t)
      then match mapm (fun r => match mapm (get r) cols with
                                | Some vs => store (b_strict t) (b_cols t) vs
                                | None => None
                                end) (b_rows s) with
           | Some rs =>
               let t' := with_rows t (b_rows t ++ rs) in
               let db' := mput into t' db in
               if keys_ok t' && forallb (fun f => forallb (fk_holds db' f) rs) (b_fks t) then Some db' else None
           | None => None
           end
      else None
  | _, _ => None
  end.

(** * ALTER TABLE *)

(** ADD COLUMN: no key; the rows that are there get the default value. *)
Definition add_col (db : edb) (t : string) (cd : coldef) : option edb :=
  match mget t db with
  | Some tb =>
      let c := ecol_of cd in
      if is_some (col_at tb (k_name c)) || k_pk c || k_unique c || negb (type_ok (b_strict tb) c) then None
      else match match k_default c with Some l => lit_value l | None => Some LNull end with
           | Some v =>
               let tb' := {| b_cols := b_cols tb ++ [c]; b_fks := b_fks tb; b_strict := b_strict tb; b_rows := [] |} in
               match b_rows tb with
               | [] => Some (mput t tb' db)
               | rs => match conv (b_strict tb) (k_type c) v with
                       | Some w => if k_notnull c && lnull w then None
                                   else Some (mput t (with_rows tb' (map (fun r => r ++ [(k_name c, w)]) rs)) db)
                       | None => None
                       end
               end
           | None => None
           end
  | None => None
  end.
(** DROP COLUMN: no key, not part of a foreign key, not the only column. *)
Definition drop_col (db : edb) (t c : string) : option edb :=
  match mget t db with
  | Some tb =>
      match col_at tb c with
      | Some k =>
          if k_pk k || k_unique k || existsb (fun f => String.eqb (fk_col f) c) (b_fks tb)
             || (List.length (b_cols tb) <=? 1)%nat then None
          else Some (mput t {| b_cols := filter (fun k => negb (String.eqb (k_name k) c)) (b_cols tb);
                               b_fks := b_fks tb; b_strict := b_strict tb;
                               b_rows := map (filter (fun p => negb (String.eqb (fst p) c))) (b_rows tb) |} db)
      | None => None
      end
  | None => None
  end.
(** RENAME TO: foreign keys that name the table follow it. *)
Definition renamed_fk (t new : string) (f : fkdef) : fkdef :=
  if String.eqb (fk_table f) t then {| fk_col := fk_col f; fk_table := new; fk_ref := fk_ref f |} else f.
Definition rename_tab (db : edb) (t new : string) : option edb :=
  match mget t db with
  | Some tb => if is_some (mget new db) then None
               else Some (map (fun p => (fst p, {| b_cols := b_cols (snd p); b_fks := map (renamed_fk t new) (b_fks (snd p));
                                                  b_strict := b_strict (snd p); b_rows := b_rows (snd p) |}))
                              (mput new tb (mdel t db)))
  | None => None
  end.

(** * Scripts *)

Definition exec (db : edb) (x : ddl) : option edb :=
  match x with
  | CreateTable b t cs fs strict => create db b t cs fs strict
  | DropTable t => drop db t
  | CopyTable t cs u => copy db t cs u
  | AddCol t c => add_col db t c
  | DropCol t c => drop_col db t c
  | RenameTable t u => rename_tab db t u
  | _ => None   (* not SQLite's grammar *)
  end.
Fixpoint run (db : edb) (xs : list ddl) : option edb :=
  match xs with
  | [] => Some db
  | x :: r => match exec db x with Some db' => run db' r | None => None end
  end.
End Engine.
