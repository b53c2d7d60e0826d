(** What statements that define tables do to PostgreSQL's catalogue.  Specification:
    written from PostgreSQL's manual (ddl-constraints, sql-createtable, sql-altertable,
    sql-droptable, datatype-numeric for the serial types), not from butane's source.

    The catalogue only: whether a statement is refused because of the rows in a table,
    or for another reason not told here (a type that cannot be converted, a missing
    privilege, ...), is asked of an oracle. *)
From Verif Require Import Base SqlVal Sql Ddl.

(** How a bare name is spelled in the catalogue. *)
Definition lower_char (c : ascii) : ascii :=
  if c_in "A" "Z" c then ascii_of_nat (nat_of_ascii c + 32) else c.
Fixpoint lower (s : string) : string :=
  match s with "" => "" | String c r => String (lower_char c) (lower r) end.

(** * The catalogue *)

Inductive pdefault :=
| DLit (l : literal)
| DNext.             (* the next number of the column's sequence *)
Record pcol := { p_name : string; p_type : list string; p_notnull : bool; p_default : option pdefault }.
Inductive pcons :=
| PKey (c : string)
| PUnique (c : string)
| PRef (f : fkdef).
(** Constraints have names. *)
Record ptab := { p_cols : list pcol; p_cons : list (string * pcons) }.
Definition pdb := smap string ptab.

Definition pcol_at (t : ptab) (c : string) : option pcol := find (fun k => String.eqb (p_name k) c) (p_cols t).
Definition is_some {A} (o : option A) : bool := match o with Some _ => true | None => false end.
Definition is_key (c : string) (x : pcons) : bool :=
  match x with PKey c' | PUnique c' => String.eqb c c' | PRef _ => false end.
Definition is_primary (x : pcons) : bool := match x with PKey _ => true | _ => false end.
(** The column of its table a constraint is about. *)
Definition cons_col (x : pcons) : string := match x with PKey c | PUnique c => c | PRef f => fk_col f end.
Definition refers_to (t c : string) (x : pcons) : bool :=
  match x with PRef f => String.eqb (fk_table f) t && String.eqb (fk_ref f) c | _ => false end.
Definition into_table (t : string) (x : pcons) : bool :=
  match x with PRef f => String.eqb (fk_table f) t | _ => false end.

(** The name a constraint is given when the statement names none (if it is free). *)
Definition usual_name (t : string) (x : pcons) : string :=
  match x with
  | PKey _ => t ++ "_pkey"
  | PUnique c => t ++ "_" ++ c ++ "_key"
  | PRef f => t ++ "_" ++ fk_col f ++ "_fkey"
  end.
(** Constraints and tables share their names. *)
Definition taken (db : pdb) (n : string) : Prop :=
  mget n db <> None \/ exists t tb x, mget t db = Some tb /\ In (n, x) (p_cons tb).

Section Engine.
(** The engine's choice of a constraint's name. *)
Variable pick : pdb -> string -> string.
(** Statements that nothing outside this specification speaks against. *)
Variable allows : pdb -> ddl -> bool.

(** A name of up to 63 bytes that is free is chosen. *)
Definition picks : Prop := forall db n, ~ taken db n -> (String.length n <= 63)%nat -> pick db n = n.

(** * Declarations *)

(** serial and bigserial are integer types that number the rows. *)
Definition serial (ty : list string) : option (list string) :=
  match map upper ty with
  | ["SERIAL"] => Some ["INTEGER"]
  | ["BIGSERIAL"] => Some ["BIGINT"]
  | _ => None
  end.
Definition stored_type (ty : list string) : list string :=
  match serial ty with Some w => w | None => map upper ty end.
Definition is_null (l : literal) : bool := match l with LitWord w => String.eqb (upper w) "NULL" | _ => false end.
(** A default of NULL is none. *)
Definition default_of (l : literal) : option pdefault := if is_null l then None else Some (DLit l).
Definition defaults (cs : list colcons) : list literal :=
  flat_map (fun k => match k with KDefault l => [l] | _ => [] end) cs.
(** X'..' is a bit string, and only columns of that type take one. *)
Definition default_fits (ty : list string) (l : literal) : bool :=
  match l with
  | LitHex _ => match map upper ty with "BIT" :: _ => true | _ => false end
  | _ => true
  end.
Definition pcol_of (c : coldef) : pcol :=
  {| p_name := cd_name c; p_type := stored_type (cd_type c);
     p_notnull := existsb (fun k => match k with KNotNull | KPrimary _ => true | _ => false end) (cd_cons c)
                  || is_some (serial (cd_type c));
     p_default := if is_some (serial (cd_type c)) then Some DNext
                  else match defaults (cd_cons c) with l :: _ => default_of l | [] => None end |}.
(** One default at most, and no AUTOINCREMENT. *)
Definition coldef_ok (c : coldef) : bool :=
  (List.length (defaults (cd_cons c)) + (if is_some (serial (cd_type c)) then 1 else 0) <=? 1)%nat
  && forallb (default_fits (cd_type c)) (defaults (cd_cons c))
  && forallb (fun k => match k with KPrimary b => negb b | _ => true end) (cd_cons c).
Definition own_cons (c : coldef) : list pcons :=
  flat_map (fun k => match k with KPrimary _ => [PKey (cd_name c)] | KUnique => [PUnique (cd_name c)] | _ => [] end) (cd_cons c).

(** * Constraints *)

Definition with_cols (t : ptab) (cs : list pcol) : ptab := {| p_cols := cs; p_cons := p_cons t |}.
Definition with_cons (t : ptab) (xs : list (string * pcons)) : ptab := {| p_cols := p_cols t; p_cons := xs |}.
Definition set_col (t : ptab) (c : string) (f : pcol -> pcol) : ptab :=
  with_cols t (map (fun k => if String.eqb (p_name k) c then f k else k) (p_cols t)).
Definition set_notnull (b : bool) (k : pcol) : pcol :=
  {| p_name := p_name k; p_type := p_type k; p_notnull := b; p_default := p_default k |}.
Definition set_type (ty : list string) (k : pcol) : pcol :=
  {| p_name := p_name k; p_type := ty; p_notnull := p_notnull k; p_default := p_default k |}.
Definition set_default (x : option pdefault) (k : pcol) : pcol :=
  {| p_name := p_name k; p_type := p_type k; p_notnull := p_notnull k; p_default := x |}.
Definition some_cons (p : pcons -> bool) (t : ptab) : bool := existsb (fun x => p (snd x)) (p_cons t).

(** A primary key must be the only one and makes its column NOT NULL; a foreign key must
    refer to a key of a table. *)
Definition add_cons (db : pdb) (t : string) (x : pcons) : option pdb :=
  match mget t db with
  | Some tb =>
      if is_some (pcol_at tb (cons_col x))
         && match x with
            | PKey _ => negb (some_cons is_primary tb)
            | PUnique _ => true
            | PRef f => match mget (fk_table f) db with
                        | Some p => is_some (pcol_at p (fk_ref f)) && some_cons (is_key (fk_ref f)) p
                        | None => false
                        end
            end
      then
        let tb' := match x with PKey c => set_col tb c (set_notnull true) | _ => tb end in
        Some (mput t (with_cons tb' (p_cons tb' ++ [(pick db (usual_name t x), x)])) db)
      else None
  | None => None
  end.
Fixpoint add_all (db : pdb) (t : string) (xs : list pcons) : option pdb :=
  match xs with
  | [] => Some db
  | x :: r => match add_cons db t x with Some db' => add_all db' t r | None => None end
  end.
(** A key that foreign keys need cannot go. *)
Definition referred (db : pdb) (t c : string) : bool :=
  existsb (fun p => some_cons (refers_to t c) (snd p)) db.
Definition drop_cons (db : pdb) (if_exists : bool) (t n : string) : option pdb :=
  match mget t db with
  | Some tb =>
      let rest := filter (fun p => negb (String.eqb (fst p) n)) (p_cons tb) in
      match find (fun p => String.eqb (fst p) n) (p_cons tb) with
      | Some (_, x) =>
          let lost := match x with
                      | PKey c | PUnique c => referred db t c && negb (existsb (fun p => is_key c (snd p)) rest)
                      | PRef _ => false
                      end in
          if lost then None else Some (mput t (with_cons tb rest) db)
      | None => if if_exists then Some db else None
      end
  | None => None
  end.

(** * Tables and columns *)

Fixpoint distinct (l : list string) : bool :=
  match l with [] => true | x :: r => negb (existsb (String.eqb x) r) && distinct r end.
(** Primary keys come before the other constraints, foreign keys last. *)
Definition all_cons (cs : list coldef) (fs : list fkdef) : list pcons :=
  filter is_primary (flat_map own_cons cs) ++ filter (fun x => negb (is_primary x)) (flat_map own_cons cs) ++ map PRef fs.
Definition pcreate (db : pdb) (if_absent : bool) (t : string) (cs : list coldef) (fs : list fkdef) (strict : bool) : option pdb :=
  if strict then None   (* not PostgreSQL's grammar *)
  else if is_some (mget t db) then (if if_absent then Some db else None)
  else if distinct (map cd_name cs) && forallb coldef_ok cs
  then add_all (mput t {| p_cols := map pcol_of cs; p_cons := [] |} db) t (all_cons cs fs)
  else None.
Definition pdrop (db : pdb) (t : string) : option pdb :=
  match mget t db with
  | Some _ => if existsb (fun p => negb (String.eqb (fst p) t) && some_cons (into_table t) (snd p)) db then None
              else Some (mdel t db)
  | None => None
  end.
Definition padd_col (db : pdb) (t : string) (c : coldef) : option pdb :=
  match mget t db with
  | Some tb => if is_some (pcol_at tb (cd_name c)) || negb (coldef_ok c) then None
               else add_all (mput t (with_cols tb (p_cols tb ++ [pcol_of c])) db) t (own_cons c)
  | None => None
  end.
(** DROP COLUMN takes the column's constraints with it, unless a foreign key on another
    column needs them. *)
Definition pdrop_col (db : pdb) (t c : string) : option pdb :=
  match mget t db with
  | Some tb =>
      if is_some (pcol_at tb c)
         && negb (existsb (fun p => existsb (fun x => refers_to t c (snd x)
                    && negb (String.eqb (fst p) t && String.eqb (cons_col (snd x)) c)) (p_cons (snd p))) db)
      then Some (mput t {| p_cols := filter (fun k => negb (String.eqb (p_name k) c)) (p_cols tb);
                           p_cons := filter (fun p => negb (String.eqb (cons_col (snd p)) c)) (p_cons tb) |} db)
      else None
  | None => None
  end.
Definition alter_col (db : pdb) (t c : string) (ok : pcol -> bool) (f : pcol -> pcol) : option pdb :=
  match mget t db with
  | Some tb => match pcol_at tb c with
               | Some k => if ok k then Some (mput t (set_col tb c f) db) else None
               | None => None
               end
  | None => None
  end.
Definition in_primary (db : pdb) (t c : string) : bool :=
  match mget t db with
  | Some tb => some_cons (fun x => match x with PKey c' => String.eqb c c' | _ => false end) tb
  | None => false
  end.

Definition pexec0 (db : pdb) (x : ddl) : option pdb :=
  match x with
  | CreateTable b t cs fs strict => pcreate db b t cs fs strict
  | DropTable t => pdrop db t
  | AddCol t c => padd_col db t c
  | DropCol t c => pdrop_col db t c
  | AddForeignKey t f => add_cons db t (PRef f)
  | AddPrimaryKey t c => add_cons db t (PKey c)
  | AddUnique t c => add_cons db t (PUnique c)
  | DropConstraint b t n => drop_cons db b t n
  (* serial is a way to declare a column, not a type *)
  | SetType t c ty => alter_col db t c (fun _ => negb (is_some (serial ty))) (set_type (map upper ty))
  | SetNotNull t c yes => alter_col db t c (fun _ => yes || negb (in_primary db t c)) (set_notnull yes)
  | SetDefault t c (Some l) => alter_col db t c (fun k => default_fits (p_type k) l) (set_default (default_of l))
  | SetDefault t c None => alter_col db t c (fun _ => true) (set_default None)
  | CopyTable _ _ _ | RenameTable _ _ | RenameCol _ _ _ => None   (* not told here *)
  end.
Definition pexec (db : pdb) (x : ddl) : option pdb := if allows db x then pexec0 db x else None.
Fixpoint prun (db : pdb) (xs : list ddl) : option pdb :=
  match xs with
  | [] => Some db
  | x :: r => match pexec db x with Some db' => prun db' r | None => None end
  end.
End Engine.
