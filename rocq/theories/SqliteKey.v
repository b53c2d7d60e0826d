(** The two queries about the row added last, in SQLite and in Turso.  Specification:
    written from SQLite's manual (lang_corefunc, lang_createtable, rowidtable), not from
    butane's source.

    Simplification: names of tables and columns are compared as they are written, except
    for the name of the row's number. *)
From Verif Require Import Base SqlVal Sql LiteralSpec Ddl Backend SqliteSem SqliteData.

Section Number.
Variable veq : lvalue -> lvalue -> bool.
Variable fresh : etab -> Z.

(** What last_insert_rowid() is after an INSERT that left the table [b'] of [b]: the
    number of the row added at the end. *)
Definition last_number (b b' : etab) : option Z :=
  match find rowid (b_cols b') with
  | Some k => match get (last (b_rows b') []) (k_name k) with Some (LInteger z) => Some z | _ => None end
  | None => Some (fresh b)
  end.

(** ROWID, in capital or small letters, is the row's number, but a column of that name
    hides it: "If a table contains a user defined column named rowid, oid or _rowid_, then
    that name always refers to the explicitly declared column". *)
Definition hides_number (k : ecol) : bool := String.eqb (upper (k_name k)) "ROWID".
Definition column_equals (k : ecol) (z : Z) (r : row) : bool :=
  match get r (k_name k) with Some v => veq v (LInteger z) | None => false end.
(** The rows with ROWID = [z], [z] being the number of the last row. *)
Definition by_number (b : etab) (z : Z) : list row :=
  match find hides_number (b_cols b) with
  | Some k => filter (column_equals k z) (b_rows b)
  | None => match find rowid (b_cols b) with
            | Some k => filter (column_equals k z) (b_rows b)
            | None => match b_rows b with [] => [] | _ => [last (b_rows b) []] end
            end
  end.
End Number.

(** ** Reading the queries *)
Definition p_last_call (ts : list tok) : option (list tok) :=
  match ts with
  | TWord w :: TLP :: TRP :: r => if String.eqb (upper w) "LAST_INSERT_ROWID" then Some r else None
  | _ => None
  end.
(** SELECT c FROM t WHERE ROWID = last_insert_rowid() *)
Definition parse_by_number (dl : dialect) (s : string) : option (string * string) :=
  match eat "SELECT" (tokens s) with None => None | Some r =>
  match p_name dl r with None => None | Some (c, r) =>
  match eat "FROM" r with None => None | Some r =>
  match p_name dl r with None => None | Some (t, r) =>
  match eat "WHERE" r with None => None | Some r =>
  match eat "ROWID" r with None => None | Some r =>
  match r with
  | TOp CEq :: r => match p_last_call r with Some [] => Some (c, t) | _ => None end
  | _ => None
  end end end end end end end.
(** SELECT last_insert_rowid() *)
Definition parse_last (s : string) : bool :=
  match eat "SELECT" (tokens s) with
  | Some r => match p_last_call r with Some [] => true | _ => false end
  | None => false
  end.
