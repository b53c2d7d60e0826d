(** What can be stored in a migrations directory and read back: the conditions of C52,
    said of the values and not of the text. *)
From Verif Require Import Base SqlVal Time Query Json Adb Store FsStore JsonForm.

(** * JSON values *)

(** Nesting of arrays and objects. *)
Fixpoint jdepth (v : json) : nat :=
  match v with
  | JArr l => S (fold_right (fun x n => Nat.max (jdepth x) n) O l)
  | JObj l => S (fold_right (fun m n => Nat.max (jdepth (snd m)) n) O l)
  | _ => O
  end.
(** The integers a JSON number can be: those of [i64] and [u64]. *)
Definition int_ok (z : Z) : Prop := (- 2 ^ 63 <= z <= 2 ^ 64 - 1)%Z.
(** The members of every object are in order, as in a [BTreeMap]. *)
Fixpoint in_order (v : json) : Prop :=
  match v with
  | JArr l => fold_right (fun x P => in_order x /\ P) True l
  | JObj l => StronglySorted klt (map fst l) /\ fold_right (fun m P => in_order (snd m) /\ P) True l
  | _ => True
  end.

(** * Real numbers *)

(** A sign, the whole part, a point and [k] decimals. *)
Definition decimal_text (pos : bool) (a : Z) (k : nat) (f : Z) : string :=
  ((if pos then "" else "-") ++ dec a ++ "." ++ pad k f)%string.
(** The f64 of magnitude [r] with the sign: a negative one has the highest bit. *)
Definition with_sign (pos : bool) (r : f64) : f64 := if pos then r else (r + 2 ^ 63)%Z.
(** [|n/d - m * 2^e|], over [d * pow2_down e]. *)
Definition distance (n d m e : Z) : Z := Z.abs (n * pow2_down e - m * d * pow2_up e)%Z.
(** [m * 2^e] is no further from [n/d] than [m' * 2^e']. *)
Definition no_further (n d m e m' e' : Z) : Prop :=
  (distance n d m e * pow2_down e' <= distance n d m' e' * pow2_down e)%Z.

(** * PostgreSQL types *)

Fixpoint pg_nest (t : pgtype) : nat := match t with PgType _ _ k _ => S (kind_nest k) end
with kind_nest (k : pgkind) : nat :=
  match k with
  | PgSimple | PgEnum _ | PgPseudo => O
  | PgArray t | PgRange t | PgDomain t => pg_nest t
  | PgComposite l => fold_right (fun p n => Nat.max (pg_nest (snd p)) n) O l
  end.
(** Every oid is a 32-bit number. *)
Fixpoint pg_oids (t : pgtype) : Prop := match t with PgType _ o k _ => (0 <= o < 2 ^ 32)%Z /\ kind_oids k end
with kind_oids (k : pgkind) : Prop :=
  match k with
  | PgSimple | PgEnum _ | PgPseudo => True
  | PgArray t | PgRange t | PgDomain t => pg_oids t
  | PgComposite l => fold_right (fun p P => pg_oids (snd p) /\ P) True l
  end.

Section Storable.
  (** What is written for a real number, and the PostgreSQL type of a name. *)
  Variable show : f64 -> string.
  Variable pg_of : string -> pgtype.

  (** A real that is finite and whose text reads as the same real. *)
  Definition real_ok (r : f64) : Prop := f64_finite r = true /\ read_number (show r) = Some (JReal r, "").
  (** Numbers of a JSON value that can be written and read back. *)
  Fixpoint ok (v : json) : Prop :=
    match v with
    | JInt z => int_ok z
    | JReal r => real_ok r
    | JArr l => fold_right (fun x P => ok x /\ P) True l
    | JObj l => fold_right (fun m P => ok (snd m) /\ P) True l
    | _ => True
    end.

  (** The name stands for a type of that name, nested at most twenty deep. *)
  Definition storable_pg (n : string) : Prop :=
    pg_name (pg_of n) = n /\ pg_oids (pg_of n) /\ (pg_nest (pg_of n) <= 20)%nat.
  Definition storable_sqltype (t : SqlType) : Prop :=
    match t with TCustom n => storable_pg n | _ => True end.
  Definition storable_value (v : SqlVal) : Prop :=
    match v with
    | VInt i => (- 2 ^ 31 <= i <= 2 ^ 31 - 1)%Z
    | VBigInt i => (- 2 ^ 63 <= i <= 2 ^ 63 - 1)%Z
    | VReal r => real_ok r
    | VDate d => valid_date d = true
    | VTimestamp t => valid_timestamp t = true
    | VJson j => exists v, j = to_string show v /\ ok v /\ in_order v /\ (jdepth v <= 100)%nat
    | VCustom n _ => storable_pg n
    | VNull | VBool _ | VText _ | VBlob _ => True
    end.
  Definition storable_key (k : TypeKey) : Prop :=
    match k with PK s | CustomType s => utf8 s = true end.
  Definition storable_typeid (t : TypeIdentifier) : Prop :=
    match t with TyId t => storable_sqltype t | TyName _ => True end.
  Definition storable_dtype (t : DeferredSqlType) : Prop :=
    match t with Known t => storable_sqltype t | KnownId t => storable_typeid t | Deferred k => storable_key k end.
  Definition storable_ref (r : ARef) : Prop :=
    match r with RefLiteral _ => True | RefDeferred t => storable_dtype t end.
  Definition storable_column (c : AColumn) : Prop :=
    storable_dtype (c_type c)
    /\ match c_default c with Some v => storable_value v | None => True end
    /\ match c_ref c with Some r => storable_ref r | None => True end.
  Definition storable_table (t : ATable) : Prop := Forall storable_column (t_cols t).
  Definition storable_types (m : smap TypeKey DeferredSqlType) : Prop :=
    msorted m /\ Forall (fun p => storable_key (fst p) /\ storable_dtype (snd p)) m.
  Definition storable_info (i : Info) : Prop := msorted (in_bases i).
  Definition storable_adb (a : ADB) : Prop :=
    msorted (a_tables a) /\ Forall (fun p => storable_table (snd p)) (a_tables a) /\ storable_types (a_types a).
  Definition storable_migration (m : MemMigration) : Prop :=
    storable_adb (mm_db m) /\ msorted (mm_up m) /\ msorted (mm_down m).
  Definition storable_store (s : MemStore) : Prop :=
    msorted (ms_migs s) /\ Forall (fun p => storable_migration (snd p)) (ms_migs s)
    /\ storable_migration (ms_current s).
  Definition storable (f : file) : Prop :=
    match f with
    | FInfo i => storable_info i
    | FTable t => storable_table t
    | FTypes ts => storable_types ts
    | FState _ | FSql _ | FTorn _ => True
    end.
  (** The file's content read as what it holds. *)
  Definition reads_as (s : string) (f : file) : Prop :=
    match f with
    | FInfo i => info_of_text s = Ok i
    | FTable t => table_of_text show s = Ok t
    | FTypes ts => types_of_text s = Ok ts
    | FState l => state_of_text s = Ok l
    | FSql q | FTorn q => s = q
    end.
End Storable.
