(** Abstract schemas, their differences and type resolution.
    Models butane_core/src/migrations/adb.rs. *)
From Verif Require Import Base SqlVal.

(** adb.rs:46-49 *)
Inductive TypeIdentifier :=
| TyId (t : SqlType)
| TyName (n : string).
Definition typeid_eqb (a b : TypeIdentifier) : bool :=
  match a, b with
  | TyId x, TyId y => sqltype_eqb x y
  | TyName x, TyName y => String.eqb x y
  | _, _ => false
  end.
Lemma typeid_eqb_spec a b : reflect (a = b) (typeid_eqb a b).
Proof.
  destruct a as [x|x], b as [y|y]; cbn; try (constructor; congruence).
  - destruct (sqltype_eqb_spec x y); constructor; congruence.
  - destruct (String.eqb_spec x y); constructor; congruence.
Qed.

(** adb.rs:58-64 *)
Inductive TypeKey :=
| PK (t : string)
| CustomType (t : string).

(** [Ord for TypeKey], adb.rs:121-135 *)
Definition typekey_cmp (a b : TypeKey) : comparison :=
  match a, b with
  | PK s, PK t => String.compare s t
  | PK _, CustomType _ => Lt
  | CustomType _, PK _ => Gt
  | CustomType s, CustomType t => String.compare s t
  end.
Lemma typekey_cmp_eq a b : typekey_cmp a b = Eq <-> a = b.
Proof.
  destruct a, b; cbn; rewrite ?str_cmp_eq; split; congruence.
Qed.
Lemma typekey_cmp_anti a b : typekey_cmp b a = CompOpp (typekey_cmp a b).
Proof. destruct a, b; cbn; auto using str_cmp_anti. Qed.
Lemma typekey_cmp_trans a b c :
  typekey_cmp a b = Lt -> typekey_cmp b c = Lt -> typekey_cmp a c = Lt.
Proof. destruct a, b, c; cbn; try congruence; apply str_cmp_trans. Qed.
#[global] Instance typekey_ord : OrdKey TypeKey :=
  {| kcmp := typekey_cmp; kcmp_eq := typekey_cmp_eq;
     kcmp_antisym := typekey_cmp_anti; kcmp_trans := typekey_cmp_trans |}.

(** [Display for TypeKey], adb.rs:65-72 *)
Definition typekey_display (k : TypeKey) : string :=
  match k with
  | PK s => "PK(" ++ s ++ ")"
  | CustomType s => "CustomType(" ++ s ++ ")"
  end.
(** [Serialize for TypeKey], adb.rs:75-85 *)
Definition typekey_ser (k : TypeKey) : string :=
  match k with PK s => "PK:" ++ s | CustomType s => "CT:" ++ s end.

(** A byte that continues a UTF-8 sequence; [String::split_off(3)] panics when
    byte 3 is one (not a character boundary) or the string is shorter than 3. *)
Definition utf8_cont (c : ascii) : bool :=
  let n := N_of_ascii c in (128 <=? n)%N && (n <? 192)%N.
Definition split_off3 (s : string) : outcome string :=
  match s with
  | String _ (String _ (String _ rest)) =>
      match rest with
      | String c _ => if utf8_cont c then Panic else Ok rest
      | EmptyString => Ok rest
      end
  | _ => Panic
  end.
(** [TypeKeyVisitor::visit_str], adb.rs:102-114 *)
Definition typekey_de (v : string) : outcome TypeKey :=
  do rest <- split_off3 v;
  if starts_with v "PK:" then Ok (PK rest)
  else if starts_with v "CT:" then Ok (CustomType rest)
  else Err SerdeJson.

(** adb.rs:334-338 *)
Inductive DeferredSqlType :=
| Known (t : SqlType)
| KnownId (t : TypeIdentifier)
| Deferred (k : TypeKey).
(** [PartialEq for DeferredSqlType], adb.rs:358-373 *)
Definition dtype_eqb (a b : DeferredSqlType) : bool :=
  match a, b with
  | Known x, Known y => sqltype_eqb x y
  | KnownId x, KnownId y => typeid_eqb x y
  | Known x, KnownId y => typeid_eqb (TyId x) y
  | KnownId x, Known y => typeid_eqb x (TyId y)
  | Deferred x, Deferred y => keqb x y
  | _, _ => false
  end.
(** [is_known], adb.rs:349-355 *)
Definition is_known (d : DeferredSqlType) : bool :=
  match d with Known _ | KnownId _ => true | Deferred _ => false end.

(** adb.rs:382-396 *)
Record ARefLiteral := { rl_table : string; rl_column : string }.
Inductive ARef :=
| RefLiteral (l : ARefLiteral)
| RefDeferred (d : DeferredSqlType).
Definition aref_eqb (a b : ARef) : bool :=
  match a, b with
  | RefLiteral x, RefLiteral y =>
      String.eqb (rl_table x) (rl_table y) && String.eqb (rl_column x) (rl_column y)
  | RefDeferred x, RefDeferred y => dtype_eqb x y
  | _, _ => false
  end.

(** adb.rs:418-437 *)
Record AColumn := {
  c_name : string;
  c_type : DeferredSqlType;
  c_nullable : bool;
  c_pk : bool;
  c_auto : bool;
  c_unique : bool;
  c_default : option SqlVal;
  c_ref : option ARef }.

Definition opt_eqb {A} (f : A -> A -> bool) (a b : option A) : bool :=
  match a, b with
  | None, None => true
  | Some x, Some y => f x y
  | _, _ => false
  end.
(** derived [PartialEq for AColumn], adb.rs:417 *)
Definition acol_eqb (a b : AColumn) : bool :=
  String.eqb (c_name a) (c_name b) && dtype_eqb (c_type a) (c_type b)
  && Bool.eqb (c_nullable a) (c_nullable b) && Bool.eqb (c_pk a) (c_pk b)
  && Bool.eqb (c_auto a) (c_auto b) && Bool.eqb (c_unique a) (c_unique b)
  && opt_eqb sqlval_eqb (c_default a) (c_default b)
  && opt_eqb aref_eqb (c_ref a) (c_ref b).

(** adb.rs:463-465 *)
Definition acol_simple (name : string) (t : DeferredSqlType) : AColumn :=
  {| c_name := name; c_type := t; c_nullable := false; c_pk := false; c_auto := false;
     c_unique := false; c_default := None; c_ref := None |}.
Definition with_type (c : AColumn) (t : DeferredSqlType) : AColumn :=
  {| c_name := c_name c; c_type := t; c_nullable := c_nullable c; c_pk := c_pk c;
     c_auto := c_auto c; c_unique := c_unique c; c_default := c_default c; c_ref := c_ref c |}.
Definition with_ref (c : AColumn) (r : option ARef) : AColumn :=
  {| c_name := c_name c; c_type := c_type c; c_nullable := c_nullable c; c_pk := c_pk c;
     c_auto := c_auto c; c_unique := c_unique c; c_default := c_default c; c_ref := r |}.
(** [AColumn::typeid], adb.rs:494-500 *)
Definition typeid (c : AColumn) : outcome TypeIdentifier :=
  match c_type c with
  | KnownId t => Ok t
  | Known t => Ok (TyId t)
  | Deferred k => Err (UnknownSqlType (typekey_display k))
  end.

(** adb.rs:300-303 *)
Record ATable := { t_name : string; t_cols : list AColumn }.
(** [ATable::column] / [col_by_name], adb.rs:314-316, 649-651 *)
Definition col_by_name (cols : list AColumn) (n : string) : option AColumn :=
  find (fun c => String.eqb (c_name c) n) cols.
Arguments col_by_name : simpl never.
(** [ATable::replace_column] (and [add_column]), adb.rs:311-323 *)
Fixpoint replace_col (cols : list AColumn) (col : AColumn) : list AColumn :=
  match cols with
  | [] => [col]
  | c :: r => if String.eqb (c_name c) (c_name col) then col :: r
              else c :: replace_col r col
  end.
Definition replace_column (t : ATable) (col : AColumn) : ATable :=
  {| t_name := t_name t; t_cols := replace_col (t_cols t) col |}.
(** [ATable::remove_column], adb.rs:324-326 *)
Definition remove_column (t : ATable) (n : string) : ATable :=
  {| t_name := t_name t;
     t_cols := filter (fun c => negb (String.eqb (c_name c) n)) (t_cols t) |}.
(** [ATable::pk], adb.rs:327-329 *)
Definition table_pk (t : ATable) : option AColumn := find c_pk (t_cols t).

(** adb.rs:178-181 *)
Record ADB := { a_tables : smap string ATable; a_types : smap TypeKey DeferredSqlType }.
Definition adb_new : ADB := {| a_tables := []; a_types := [] |}.
(** adb.rs:192-206 *)
Definition get_table (d : ADB) (n : string) : option ATable := mget n (a_tables d).
Definition replace_table (d : ADB) (t : ATable) : ADB :=
  {| a_tables := mput (t_name t) t (a_tables d); a_types := a_types d |}.
Definition remove_table (d : ADB) (n : string) : ADB :=
  {| a_tables := mdel n (a_tables d); a_types := a_types d |}.
Definition add_type (d : ADB) (k : TypeKey) (t : DeferredSqlType) : ADB :=
  {| a_tables := a_tables d; a_types := mput k t (a_types d) |}.

(** adb.rs:585-603 *)
Inductive Operation :=
| AddTable (t : ATable)
| AddTableIfNotExists (t : ATable)
| RemoveTableConstraints (t : ATable)
| RemoveTable (n : string)
| AddColumn (t : string) (c : AColumn)
| RemoveColumn (t : string) (c : string)
| ChangeColumn (t : string) (old new : AColumn)
| AddTableConstraints (t : ATable).

(** [if let Some(t) = self.tables.get_mut(&table) { f(t) }]: the key stays. *)
Definition update_table (d : ADB) (n : string) (f : ATable -> ATable) : ADB :=
  match get_table d n with
  | Some t => {| a_tables := mput n (f t) (a_tables d); a_types := a_types d |}
  | None => d
  end.
(** [ADB::transform_with], adb.rs:267-295 *)
Definition transform_with (d : ADB) (op : Operation) : ADB :=
  match op with
  | AddTable t => replace_table d t
  | AddTableConstraints _ => d
  | AddTableIfNotExists t => replace_table d t
  | RemoveTable n => remove_table d n
  | RemoveTableConstraints _ => d
  | AddColumn t c => update_table d t (fun tb => replace_column tb c)
  | RemoveColumn t n => update_table d t (fun tb => remove_column tb n)
  | ChangeColumn t _ new => update_table d t (fun tb => replace_column tb new)
  end.
Definition transform_all (d : ADB) (ops : list Operation) : ADB :=
  fold_left transform_with ops d.

(** [Option::expect]/[unwrap] inside a loop pushing operations: a missing entry
    panics. *)
Definition expect {A} (o : option A) : outcome A :=
  match o with Some a => Ok a | None => Panic end.
Fixpoint omapm {A B} (f : A -> outcome B) (l : list A) : outcome (list B) :=
  match l with
  | [] => Ok []
  | x :: r => do y <- f x; do ys <- omapm f r; Ok (y :: ys)
  end.

(** [diff_table], adb.rs:653-691 *)
Definition diff_table (old new : ATable) : outcome (list Operation) :=
  let new_names := set_of_list (map c_name (t_cols new)) in
  let old_names := set_of_list (map c_name (t_cols old)) in
  do adds <- omapm (fun n => do c <- expect (col_by_name (t_cols new) n);
                             Ok (AddColumn (t_name new) c))
                   (sdiff new_names old_names);
  let removes := map (fun n => RemoveColumn (t_name old) n) (sdiff old_names new_names) in
  do changes <- omapm (fun n =>
                   do col <- expect (col_by_name (t_cols new) n);
                   do old_col <- expect (col_by_name (t_cols old) n);
                   Ok (if acol_eqb col old_col then []
                       else [ChangeColumn (t_name new) old_col col]))
                 (sinter new_names old_names);
  Ok (adds ++ removes ++ concat changes).

Definition has_ref (t : ATable) : bool :=
  existsb (fun c => match c_ref c with Some _ => true | None => false end) (t_cols t).

(** [diff], adb.rs:606-647 *)
Definition diff_out (old new : ADB) : outcome (list Operation) :=
  let new_names := mkeys (a_tables new) in
  let old_names := mkeys (a_tables old) in
  let new_tables := sdiff new_names old_names in
  let removed := sdiff old_names new_names in
  do added <- omapm (fun n => do t <- expect (get_table new n); Ok (AddTable t)) new_tables;
  do unconstrained <- omapm (fun n => do t <- expect (get_table old n);
                                      Ok (RemoveTableConstraints t)) removed;
  let drops := map RemoveTable removed in
  do changes <- omapm (fun n => do o <- expect (get_table old n);
                                do t <- expect (get_table new n);
                                diff_table o t) (sinter new_names old_names);
  do constraints <- omapm (fun n => do t <- expect (get_table new n);
                                    Ok (if has_ref t then [AddTableConstraints t] else []))
                          new_tables;
  Ok (added ++ unconstrained ++ drops ++ concat changes ++ concat constraints).

(** * Type resolution *)

(** adb.rs:18-37 *)
Definition map_type_names : list string :=
  ["HashMap"; "collections::HashMap"; "std::collections::HashMap";
   "BTreeMap"; "collections::BTreeMap"; "std::collections::BTreeMap"].
Definition string_tynames : list string := ["String"; "string::String"; "std::string::String"].
Definition json_map_prefixes : list string :=
  flat_map (fun m => map (fun s => (m ++ "<" ++ s ++ ",")%string) string_tynames) map_type_names.

(** [TypeResolver], adb.rs:137-174 (the [HashMap] is only looked up and inserted
    into, so its iteration order is irrelevant). *)
Definition Resolver := smap TypeKey TypeIdentifier.
Definition is_json_key (k : TypeKey) : bool :=
  match k with
  | CustomType ct => existsb (fun p => starts_with ct p) json_map_prefixes
  | PK _ => false
  end.
(** adb.rs:148-159 *)
Definition find_type (r : Resolver) (k : TypeKey) : option TypeIdentifier :=
  if is_json_key k then Some (TyId TJson) else mget k r.
(** adb.rs:160-170 *)
Definition res_insert (r : Resolver) (k : TypeKey) (t : TypeIdentifier) : bool * Resolver :=
  match mget k r with
  | Some _ => (false, r)
  | None => (true, mput k t r)
  end.

(** [DeferredSqlType::resolve] and [AColumn::resolve_type], adb.rs:340-348, 502-512 *)
Definition resolve_col (r : Resolver) (c : AColumn) : bool * AColumn :=
  match c_type c with
  | Known _ | KnownId _ => (false, c)
  | Deferred k => match find_type r k with
                  | Some t => (true, with_type c (KnownId t))
                  | None => (false, c)
                  end
  end.

(** [AColumn::resolve_reference_target], adb.rs:514-543 *)
Definition resolve_ref (extra : smap TypeKey DeferredSqlType) (tables : smap string ATable)
    (c : AColumn) : outcome AColumn :=
  match c_ref c with
  | None | Some (RefLiteral _) => Ok c
  | Some (RefDeferred (Deferred key)) =>
      do name <- match mget key extra with
                 | Some (Deferred (PK n)) => Ok n
                 | _ => match key with PK n => Ok n | CustomType _ => Panic end
                 end;
      match mget name tables with
      | Some tb => match table_pk tb with
                   | Some pk => Ok (with_ref c (Some (RefLiteral
                                   {| rl_table := name; rl_column := c_name pk |})))
                   | None => Ok c
                   end
      | None => Ok c
      end
  | Some (RefDeferred _) => Panic
  end.

Definition MANY_SUFFIX : string := "_Many".

(** The first loop of [resolve_types], adb.rs:213-218: references are resolved
    against a snapshot of the tables. *)
Definition resolve_refs_table extra snapshot (t : ATable) : outcome ATable :=
  do cols <- omapm (resolve_ref extra snapshot) (t_cols t);
  Ok {| t_name := t_name t; t_cols := cols |}.
Definition resolve_refs (d : ADB) : outcome (smap string ATable) :=
  omapm (fun p => do t <- resolve_refs_table (a_types d) (a_tables d) (snd p);
                  Ok (fst p, t)) (a_tables d).

(** Body of the loop over tables, adb.rs:223-236 *)
Definition pass_cols (r : Resolver) (cols : list AColumn) : bool * list AColumn :=
  let rs := map (resolve_col r) cols in
  (existsb fst rs, map snd rs).
Definition pass_table (r : Resolver) (t : ATable) : outcome (bool * Resolver * ATable) :=
  do p <- match table_pk t with
          | Some pk => match typeid pk with
                       | Ok ty => Ok (res_insert r (PK (t_name t)) ty)
                       | _ => Ok (false, r)
                       end
          | None => if ends_with (t_name t) MANY_SUFFIX then Ok (false, r) else Panic
          end;
  let '(ch1, r1) := p in
  let '(ch2, cols) := pass_cols r1 (t_cols t) in
  Ok (ch1 || ch2, r1, {| t_name := t_name t; t_cols := cols |}).
Fixpoint pass_tables (r : Resolver) (ts : smap string ATable)
    : outcome (bool * Resolver * smap string ATable) :=
  match ts with
  | [] => Ok (false, r, [])
  | (n, t) :: rest =>
      do p1 <- pass_table r t;
      let '(ch1, r1, t1) := p1 in
      do p2 <- pass_tables r1 rest;
      let '(ch2, r2, rest2) := p2 in
      Ok (ch1 || ch2, r2, (n, t1) :: rest2)
  end.
(** Body of the loop over extra types, adb.rs:237-252 *)
Fixpoint pass_types (r : Resolver) (ex : smap TypeKey DeferredSqlType)
    : bool * Resolver * smap TypeKey DeferredSqlType :=
  match ex with
  | [] => (false, r, [])
  | (k, ty) :: rest =>
      let '(ch1, r1, ty1) :=
        match ty with
        | Known t => let '(b, r') := res_insert r k (TyId t) in (b, r', ty)
        | KnownId t => let '(b, r') := res_insert r k t in (b, r', ty)
        | Deferred tk => match find_type r tk with
                         | Some t => (true, r, KnownId t)
                         | None => (false, r, ty)
                         end
        end in
      let '(ch2, r2, rest2) := pass_types r1 rest in
      (ch1 || ch2, r2, (k, ty1) :: rest2)
  end.

Definition pass (r : Resolver) (d : ADB) : outcome (bool * Resolver * ADB) :=
  do p <- pass_tables r (a_tables d);
  let '(ch1, r1, ts) := p in
  let '(ch2, r2, ex) := pass_types r1 (a_types d) in
  Ok (ch1 || ch2, r2, {| a_tables := ts; a_types := ex |}).

(** The [while changed] loop, adb.rs:220-253.  [None] means out of fuel. *)
Fixpoint resolve_loop (fuel : nat) (r : Resolver) (d : ADB) : option (outcome ADB) :=
  match fuel with
  | O => None
  | S n => match pass r d with
           | Ok (changed, r', d') => if changed then resolve_loop n r' d' else Some (Ok d')
           | Err e => Some (Err e)
           | Panic => Some Panic
           end
  end.

(** Verification pass, adb.rs:255-263 *)
Definition first_deferred (cols : list AColumn) : option TypeKey :=
  match find (fun c => negb (is_known (c_type c))) cols with
  | Some c => match c_type c with Deferred k => Some k | _ => None end
  | None => None
  end.
Definition verify_types (d : ADB) : outcome unit :=
  match first_deferred (flat_map t_cols (mvals (a_tables d))) with
  | Some k => Err (CannotResolveType (typekey_display k))
  | None => Ok tt
  end.

(** [ADB::resolve_types], adb.rs:209-264.  Returns the mutated schema together
    with the result; [None] means the loop ran out of the given fuel. *)
Definition resolve_types_fuel (fuel : nat) (d : ADB) : option (outcome (ADB * outcome unit)) :=
  match resolve_refs d with
  | Err e => Some (Err e)
  | Panic => Some Panic
  | Ok ts =>
      match resolve_loop fuel [] {| a_tables := ts; a_types := a_types d |} with
      | None => None
      | Some (Ok d') => Some (Ok (d', verify_types d'))
      | Some (Err e) => Some (Err e)
      | Some Panic => Some Panic
      end
  end.

(** An amount of fuel that always suffices ([resolve_types_terminates]):
    twice the number of tables, columns and extra types, plus one. *)
Definition resolve_bound (d : ADB) : nat :=
  S (length (a_tables d) + length (flat_map t_cols (mvals (a_tables d)))
     + 2 * length (a_types d)).
Definition resolve_types (d : ADB) : outcome (ADB * outcome unit) :=
  match resolve_types_fuel (resolve_bound d) d with
  | Some o => o
  | None => Panic
  end.

(** [create_many_table], adb.rs:552-580 *)
Definition create_many_table (main_table many_field : string) (many_type : DeferredSqlType)
    (main_pk : string) (main_pk_type : DeferredSqlType) : ATable :=
  let t0 := {| t_name := (main_table ++ "_" ++ many_field ++ MANY_SUFFIX)%string; t_cols := [] |} in
  let owner := {| c_name := "owner"; c_type := main_pk_type; c_nullable := false; c_pk := false;
                  c_auto := false; c_unique := false; c_default := None;
                  c_ref := Some (RefLiteral {| rl_table := main_table; rl_column := main_pk |}) |} in
  let t1 := replace_column t0 owner in
  let has := acol_simple "has" many_type in
  let has := match many_type with
             | Deferred (PK _) => with_ref has (Some (RefDeferred many_type))
             | _ => has
             end in
  replace_column t1 has.
