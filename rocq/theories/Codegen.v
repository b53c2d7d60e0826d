(** What the model macros generate from a struct definition.
    Models butane_core/src/codegen/mod.rs:280-420, 430-647,
    butane_core/src/codegen/dbobj.rs and butane_core/src/codegen/migration.rs.
    A panic of the macro is [Panic]; a generated [compile_error!] is an [Err]. *)
From Verif Require Import Base SqlVal Adb Conv.

(** * Syntax *)

(** A type as written (syn::Type).  Simplified: generic arguments only on the
    last segment of a path; token text without spaces for anything else. *)
Inductive ty :=
| TPath (lead : bool) (quals : list string) (name : string) (args : option (list garg))
| TOther (text : string)
with garg :=
| GType (t : ty)
| GOther (text : string).

(** Literals in attributes (syn::Lit).  An integer or float literal is its value. *)
Inductive lit :=
| LitStr (s : string) | LitByteStr (s : string) | LitByte | LitChar
| LitInt (z : Z) | LitFloat (r : f64) | LitBool (b : bool) | LitVerbatim | LitOther.

Inductive fattr :=
| AttrPk
| AttrUnique
| AttrDefault (value : option lit)   (** [None]: not [default = literal] *)
| AttrField (name : string).
Record sfield := { sf_ident : string; sf_ty : ty; sf_attrs : list fattr }.

Inductive sattr :=
| AttrTable (name : string)
| AttrStruct (text : string).
Record sdef := { st_ident : string; st_attrs : list sattr; st_fields : list sfield }.

(** desynt's StripRaw on an identifier. *)
Definition strip_raw (s : string) : string :=
  if String.prefix "r#" s then String.substring 2 (String.length s - 2) s else s.

Fixpoint strip_ty (t : ty) : ty :=
  match t with
  | TPath lead quals name args =>
      TPath lead (map strip_raw quals) (strip_raw name)
        (match args with
         | None => None
         | Some l => Some (map (fun g => match g with GType t => GType (strip_ty t) | GOther s => GOther s end) l)
         end)
  | TOther s => TOther s
  end.

(** [into_token_stream().to_string().replace(' ', "")] *)
Fixpoint ty_text (t : ty) : string :=
  match t with
  | TPath lead quals name args =>
      ((if lead then "::" else "") ++ join "::" (quals ++ [name])
       ++ match args with
          | None => ""
          | Some l => "<" ++ join "," (map (fun g => match g with GType t => ty_text t | GOther s => s end) l) ++ ">"
          end)%string
  | TOther s => s
  end.

(** * Types *)

Section Resolver.
(** desynt's [PathResolver::resolve] on [PATH_MAPPINGS], mod.rs:45-83: the short
    name of a path.  The crate is not part of the repository, so any resolver is
    allowed; what the theorems need of it is said where it is needed. *)
Variable resolve : bool -> list string -> string -> option string.

(** mod.rs:432-463.  A type that is not a path has no argument. *)
Definition type_argument (t : ty) (tyname : string) : outcome (option ty) :=
  match t with
  | TPath lead quals name args =>
      match resolve lead quals name with
      | None => Ok None
      | Some r =>
          if String.eqb r tyname then
            match args with
            | None => Ok None
            | Some [GType (TPath a b c d)] => Ok (Some (TPath a b c d))
            | Some _ => Panic
            end
          else Ok None
      end
  | TOther _ => Ok None
  end.
(** mod.rs:378-389 *)
Definition extract_path (t : ty) : outcome ty :=
  match t with TPath _ _ _ _ => Ok t | TOther _ => Panic end.
(** The identifier of a path's last segment. *)
Definition last_ident (t : ty) : string :=
  match t with TPath _ _ name _ => name | TOther s => s end.

(** mod.rs:465-478 *)
Definition foreign_sql_type (t : ty) (tyname : string) : outcome (option DeferredSqlType) :=
  do a <- type_argument t tyname;
  Ok (match a with Some p => Some (Deferred (PK (strip_raw (last_ident p)))) | None => None end).

Definition some_known (t : SqlType) : option DeferredSqlType := Some (KnownId (TyId t)).

(** mod.rs:598-604: the last type argument's last identifier. *)
Definition template_type (args : option (list garg)) : string :=
  match args with
  | Some l => match last l (GOther "") with GType (TPath _ _ n _) => n | _ => "" end
  | None => ""
  end.

(** mod.rs:517-596, with features json, uuid and datetime. *)
Definition primitive_sql_type (t : ty) : option DeferredSqlType :=
  match strip_ty t with
  | TOther _ => None
  | TPath lead quals name args =>
      let bare := negb lead && match quals with [] => true | _ => false end in
      let plain := match args with None => true | Some _ => false end in
      let under (m : list string) := if list_eq_dec string_dec quals m then true else false in
      let is n := bare && plain && String.eqb name n in
      if is "bool" then some_known TBool
      else if is "u8" || is "i8" || is "u16" || is "i16" || is "i32" then some_known TInt
      else if is "u32" || is "i64" then some_known TBigInt
      else if is "f32" || is "f64" then some_known TReal
      else if is "String" || (under ["std"; "string"] && plain && String.eqb name "String") then some_known TText
      else if (bare || under ["std"; "vec"]) && String.eqb name "Vec"
              && match args with Some [GType (TPath false [] "u8" None)] => true | _ => false end
      then some_known TBlob
      else if is "Value" || (negb lead && under ["serde_json"] && plain && String.eqb name "Value") then some_known TJson
      else if is "Uuid" || (negb lead && under ["uuid"] && plain && String.eqb name "Uuid") then some_known TBlob
      else if String.eqb name "NaiveDateTime" then some_known TTimestamp
      else if String.eqb name "DateTime" && String.eqb (template_type args) "Utc" then some_known TTimestamp
      else if String.eqb name "NaiveDate" then some_known TDate
      else None
  end.

(** mod.rs:480-495 with get_option_sql_type 391-393 and get_autopk_sql_type
    408-410.  The argument is matched in place so that the recursion is
    structural; [deferred_unfold] in CodegenProofs.v gives the equation of the
    source.  A type that is not a path panics (extract_path_from_type). *)
Fixpoint deferred_sql_type (t : ty) : outcome DeferredSqlType :=
  match t with
  | TOther _ => Panic
  | TPath lead quals name args =>
      match primitive_sql_type t with
      | Some d => Ok d
      | None =>
          let custom := Ok (Deferred (CustomType (ty_text (strip_ty t)))) in
          match resolve lead quals name, args with
          | Some r, Some l =>
              if String.eqb r "Option" || String.eqb r "AutoPk" then
                match l with
                | [GType (TPath a b c d as t')] => deferred_sql_type t'
                | _ => Panic
                end
              else if String.eqb r "ForeignKey" then
                match l with
                | [GType (TPath _ _ c _)] => Ok (Deferred (PK (strip_raw c)))
                | _ => Panic
                end
              else custom
          | _, _ => custom
          end
      end
  end.

(** mod.rs:395-428 *)
Definition foreign_key_sql_type (t : ty) : outcome (option DeferredSqlType) :=
  do o <- type_argument t "Option";
  match o with
  | Some inner => foreign_sql_type inner "ForeignKey"
  | None => do p <- extract_path t; foreign_sql_type p "ForeignKey"
  end.
Definition many_sql_type (t : ty) : outcome (option DeferredSqlType) :=
  do p <- extract_path t; foreign_sql_type p "Many".
Definition is_some {A} (o : option A) : bool := match o with Some _ => true | None => false end.
Definition is_auto (f : sfield) : outcome bool := omap is_some (type_argument (sf_ty f) "AutoPk").
Definition is_option (f : sfield) : outcome bool := omap is_some (type_argument (sf_ty f) "Option").
Definition is_many (f : sfield) : outcome bool := omap is_some (many_sql_type (sf_ty f)).
Definition is_foreign_key (f : sfield) : outcome bool := omap is_some (foreign_key_sql_type (sf_ty f)).
Definition is_row_field (f : sfield) : outcome bool := omap negb (is_many f).
Definition is_unique (f : sfield) : bool :=
  existsb (fun a => match a with AttrUnique => true | _ => false end) (sf_attrs f).

(** mod.rs:350-361 *)
Definition has_pk_attr (f : sfield) : bool :=
  existsb (fun a => match a with AttrPk => true | _ => false end) (sf_attrs f).
Definition pk_field (s : sdef) : option sfield :=
  match find has_pk_attr (st_fields s) with
  | Some f => Some f
  | None => find (fun f => String.eqb (sf_ident f) "id") (st_fields s)
  end.

(** mod.rs:307-325: the last [#[table = "..."]] wins. *)
Definition config_table (s : sdef) : option string :=
  fold_left (fun acc a => match a with AttrTable n => Some n | _ => acc end) (st_attrs s) None.

(** [f == &pk_field]: derived equality of syn::Field compares attributes,
    identifier and type.  Simplified to the identifier, since the compiler
    rejects a struct with two fields of the same name. *)
Definition same_field (a b : sfield) : bool := String.eqb (sf_ident a) (sf_ident b).

(** mod.rs:497-515, 633-647.  base10_parse().unwrap() panics for an integer
    outside i32; the callers [expect] the result, so an error panics too. *)
Definition sqlval_from_lit (l : lit) : outcome SqlVal :=
  match l with
  | LitStr s => Ok (VText s)
  | LitByteStr s => Ok (VBlob s)
  | LitInt z => if Z.leb (- 2 ^ 31) z && Z.ltb z (2 ^ 31) then Ok (VInt z) else Panic
  | LitFloat r => Ok (VReal r)
  | LitBool b => Ok (VBool b)
  | LitByte | LitChar | LitVerbatim | LitOther => Panic
  end.
Definition get_default (f : sfield) : outcome (option SqlVal) :=
  match find (fun a => match a with AttrDefault _ => true | _ => false end) (sf_attrs f) with
  | Some (AttrDefault (Some l)) => do v <- sqlval_from_lit l; Ok (Some v)
  | Some _ => Panic
  | None => Ok None
  end.

Fixpoint filterm {A} (f : A -> outcome bool) (l : list A) : outcome (list A) :=
  match l with
  | [] => Ok []
  | x :: r => do b <- f x; do ys <- filterm f r; Ok (if b then x :: ys else ys)
  end.
Definition andm (a : outcome bool) (b : outcome bool) : outcome bool :=
  do x <- a; if x then b else Ok false.
Definition notm (a : outcome bool) : outcome bool := omap negb a.

(** * The recorded tables, migration.rs *)

(** migration.rs:35-40 and dbobj.rs:224-229 *)
Definition table_name (s : sdef) : string :=
  match config_table s with Some n => n | None => strip_raw (st_ident s) end.

(** migration.rs:76-101 *)
Definition many_table (main : string) (f pk : sfield) : outcome ATable :=
  do t <- many_sql_type (sf_ty f);
  do t <- expect t;
  do p <- extract_path (sf_ty pk);
  do pt <- deferred_sql_type p;
  Ok (create_many_table main (strip_raw (sf_ident f)) t (strip_raw (sf_ident pk)) pt).

(** migration.rs:51-67 *)
Definition field_column (f pk : sfield) : outcome AColumn :=
  do p <- extract_path (sf_ty f);
  do d <- deferred_sql_type p;
  do nullable <- is_option f;
  do auto <- is_auto f;
  do dflt <- get_default f;
  do fk <- is_foreign_key f;
  Ok {| c_name := strip_raw (sf_ident f); c_type := d; c_nullable := nullable;
        c_pk := same_field f pk; c_auto := auto; c_unique := is_unique f; c_default := dflt;
        c_ref := if fk then Some (RefDeferred d) else None |}.

(** migration.rs:44-71: the main table so far and the many tables so far. *)
Fixpoint atables_loop (pk : sfield) (fs : list sfield) (t : ATable) (many : list ATable)
  : outcome (ATable * list ATable) :=
  match fs with
  | [] => Ok (t, many)
  | f :: r =>
      do row <- is_row_field f;
      if row then
        do c <- field_column f pk;
        atables_loop pk r (replace_column t c) many
      else
        do mt <- many_table (t_name t) f pk;
        atables_loop pk r t (many ++ [mt])
  end.
Definition create_atables (s : sdef) : outcome (list ATable) :=
  do pk <- expect (pk_field s);
  do r <- atables_loop pk (st_fields s) {| t_name := table_name s; t_cols := [] |} [];
  Ok (fst r :: snd r).
(** migration.rs:24-30: the type recorded for a renamed table. *)
Definition recorded_types (s : sdef) : list (TypeKey * DeferredSqlType) :=
  match config_table s with
  | Some n => [(PK (strip_raw (st_ident s)), Deferred (PK n))]
  | None => []
  end.

(** * The generated code, dbobj.rs *)

(** One entry of the struct expression in [from_row]. *)
Inductive rowexpr :=
| ReadColumn (i : nat) (t : ty)
| NewMany.
(** A generated method of the [Fields] struct. *)
Inductive fieldexpr :=
| ColumnExpr (column : string) (t : ty)
| ManyExpr (table : string) (t : ty).

Record dataresult := {
  dr_columns : list (string * ty);        (* COLUMNS: name and the type whose SQLTYPE it has *)
  dr_len : nat;                           (* the row length from_row requires *)
  dr_rows : list (string * rowexpr);      (* the struct expression *)
  dr_many : list (string * string) }.     (* ensure_init calls: field and table *)
Record dbobject := {
  do_result : dataresult;
  do_table : string;                      (* TABLE *)
  do_pkcol : string;                      (* PKCOL *)
  do_pk : sfield;                         (* the field pk() returns *)
  do_auto : bool;                         (* AUTO_PK *)
  do_insert : list (string * ty);         (* NON_AUTO_COLUMNS *)
  do_values : list sfield;                (* pushed by non_auto_values(true) *)
  do_values_no_pk : list sfield;          (* pushed by non_auto_values(false) *)
  do_save_many : list (string * string);  (* save_many_to_many: field and table *)
  do_fields : list (string * fieldexpr) }.

(** dbobj.rs:351-371 *)
Definition columns (s : sdef) (p : sfield -> outcome bool) : outcome (list (string * ty)) :=
  do fs <- filterm (fun f => andm (is_row_field f) (p f)) (st_fields s);
  Ok (map (fun f => (strip_raw (sf_ident f), sf_ty f)) fs).
(** dbobj.rs:418-429 *)
Definition push_values (s : sdef) (p : sfield -> bool) : outcome (list sfield) :=
  filterm (fun f => andm (is_row_field f) (andm (notm (is_auto f)) (Ok (p f)))) (st_fields s).
(** dbobj.rs:325-349 *)
Fixpoint rows_for_from (fs : list sfield) (i : nat) : outcome (list (string * rowexpr)) :=
  match fs with
  | [] => Ok []
  | f :: r =>
      do row <- is_row_field f;
      if row then do rs <- rows_for_from r (S i); Ok ((sf_ident f, ReadColumn i (sf_ty f)) :: rs)
      else do rs <- rows_for_from r i; Ok ((sf_ident f, NewMany) :: rs)
  end.
(** dbobj.rs:373-384 *)
Definition many_table_lit (s : sdef) (f : sfield) : string :=
  ((match config_table s with Some n => n | None => strip_raw (st_ident s) end)
   ++ "_" ++ strip_raw (sf_ident f) ++ MANY_SUFFIX)%string.
(** dbobj.rs:162-178, 431-459 *)
Definition many_fields (s : sdef) : outcome (list (string * string)) :=
  do fs <- filterm is_many (st_fields s);
  Ok (map (fun f => (sf_ident f, many_table_lit s f)) fs).
(** dbobj.rs:158-222 *)
Definition impl_dataresult (s : sdef) : outcome dataresult :=
  do n <- filterm is_row_field (st_fields s);
  do rows <- rows_for_from (st_fields s) 0;
  do cols <- columns s (fun _ => Ok true);
  do many <- many_fields s;
  Ok {| dr_columns := cols; dr_len := length n; dr_rows := rows; dr_many := many |}.

(** dbobj.rs:386-413 *)
Fixpoint verify_auto (pk : sfield) (fs : list sfield) : outcome unit :=
  match fs with
  | [] => Ok tt
  | f :: r =>
      do a <- is_auto f;
      if a then
        do p <- extract_path (sf_ty f);
        do arg <- type_argument p "AutoPk";
        do d <- match arg with Some t => deferred_sql_type t | None => Err (Internal "compile_error") end;
        match d with
        | KnownId (TyId TInt) | KnownId (TyId TBigInt) =>
            if same_field f pk then verify_auto pk r else Err (Internal "compile_error")
        | _ => Err (Internal "compile_error")
        end
      else verify_auto pk r
  end.
Definition verify_fields (s : sdef) : outcome sfield :=
  match pk_field s with
  | None => Err (Internal "compile_error")
  | Some pk => do _ <- verify_auto pk (st_fields s); Ok pk
  end.

(** dbobj.rs:233-309 *)
Definition field_expr (s : sdef) (f : sfield) : outcome (string * fieldexpr) :=
  do m <- is_many f;
  if m then
    do a <- type_argument (sf_ty f) "Many";
    do a <- expect a;
    Ok (sf_ident f, ManyExpr (many_table_lit s f) a)
  else Ok (sf_ident f, ColumnExpr (strip_raw (sf_ident f)) (sf_ty f)).

(** dbobj.rs:21-155 and mod.rs:91-104 *)
Definition impl_dbobject (s : sdef) : outcome dbobject :=
  do pk <- verify_fields s;
  do auto <- is_auto pk;
  do values <- push_values s (fun _ => true);
  do values_no_pk <- push_values s (fun f => negb (same_field f pk));
  do insert <- columns s (fun f => notm (is_auto f));
  do save_many <- many_fields s;
  do res <- impl_dataresult s;
  do fe <- omapm (field_expr s) (st_fields s);
  Ok {| do_result := res; do_table := table_name s; do_pkcol := strip_raw (sf_ident pk);
        do_pk := pk; do_auto := auto; do_insert := insert; do_values := values;
        do_values_no_pk := values_no_pk; do_save_many := save_many; do_fields := fe |}.

(** mod.rs:91-104: the tables are recorded before the code is generated. *)
Definition model_macro (s : sdef) : outcome (list ATable * list (TypeKey * DeferredSqlType) * dbobject) :=
  do ts <- create_atables s;
  do o <- impl_dbobject s;
  Ok (ts, recorded_types s, o).
End Resolver.

(** * Running the generated code *)

Section Run.
(** The values of the model's field types: [FieldType::SQLTYPE], [ToSql] and
    [FromSql] of the type as the compiler understands it. *)
Record codec (U : Type) := {
  cd_type : SqlType;
  cd_to : U -> outcome SqlVal;
  cd_from : SqlVal -> outcome U }.
Context {U M : Type}.
Variable sem : ty -> codec U.
(** [Many::new] and [Many::ensure_init]. *)
Variable many_new : M.
Variable many_init : M -> string -> SqlVal -> SqlType -> M.

(** A field's value and an object: its fields by identifier. *)
Inductive fval := FV (u : U) | FM (m : M).
Definition object := list (string * fval).
Definition obj_get (o : object) (n : string) : option fval :=
  match find (fun p => String.eqb (fst p) n) o with Some (_, v) => Some v | None => None end.
Fixpoint obj_set (o : object) (n : string) (v : fval) : object :=
  match o with
  | [] => []
  | (k, x) :: r => if String.eqb k n then (k, v) :: r else (k, x) :: obj_set r n v
  end.

(** [ToSql::to_sql_ref(&self.#ident)].  The compiler guarantees that the field
    exists and is not a [Many]. *)
Definition field_sql (o : object) (f : sfield) : outcome SqlVal :=
  match obj_get o (sf_ident f) with
  | Some (FV u) => cd_to _ (sem (sf_ty f)) u
  | _ => Panic
  end.
(** dbobj.rs:50-72 *)
Definition non_auto_values (g : dbobject) (o : object) (include_pk : bool) : outcome (list SqlVal) :=
  match do_values g with
  | [] => Ok []
  | _ => omapm (field_sql o) (if include_pk then do_values g else do_values_no_pk g)
  end.

(** A row as the backend presents it (BackendRow). *)
Record brow := { br_len : nat; br_get : nat -> SqlType -> outcome SqlVal }.

Definition read_field (row : brow) (e : string * rowexpr) : outcome (string * fval) :=
  match snd e with
  | ReadColumn i t =>
      do v <- br_get row i (cd_type _ (sem t));
      do u <- cd_from _ (sem t) v;
      Ok (fst e, FV u)
  | NewMany => Ok (fst e, FM many_new)
  end.
(** [obj.#ident.ensure_init(table, obj.pk().to_sql(), PKType::SQLTYPE)] *)
Definition init_many (pk : sfield) (o : object) (e : string * string) : outcome object :=
  match obj_get o (fst e) with
  | Some (FM m) =>
      do owner <- field_sql o pk;
      Ok (obj_set o (fst e) (FM (many_init m (snd e) owner (cd_type _ (sem (sf_ty pk))))))
  | _ => Panic
  end.
Fixpoint init_manys (pk : sfield) (o : object) (l : list (string * string)) : outcome object :=
  match l with
  | [] => Ok o
  | e :: r => do o' <- init_many pk o e; init_manys pk o' r
  end.
(** dbobj.rs:180-213 *)
Definition from_row (d : dataresult) (pk : sfield) (row : brow) : outcome object :=
  if Nat.eqb (br_len row) (dr_len d) then
    do o <- omapm (read_field row) (dr_rows d);
    init_manys pk o (dr_many d)
  else Err BoundsError.
End Run.

(** * Derived field types, butane_codegen/src/lib.rs:289-478 *)

(** How the derived item looks: a tuple struct with its field types, another
    struct or union, or an enum with its variants and whether each has no fields. *)
Inductive item :=
| ITuple (fields : list ty)
| IStruct
| IEnum (variants : list (string * bool)).
Inductive derived :=
| DNewtype (inner : ty) (t : SqlType)
| DEnum (variants : list string)
| DJson.
(** lib.rs:289-318, 357-366 *)
Definition derive_field_type (i : item) : outcome derived :=
  match i with
  | ITuple [t] =>
      do p <- extract_path t;
      match primitive_sql_type p with
      | Some (KnownId (TyId k)) => Ok (DNewtype t k)
      | _ => Ok DJson
      end
  | ITuple _ | IStruct => Ok DJson
  | IEnum vs => if existsb (fun v => negb (snd v)) vs then Ok DJson else Ok (DEnum (map fst vs))
  end.
(** The type recorded for it: add_custom_type(ident.to_string(), ...), lib.rs:320-328,
    368-375, 438-447. *)
Definition derived_type (d : derived) : SqlType :=
  match d with DNewtype _ k => k | DEnum _ => TText | DJson => TJson end.
Definition derived_record (ident : string) (d : derived) : TypeKey * DeferredSqlType :=
  (CustomType ident, KnownId (TyId (derived_type d))).

(** A value of a simple enum is its variant's identifier; lib.rs:377-436. *)
Fixpoint enum_to_sql (vs : list string) (v : string) : outcome SqlVal :=
  match vs with
  | [] => Panic
  | a :: r => if String.eqb a v then Ok (VText (strip_raw a)) else enum_to_sql r v
  end.
Fixpoint enum_from_text (vs : list string) (s : string) : outcome string :=
  match vs with
  | [] => Err (UnknownEnumVariant s)
  | a :: r => if String.eqb (strip_raw a) s then Ok a else enum_from_text r s
  end.
Definition enum_from_sql (vs : list string) (v : SqlVal) : outcome string :=
  match v with VText s => enum_from_text vs s | _ => Err CannotConvertSqlVal end.
Definition enum_codec (vs : list string) : codec string :=
  {| cd_type := TText; cd_to := enum_to_sql vs; cd_from := enum_from_sql vs |}.

(** A newtype converts like its only field; lib.rs:330-355. *)
Definition newtype_codec {U} (k : SqlType) (inner : codec U) : codec U :=
  {| cd_type := k; cd_to := cd_to _ inner; cd_from := cd_from _ inner |}.

(** Any other type goes through serde: [to_value(self).unwrap()] and
    [deserialize(v).unwrap()]; lib.rs:438-478. *)
Definition json_codec {T} (ser : T -> option string) (de : string -> option T) : codec T :=
  {| cd_type := TJson;
     cd_to := fun x => match ser x with Some j => Ok (VJson j) | None => Panic end;
     cd_from := fun v => match v with
                         | VJson j => match de j with Some x => Ok x | None => Panic end
                         | _ => Err CannotConvertSqlVal
                         end |}.

(** * The field types of Conv.v as codecs *)
Definition rvalue : Type := { r : rty & rust r }.
Definition rty_codec (r : rty) : codec rvalue :=
  {| cd_type := rsqltype r;
     cd_to := fun u => to_sql (projT1 u) (projT2 u);
     cd_from := fun v => omap (existT rust r) (from_sql r v) |}.
