(** What a model definition means.  Specification only: nothing here refers to
    the generated code. *)
From Verif Require Import Base SqlVal Adb Conv Codegen.

Section Spec.
Variable resolve : bool -> list string -> string -> option string.

(** The type is [W<A>], where [W] is known under the name [w]. *)
Definition wraps (w : string) (t a : ty) : Prop :=
  exists lead quals name,
    t = TPath lead quals name (Some [GType a]) /\ resolve lead quals name = Some w
    /\ (exists l q n g, a = TPath l q n g).
Definition wrapped (w : string) (t : ty) : bool :=
  match t with
  | TPath lead quals name (Some [GType (TPath _ _ _ _)]) =>
      match resolve lead quals name with Some r => String.eqb r w | None => false end
  | _ => false
  end.

(** The fields stored in the model's own table, in the order of the struct,
    and the many-to-many fields. *)
Definition many_like (f : sfield) : bool := wrapped "Many" (sf_ty f).
Definition auto_like (f : sfield) : bool := wrapped "AutoPk" (sf_ty f).
Definition row_fields (s : sdef) : list sfield := filter (fun f => negb (many_like f)) (st_fields s).
Definition relation_fields (s : sdef) : list sfield := filter many_like (st_fields s).

(** The fields whose values are written when a row is inserted. *)
Definition written_fields (s : sdef) : list sfield := filter (fun f => negb (auto_like f)) (row_fields s).

(** The column of a field: its name without [r#], and its type. *)
Definition column_of (f : sfield) : string * ty := (strip_raw (sf_ident f), sf_ty f).

(** The key field: the first one marked [#[pk]], or the one named [id]. *)
Definition key_field (s : sdef) (pk : sfield) : Prop :=
  In pk (st_fields s) /\
  ((exists l r, st_fields s = l ++ pk :: r /\ In AttrPk (sf_attrs pk)
                /\ forall f, In f l -> ~ In AttrPk (sf_attrs f))
   \/ (sf_ident pk = "id" /\ forall f, In f (st_fields s) -> ~ In AttrPk (sf_attrs f))).

(** The compiler accepts the struct: no two fields have the same name, and the
    type of the key is not a many-to-many relation. *)
Definition compiles (s : sdef) : Prop :=
  NoDup (map (fun f => strip_raw (sf_ident f)) (st_fields s))
  /\ forall pk, key_field s pk -> many_like pk = false.

(** The name of a model's table: the last [table] attribute, or the struct's name. *)
Inductive table_of (s : sdef) : string -> Prop :=
| table_attr a b n : st_attrs s = a ++ AttrTable n :: b ->
    (forall m, ~ In (AttrTable m) b) -> table_of s n
| table_ident : (forall m, ~ In (AttrTable m) (st_attrs s)) -> table_of s (strip_raw (st_ident s)).

(** The value stored for a field of an object. *)
Definition stores {U M} (sem : ty -> codec U) (o : @object U M) (f : sfield) (v : SqlVal) : Prop :=
  exists u, obj_get o (sf_ident f) = Some (FV u) /\ cd_to _ (sem (sf_ty f)) u = Ok v.

(** The default given by the first [default] attribute. *)
Inductive default_of (f : sfield) : option SqlVal -> Prop :=
| no_default : (forall l, ~ In (AttrDefault l) (sf_attrs f)) -> default_of f None
| some_default a b l v : sf_attrs f = a ++ AttrDefault (Some l) :: b ->
    (forall m, ~ In (AttrDefault m) a) ->
    match l with
    | LitStr s => v = VText s
    | LitByteStr s => v = VBlob s
    | LitInt z => v = VInt z /\ (- 2 ^ 31 <= z < 2 ^ 31)%Z
    | LitFloat r => v = VReal r
    | LitBool b => v = VBool b
    | _ => False
    end -> default_of f (Some v).

(** A field is a foreign key when its type is [ForeignKey<A>] or
    [Option<ForeignKey<A>>]. *)
Definition refers (t : ty) (a : ty) : Prop :=
  wraps "ForeignKey" t a \/ exists t', wraps "Option" t t' /\ wraps "ForeignKey" t' a.

(** The column recorded for a field. *)
Record recorded (pk f : sfield) (c : AColumn) : Prop := {
  rec_name : c_name c = strip_raw (sf_ident f);
  rec_nullable : c_nullable c = true <-> exists a, wraps "Option" (sf_ty f) a;
  rec_pk : c_pk c = true <-> f = pk;
  rec_auto : c_auto c = true <-> exists a, wraps "AutoPk" (sf_ty f) a;
  rec_unique : c_unique c = true <-> In AttrUnique (sf_attrs f);
  rec_default : default_of f (c_default c);
  rec_ref : match c_ref c with
            | Some r => r = RefDeferred (c_type c) /\ exists a, refers (sf_ty f) a
            | None => forall a, ~ refers (sf_ty f) a
            end }.

(** The usual spellings of the field types that do not depend on a model. *)
Definition bare (n : string) : ty := TPath false [] n None.
Inductive spells : ty -> rty -> Prop :=
| sp_bool : spells (bare "bool") RBool
| sp_i8 : spells (bare "i8") (RInt I8)
| sp_i16 : spells (bare "i16") (RInt I16)
| sp_i32 : spells (bare "i32") (RInt I32)
| sp_i64 : spells (bare "i64") (RInt I64)
| sp_u8 : spells (bare "u8") (RInt U8)
| sp_u16 : spells (bare "u16") (RInt U16)
| sp_u32 : spells (bare "u32") (RInt U32)
| sp_f32 : spells (bare "f32") RF32
| sp_f64 : spells (bare "f64") RF64
| sp_string : spells (bare "String") RString
| sp_string_std lead : spells (TPath lead ["std"; "string"] "String" None) RString
| sp_bytes : spells (TPath false [] "Vec" (Some [GType (bare "u8")])) RBytes
| sp_bytes_std lead : spells (TPath lead ["std"; "vec"] "Vec" (Some [GType (bare "u8")])) RBytes
| sp_json : spells (bare "Value") RJson
| sp_json_serde : spells (TPath false ["serde_json"] "Value" None) RJson
| sp_uuid : spells (bare "Uuid") RUuid
| sp_uuid_uuid : spells (TPath false ["uuid"] "Uuid" None) RUuid
| sp_naive lead quals : spells (TPath lead quals "NaiveDateTime" None) RNaiveDateTime
| sp_utc lead quals lead' quals' :
    spells (TPath lead quals "DateTime" (Some [GType (TPath lead' quals' "Utc" None)])) RDateTimeUtc
| sp_date lead quals : spells (TPath lead quals "NaiveDate" None) RNaiveDate
| sp_option t a r : wraps "Option" t a -> spells a r -> spells t (ROption r)
| sp_auto t a r : wraps "AutoPk" t a -> spells a r -> spells t (RAutoPk r).

(** The resolver knows the wrappers under their own last name only. *)
Definition own_names : Prop :=
  forall lead quals name r, resolve lead quals name = Some r ->
    In r ["Option"; "AutoPk"; "ForeignKey"; "Many"] -> strip_raw name = r.
End Spec.

(** The resolver as the table in codegen/mod.rs:45-83 reads: a bare name stands
    for itself, a longer path is looked up. *)
Definition path_mappings : list (list string * string) :=
  [(["butane"], "AutoPk"); (["butane"], "ForeignKey"); (["butane"], "Many");
   (["butane"; "autopk"], "AutoPk"); (["butane"; "fkey"], "ForeignKey"); (["butane"; "many"], "Many");
   (["chrono"], "DateTime"); (["chrono"], "NaiveDate"); (["chrono"], "NaiveDateTime"); (["chrono"], "Utc");
   (["chrono"; "datetime"], "DateTime"); (["chrono"; "naive"], "NaiveDate");
   (["chrono"; "naive"], "NaiveDateTime"); (["chrono"; "offset"], "Utc");
   (["serde_json"], "Value"); (["uuid"], "Uuid")].
Definition table_resolve (lead : bool) (quals : list string) (name : string) : option string :=
  match quals with
  | [] => Some (strip_raw name)
  | _ =>
      if existsb (fun e => (if list_eq_dec string_dec (fst e) (map strip_raw quals) then true else false)
                           && String.eqb (snd e) (strip_raw name)) path_mappings
      then Some (strip_raw name) else None
  end.
