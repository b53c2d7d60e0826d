(** What the current schema has to be, and what describing a change has to tell.
    Specification only. *)
From Verif Require Import Base SqlVal Adb AdbSpec ResolveSpec Chain Store FsStore FsSpec Codegen Maint Current.

(** What is recorded about the models of a project, one thing at a time. *)
Inductive event :=
| TableIs (t : ATable)
| TypeNamed (k : TypeKey) (t : DeferredSqlType)
| TableGone (n : string)
| AllGone.
(** The table called [n] after the events, if it was [o] before them: the last one that
    speaks of it decides. *)
Definition table_after1 (n : string) (o : option ATable) (e : event) : option ATable :=
  match e with
  | TableIs t => if String.eqb (t_name t) n then Some t else o
  | TypeNamed _ _ => o
  | TableGone m => if String.eqb m n then None else o
  | AllGone => None
  end.
Definition table_after (n : string) (h : list event) (o : option ATable) : option ATable :=
  fold_left (table_after1 n) h o.
(** Likewise the type called [k]. *)
Definition type_after1 (k : TypeKey) (o : option DeferredSqlType) (e : event) : option DeferredSqlType :=
  match e with
  | TypeNamed k' t => if keqb k' k then Some t else o
  | AllGone => None
  | _ => o
  end.
Definition type_after (k : TypeKey) (h : list event) (o : option DeferredSqlType) : option DeferredSqlType :=
  fold_left (type_after1 k) h o.

(** What a command is about: a model has the tables and the other name the macro makes
    of it (C31, C47); one that is not accepted has none. *)
Definition events (resolve : resolver) (c : command) : list event :=
  match c with
  | Build s => match create_atables resolve s with
               | Ok ts => map TableIs ts ++ map (fun p => TypeNamed (fst p) (snd p)) (recorded_types s)
               | _ => []
               end
  | Derive n d => [TypeNamed (CustomType n) (KnownId (TyId (derived_type d)))]
  | DeleteTable n => [TableGone n]
  | Clean => [AllGone]
  end.

(** The directory of the current schema has the tables and the types given, in whole
    files; other files may lie there as well. *)
Record current_holds (fs : FS) (tabs : string -> option ATable) (types : TypeKey -> option DeferredSqlType)
    : Prop := {
  ch_info : get_file "current" "info.json" fs = None;
  ch_tables : forall n, get_file "current" (table_file n) fs = option_map FTable (tabs n);
  ch_names : forall n t, tabs n = Some t -> t_name t = n;
  ch_types : exists ts, msorted ts /\ (forall k, mget k ts = types k) /\
               (get_file "current" "types.json" fs = Some (FTypes ts)
                \/ get_file "current" "types.json" fs = None /\ ts = []) }.
(** The schema that has the tables and types given and nothing else. *)
Definition schema_of (tabs : string -> option ATable) (types : TypeKey -> option DeferredSqlType) (d : ADB) : Prop :=
  msorted (a_tables d) /\ msorted (a_types d) /\
  (forall n, mget n (a_tables d) = tabs n) /\ (forall k, mget k (a_types d) = types k).
(** Reading the current schema gives [d] with its types resolved ([ResolveSpec], C05), in
    whatever order the directory is listed. *)
Definition resolved (d : ADB) : outcome ADB :=
  do p <- resolve_types d; do _ <- snd p; Ok (fst p).
Definition reads_as (fs : FS) (d : ADB) : Prop :=
  forall ls, listing ls -> fs_read_db ls "current" fs = resolved d.
(** One of the files of the schema is cut off. *)
Definition cut_off (fs : FS) : Prop :=
  exists k, (k = "types.json"%string \/ exists n, k = table_file n) /\ get_file "current" k fs = Some (FTorn "").
(** Nothing but the current schema has changed. *)
Definition only_current (fs fs' : FS) : Prop :=
  same_outside "current" fs fs' /\ fs_state fs' = fs_state fs.

(** What is told about a changed column when one of its properties differs. *)
Definition tells (old new : AColumn) (l : list line) : Prop :=
  (forall a b, In (TypeIs a b) l <-> typeid old = Ok a /\ typeid new = Ok b /\ a <> b) /\
  (forall a b, In (PkIs a b) l <-> a = c_pk old /\ b = c_pk new /\ a <> b) /\
  (forall a b, In (AutoIs a b) l <-> a = c_auto old /\ b = c_auto new /\ a <> b) /\
  (forall a b, In (NullableIs a b) l <-> a = c_nullable old /\ b = c_nullable new /\ a <> b) /\
  (forall a b, In (UniqueIs a b) l <-> a = c_unique old /\ b = c_unique new /\ a <> b) /\
  (forall a b, In (DefaultIs a b) l <-> a = c_default old /\ b = c_default new /\
     ~ (match a, b with None, None => True | Some x, Some y => sqlval_same x y | _, _ => False end)) /\
  (forall a b, In (ReferenceIs a b) l <->
     option_map RefLiteral a = c_ref old /\ option_map RefLiteral b = c_ref new /\ a <> b).

(** The schema of a stored migration, ready to be shown: every type is known and every
    reference names its table and column. *)
Definition showable (d : ADB) : Prop :=
  forall n t c, In (n, t) (a_tables d) -> In c (t_cols t) ->
    (exists ty, typeid c = Ok ty) /\ forall x, c_ref c <> Some (RefDeferred x).
(** The lines tell every difference between two schemas, and nothing else. *)
Record described (old new : ADB) (l : list line) : Prop := {
  ds_same : In NoChanges l <-> same_schema old new;
  ds_new : forall n, In (NewTable n) l <-> has_table new n /\ ~ has_table old n;
  ds_gone : forall n, In (TableRemoved n) l <-> has_table old n /\ ~ has_table new n;
  ds_column : forall n c ty, In (NewColumn n c ty) l <->
     exists t u x, In (n, t) (a_tables old) /\ In (n, u) (a_tables new) /\ In x (t_cols u) /\ c_name x = c
                   /\ typeid x = Ok ty /\ ~ has_column t c;
  ds_less : forall n c, In (ColumnRemoved n c) l <->
     exists t u, In (n, t) (a_tables old) /\ In (n, u) (a_tables new) /\ has_column t c /\ ~ has_column u c;
  ds_changed : forall n c, In (ColumnChanged n c) l <->
     exists t u x y, In (n, t) (a_tables old) /\ In (n, u) (a_tables new) /\ In x (t_cols t) /\ In y (t_cols u)
                     /\ c_name x = c /\ c_name y = c /\ ~ same_column x y;
  ds_details : forall n t u x y, In (n, t) (a_tables old) -> In (n, u) (a_tables new) ->
     In x (t_cols t) -> In y (t_cols u) -> c_name x = c_name y -> ~ same_column x y ->
     exists a b k, l = a ++ (ColumnChanged n (c_name x) :: k) ++ b /\ k <> [] /\ tells x y k;
  ds_columns : forall n u, In (n, u) (a_tables new) -> ~ has_table old n ->
     exists a b k, l = a ++ (NewTable n :: k) ++ b /\
       Forall2 (fun c x => exists ty, typeid c = Ok ty /\ x = TableColumn (c_name c) ty) (t_cols u) k }.

(** ** The store in memory *)

Definition edit_events (e : edit) : list event :=
  match e with
  | EdTable t => [TableIs t]
  | EdNoTable n => [TableGone n]
  | EdType k t => [TypeNamed k t]
  | _ => []
  end.
(** The scripts of the backend [b] after an edit, if they were [o] before it. *)
Definition scripts_after1 (b : string) (o : option (string * string)) (e : edit) : option (string * string) :=
  match e with
  | EdSql b' u d => if String.eqb b' b then Some (u, d) else o
  | EdNoSql b' => if String.eqb b' b then None else o
  | _ => o
  end.
Definition from_after1 (o : option string) (e : edit) : option string :=
  match e with EdFrom f => f | _ => o end.
(** Types and references that were open may have been filled in; the rest is as
    recorded. *)
Definition type_kept (a b : DeferredSqlType) : Prop :=
  b = a \/ exists k i, a = Deferred k /\ b = KnownId i.
Definition ref_kept (a b : option ARef) : Prop :=
  b = a \/ exists x l, a = Some (RefDeferred x) /\ b = Some (RefLiteral l).
Record column_kept (c c' : AColumn) : Prop := {
  ck_name : c_name c' = c_name c;
  ck_type : type_kept (c_type c) (c_type c');
  ck_nullable : c_nullable c' = c_nullable c;
  ck_pk : c_pk c' = c_pk c;
  ck_auto : c_auto c' = c_auto c;
  ck_unique : c_unique c' = c_unique c;
  ck_default : c_default c' = c_default c;
  ck_ref : ref_kept (c_ref c) (c_ref c') }.
Definition table_kept (a b : option ATable) : Prop :=
  match a, b with
  | Some t, Some u => t_name u = t_name t /\ Forall2 column_kept (t_cols t) (t_cols u)
  | None, None => True
  | _, _ => False
  end.
Definition type_entry_kept (a b : option DeferredSqlType) : Prop :=
  match a, b with Some x, Some y => type_kept x y | None, None => True | _, _ => False end.
