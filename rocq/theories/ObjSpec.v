(** What saving, getting and deleting objects and changing relations mean, in
    terms of rows.  Specification only. *)
From Coq Require Import Permutation.
From Verif Require Import Base SqlVal Sql SqlStmt Query QuerySpec Stmt StmtSpec Conn Many Codegen CodegenSpec.

(** * Relations *)

Section Rel.
Variable E : engine.
(** The engine takes the two values for equal. *)
Definition same (x y : SqlVal) : bool := match compare3 E CEq x y with Some true => true | _ => false end.
Definition among (x : SqlVal) (l : list SqlVal) : bool := existsb (same x) l.

(** What [owner] is related to in the relation table [t]. *)
Definition partners (D : db) (t : string) (owner : SqlVal) : list SqlVal :=
  flat_map (fun r => if has_key E "owner" owner r
                     then match field "has" r with Some v => [v] | None => [] end else []) (D t).
Definition without (l removed : list SqlVal) : list SqlVal := filter (fun v => negb (among v removed)) l.
(** A relation table: every row has an owner and what it has. *)
Definition relation_table (D : db) (t : string) : Prop := Forall (fun r => incl ["owner"; "has"] (map fst r)) (D t).

(** What a sequence of add and remove calls asks for. *)
Inductive call (T : Type) := Add (x : T) | Remove (x : T).
Definition added {T} (l : list (call T)) : list T := flat_map (fun c => match c with Add _ x => [x] | _ => [] end) l.
Definition taken {T} (l : list (call T)) : list T := flat_map (fun c => match c with Remove _ x => [x] | _ => [] end) l.
(** The row is that of an object. *)
Definition object_in {T} (R : related T) (r : row) (x : T) : Prop :=
  exists vals, columns_of (rel_cols R) r = Some vals /\ rel_of_row R vals = Ok x.
(** The rows of the related model whose key is one of [l]. *)
Definition rows_with {T} (R : related T) (D : db) (l : list SqlVal) : list row :=
  filter (fun r => match field (rel_pkcol R) r with Some x => among x l | None => false end) (D (rel_table R)).
(** The names of the related model can be written in SQL. *)
Definition related_names {T} (R : related T) : Prop :=
  identifier (rel_table R) = true /\ identifier (rel_pkcol R) = true /\ In (rel_pkcol R) (rel_cols R)
  /\ Forall (fun c => identifier c = true) (rel_cols R).
(** What a load needs of the relation [m] of [owner] and of the tables: names that
    can be written, statements that fit, tables as the migrations made them. *)
Record loadable {T} (d : dialect) (b : backend) (R : related T) (m : many T) (D : db) (owner : SqlVal) : Prop := {
  ld_owner : m_owner m = Some owner;
  ld_set : owner <> VNull;
  ld_table : identifier (m_table m) = true;
  ld_name : reserved d "owner" = false;
  ld_relation : relation_table D (m_table m);
  ld_names : related_names R;
  ld_rows : Forall (fun r : row => incl (rel_cols R) (map fst r)) (D (rel_table R));
  ld_room : room b (length (flat_map bound (m_new m)));
  ld_reads : reads_sql b d }.
End Rel.
Arguments Add {T}. Arguments Remove {T}.

(** Nothing fails from here on. *)
Definition untroubled (w : world) : Prop := Forall (eq Works) (w_fate w).

(** * Objects *)

Section Obj.
Context {U X : Type}.
Variable resolve : bool -> list string -> string -> option string.
Variable sem : ty -> codec U.
Notation object := (@object U (many X)).

(** What PartialEq compares: the stored fields, and the owner and table of the
    relations. *)
Definition equal_objects (s : sdef) (o o' : object) : Prop :=
  (forall f, In f (row_fields resolve s) -> obj_get o (sf_ident f) = obj_get o' (sf_ident f))
  /\ (forall f, In f (relation_fields resolve s) -> exists m m',
        obj_get o (sf_ident f) = Some (FM m) /\ obj_get o' (sf_ident f) = Some (FM m')
        /\ m_owner m = m_owner m' /\ m_table m = m_table m').

(** The value of a field survives being stored. *)
Definition survives (f : sfield) (u : U) : Prop :=
  forall v, cd_to _ (sem (sf_ty f)) u = Ok v ->
    is_compatible v (cd_type _ (sem (sf_ty f))) true = true /\ cd_from _ (sem (sf_ty f)) v = Ok u.
Definition fields_survive (s : sdef) (o : object) : Prop :=
  forall f u, In f (row_fields resolve s) -> obj_get o (sf_ident f) = Some (FV u) -> survives f u.

(** The table of a relation. *)
Definition relation_name (t : string) (f : sfield) : string := (t ++ "_" ++ strip_raw (sf_ident f) ++ "_Many")%string.
(** The relations of the object whose key is (or will be) [kv] are its own: not
    used before, or by this very object; their tables are as the migrations made
    them and their removals fit into a statement. *)
Definition own_relations (b : backend) (s : sdef) (t : string) (D : db) (o : object) (kv : SqlVal) : Prop :=
  forall f, In f (relation_fields resolve s) -> exists m, obj_get o (sf_ident f) = Some (FM m)
    /\ (m_owner m = None \/ m_owner m = Some kv /\ m_table m = relation_name t f)
    /\ room b (length (flat_map bound (m_removed m)))
    /\ relation_table D (relation_name t f).

(** The row holds the object's values. *)
Definition holds_object (s : sdef) (o : object) (r : row) : Prop :=
  forall f, In f (row_fields resolve s) ->
    exists v, stores sem o f v /\ field (strip_raw (sf_ident f)) r = Some v.
End Obj.

(** The names of a model can be written in SQL and its statements fit. *)
Record names_ok (d : dialect) (b : backend) (g : dbobject) : Prop := {
  nm_table : identifier (do_table g) = true;
  nm_not_excluded : do_table g <> "excluded" /\ reserved d "excluded" = false;
  nm_cols : Forall (fun c => identifier c = true) (map fst (dr_columns (do_result g)));
  nm_pk : bare_name d (do_pkcol g);
  nm_room : room b (S (length (dr_columns (do_result g))));
  nm_reads : reads_sql b d;
  nm_owner : reserved d "owner" = false;
  nm_many : Forall (fun e => identifier (snd e) = true) (do_save_many g) }.

(** Keys of the kind [K] are equal for the engine only if they are the same. *)
Definition exact_on (E : engine) (K : SqlVal -> Prop) : Prop :=
  forall x y, K x -> K y -> (compare3 E CEq x y = Some true <-> x = y).
(** The model's table as its migration made it: every row has every column, once,
    and a key of the right kind. *)
Definition model_table (E : engine) (K : SqlVal -> Prop) (g : dbobject) (D : db) : Prop :=
  Forall (fun r => row_has (map fst (dr_columns (do_result g))) r
                   /\ exists x, field (do_pkcol g) r = Some x /\ K x) (D (do_table g)).
(** The engine fills in only columns the statement leaves out. *)
Definition fills_rest (g : dbobject) (gen : db -> string -> list string -> row) : Prop :=
  forall D cs, NoDup cs -> NoDup (cs ++ map fst (gen D (do_table g) cs)).
(** The key the engine makes up for a row inserted into [D]: new, of the right
    kind, and accepted in place of the unset key [u]. *)
Definition makes_key {U} (E : engine) (K : SqlVal -> Prop) (sem : ty -> codec U) (valid : U -> bool)
  (init : U -> SqlVal -> outcome unit * U) (g : dbobject) (gen : db -> string -> list string -> row) (D : db) (u : U) : Prop :=
  exists kv, field (do_pkcol g) (gen D (do_table g) (map fst (do_insert g))) = Some kv /\ K kv
    /\ Forall (fun r => has_key E (do_pkcol g) kv r = false) (D (do_table g))
    /\ exists u', init u kv = (Ok tt, u') /\ valid u' = true
         /\ cd_to _ (sem (sf_ty (do_pk g))) u' = Ok kv.
(** The key of an object, where it has one, is of the right kind. *)
Definition key_kind {U X} (K : SqlVal -> Prop) (sem : ty -> codec U) (valid : U -> bool) (g : dbobject) (o : @object U (many X)) : Prop :=
  forall u kv, obj_get o (sf_ident (do_pk g)) = Some (FV u) -> do_auto g = false \/ valid u = true ->
    cd_to _ (sem (sf_ty (do_pk g))) u = Ok kv -> K kv.

(** A model [s] with its generated code [g] on an engine: the macro accepted the
    model, its names can be written, keyword quoting is sufficient, and the engine
    compares keys exactly. *)
Record setting (resolve : bool -> list string -> string -> option string) (s : sdef) (g : dbobject)
  (d : dialect) (kw : string -> bool) (b : backend) (E : engine) (gen : db -> string -> list string -> row)
  (K : SqlVal -> Prop) : Prop := {
  st_compiles : compiles resolve s;
  st_code : impl_dbobject resolve s = Ok g;
  st_quotes : quotes_enough kw d;
  st_engine : engine_ok E;
  st_names : names_ok d b g;
  st_keys : exact_on E K;
  st_fills : fills_rest g gen }.

(** The object can be saved into [D] under the key [kv]: the tables are as the
    migrations made them, its key is of the right kind or can be made up, and its
    relations are its own. *)
Record ready {U X} (resolve : bool -> list string -> string -> option string) (sem : ty -> codec U) (valid : U -> bool)
  (init : U -> SqlVal -> outcome unit * U) (s : sdef) (g : dbobject) (b : backend) (E : engine)
  (gen : db -> string -> list string -> row) (K : SqlVal -> Prop) (D : db) (o : @object U (many X)) (kv : SqlVal) : Prop := {
  rd_table : model_table E K g D;
  rd_kind : key_kind K sem valid g o;
  rd_key : forall u, obj_get o (sf_ident (do_pk g)) = Some (FV u) -> do_auto g = true -> valid u = false ->
             makes_key E K sem valid init g gen D u;
  rd_relations : own_relations resolve b s (do_table g) D o kv }.
(** The object has an automatic key that is already set. *)
Definition numbered_already {U X} (valid : U -> bool) (g : dbobject) (o : @object U (many X)) : Prop :=
  do_auto g = true /\ exists u, obj_get o (sf_ident (do_pk g)) = Some (FV u) /\ valid u = true.
(** A row with this key is in the table; the rows with another key. *)
Definition row_exists (E : engine) (g : dbobject) (D : db) (kv : SqlVal) : Prop :=
  exists r, In r (D (do_table g)) /\ has_key E (do_pkcol g) kv r = true.
Definition rows_of_others (E : engine) (g : dbobject) (D : db) (kv : SqlVal) : list row :=
  filter (fun r => negb (has_key E (do_pkcol g) kv r)) (D (do_table g)).

(** * Histories of relation changes *)

Section History.
Context {T : Type}.
Variable E : engine.
(** The key of an object. *)
Variable key : T -> SqlVal.

(** For each owner what it is related to, and what is to be added and removed. *)
Record rel_state := { rs_related : nat -> list SqlVal; rs_add : nat -> list SqlVal; rs_remove : nat -> list SqlVal }.
Definition upd {A} (f : nat -> A) (i : nat) (a : A) : nat -> A := fun j => if Nat.eqb j i then a else f j.
Definition rel_step (s : rel_state) (o : many_op T) : rel_state :=
  match o with
  | OAdd i x => {| rs_related := rs_related s; rs_add := upd (rs_add s) i (rs_add s i ++ [key x]); rs_remove := rs_remove s |}
  | ORemove i x => {| rs_related := rs_related s; rs_add := rs_add s; rs_remove := upd (rs_remove s) i (rs_remove s i ++ [key x]) |}
  | OSave i => {| rs_related := upd (rs_related s) i (without E (rs_related s i ++ rs_add s i) (rs_remove s i));
                  rs_add := upd (rs_add s) i []; rs_remove := upd (rs_remove s) i [] |}
  | ODelete i => {| rs_related := upd (rs_related s) i []; rs_add := upd (rs_add s) i []; rs_remove := upd (rs_remove s) i [] |}
  | OSet i l => {| rs_related := upd (rs_related s) i (map key l); rs_add := upd (rs_add s) i []; rs_remove := upd (rs_remove s) i [] |}
  end.
(** What a save removes is related to no other owner. *)
Definition op_apart (s : rel_state) (o : many_op T) : Prop :=
  match o with
  | OSave i => forall j v, j <> i -> In v (rs_related s j) -> among E v (rs_remove s i) = false
  | _ => True
  end.
(** The removals of a save fit into one statement. *)
Definition op_fits (b : backend) (s : rel_state) (o : many_op T) : Prop :=
  match o with OSave i => room b (length (flat_map bound (rs_remove s i))) | _ => True end.
Fixpoint along (P : rel_state -> many_op T -> Prop) (s : rel_state) (l : list (many_op T)) : Prop :=
  match l with [] => True | o :: r => P s o /\ along P (rel_step s o) r end.
End History.
