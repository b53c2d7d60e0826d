(** Saving, getting and deleting objects.  Models butane_core/src/lib.rs:118-236
    with the code butane_core/src/codegen/dbobj.rs generates (Codegen.v). *)
From Verif Require Import Base SqlVal Adb Sql SqlStmt Query Stmt Conn Many Codegen.

Section Obj.
Context {U X : Type}.
Variable sem : ty -> codec U.
(** [is_valid] and [initialize] of the key's type. *)
Variable valid : U -> bool.
Variable init : U -> SqlVal -> outcome unit * U.
Variable g : dbobject.
Variables (d : dialect) (kw : string -> bool) (b : backend) (E : engine).
Variable gen : db -> string -> list string -> row.

Notation object := (@object U (many X)).
Notation cols := (map fst (dr_columns (do_result g))).

(** dbobj.rs:431-459 *)
Fixpoint save_manys (l : list (string * string)) (o : object) (w : world) : outcome unit * object * world :=
  match l with
  | [] => (Ok tt, o, w)
  | (f, t) :: r =>
      match obj_get o f with
      | Some (FM m) =>
          match field_sql sem o (do_pk g) with
          | Ok owner =>
              match many_save d kw b E gen (ensure_init m t owner (cd_type _ (sem (sf_ty (do_pk g))))) w with
              | (Ok _, m', w') => save_manys r (obj_set o f (FM m')) w'
              | (e, m', w') => (e, obj_set o f (FM m'), w')
              end
          | Err e => (Err e, o, w)
          | Panic => (Panic, o, w)
          end
      | _ => (Panic, o, w)
      end
  end.

(** The key of an object.  The compiler guarantees the field. *)
Definition obj_key (o : object) : option U :=
  match obj_get o (sf_ident (do_pk g)) with Some (FV u) => Some u | _ => None end.
(** lib.rs:177-184, 203-213: insert, then initialise the key. *)
Definition insert_and_init (icols : list string) (vs : outcome (list SqlVal)) (o : object) (u : U) (w : world)
  : outcome unit * object * world :=
  match vs with
  | Err e => (Err e, o, w)
  | Panic => (Panic, o, w)
  | Ok vs =>
      match conn_insert_returning_pk d kw b E gen (do_table g) icols (do_pkcol g) vs w with
      | (Ok kv, w') =>
          match init u kv with
          | (r, u') => (r, obj_set o (sf_ident (do_pk g)) (FV u'), w')
          end
      | (Err e, w') => (Err e, o, w')
      | (Panic, w') => (Panic, o, w')
      end
  end.
(** lib.rs:171-219: the object's own row. *)
Definition save_row (o : object) (w : world) : outcome unit * object * world :=
  match obj_key o with
  | None => (Panic, o, w)
  | Some u =>
      if do_auto g && Nat.eqb (List.length (dr_columns (do_result g))) 1 then
        if valid u then (Ok tt, o, w) else insert_and_init [] (Ok []) o u w
      else if do_auto g then
        if valid u then
          match field_sql sem o (do_pk g), non_auto_values sem g o false with
          | Ok kv, Ok vs =>
              let (r, w') := conn_update d kw b E gen (do_table g) (do_pkcol g) kv (map fst (do_insert g)) vs w in (r, o, w')
          | Err e, _ | Ok _, Err e => (Err e, o, w)
          | _, _ => (Panic, o, w)
          end
        else insert_and_init (map fst (do_insert g)) (non_auto_values sem g o true) o u w
      else
        match non_auto_values sem g o true with
        | Ok vs => let (r, w') := conn_insert_or_replace d kw b E gen (do_table g) cols (do_pkcol g) vs w in (r, o, w')
        | Err e => (Err e, o, w)
        | Panic => (Panic, o, w)
        end
  end.
(** lib.rs:166-224 *)
Definition save (o : object) (w : world) : outcome unit * object * world :=
  match save_row o w with
  | (Ok _, o, w) => save_manys (do_save_many g) o w
  | x => x
  end.

(** lib.rs:227-232 *)
Definition delete (o : object) (w : world) : outcome unit * world :=
  match field_sql sem o (do_pk g) with
  | Ok kv => conn_delete d kw b E gen (do_table g) (do_pkcol g) kv w
  | Err e => (Err e, w)
  | Panic => (Panic, w)
  end.

(** The generated from_row on a row of the backend. *)
Definition object_of_row (values : list SqlVal) : outcome object :=
  from_row sem many_new ensure_init (do_result g) (do_pk g)
    {| br_len := List.length values; br_get := row_of values |}.
(** QueryOps::load, query/mod.rs:284-290. *)
Definition objects_answer (x : Query) (w : world) (r : outcome (list object)) (w' : world) : Prop :=
  exists q, query_answers d kw b E cols x w q w' /\ r = obind q (omapm object_of_row).
(** lib.rs:143-158 *)
Definition try_get_answers (id : SqlVal) (w : world) (r : outcome (option object)) (w' : world) : Prop :=
  exists l, objects_answer (set_limit 1 (set_filter (BEq (do_pkcol g) (EVal id)) (q_new (do_table g)))) w l w'
    /\ r = omap (fun l => nth_error l 0) l.
(** lib.rs:133-139 *)
Definition get_answers (id : SqlVal) (w : world) (r : outcome object) (w' : world) : Prop :=
  exists x, try_get_answers id w x w'
    /\ r = obind x (fun x => match x with Some o => Ok o | None => Err NoSuchObject end).
End Obj.
