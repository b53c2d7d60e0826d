(** Loading a relation on SQLite: butane_core/src/many.rs:113-188 and 271-332 once more, as in
    Many.v, and with QueryOps::load as in Loaded.v. *)
From Verif Require Import Base SqlVal Adb Sql SqlStmt Query Stmt Ddl SqliteSem SqliteData Backend DataCalls Conn Many Codegen Obj Saved Loaded.

Section Related.
Context {U X : Type}.
Variable json_text : string -> option string.
Variable kw : string -> bool.
Variable dl : dialect.
Variable E : engine.
Variable sem : ty -> codec U.
Variable valid : U -> bool.
Variable g : dbobject.
Notation object := (@object U (many X)).

(** The related model as its code shows it: TABLE, PKCOL, COLUMNS, pk and from_row,
    butane_core/src/lib.rs:40-116, with is_valid, butane_core/src/sqlval.rs:320-327 and autopk.rs:110-113. *)
Definition related_model : related object :=
  {| rel_valid := fun o => match obj_key g o with Some u => valid u | None => false end;
     rel_key := fun o => field_sql sem o (do_pk g);
     rel_table := do_table g;
     rel_pkcol := do_pkcol g;
     rel_cols := map fst (dr_columns (do_result g));
     rel_of_row := object_of_row sem g |}.
(** many.rs:144-164 *)
Definition sqlite_uncached_answers (m : many object) (x : Query) (db : edb) (r : outcome (list object)) : Prop :=
  exists r1, sqlite_load_answers json_text kw dl E sem g x db r1 /\
    match r1, m_new m with
    | Ok vals, _ :: _ =>
        exists r2, sqlite_load_answers json_text kw dl E sem g (set_filter (BIn (do_pkcol g) (m_new m)) (q_new (do_table g))) db r2
                   /\ r = omap (app vals) r2
    | _, _ => r = r1
    end.
(** many.rs:177-188 with util.rs:5-15, and many.rs:297-332.  [order]: whether and how
    load_ordered sorts. *)
Definition sqlite_many_load_answers (m : many object) (order : option bool) (db : edb) (r : outcome (list object)) (m' : many object) : Prop :=
  match many_query related_model m with
  | Ok x =>
      match m_all m with
      | Some l => r = Ok l /\ m' = m
      | None =>
          sqlite_uncached_answers m (match order with None => x | Some desc => add_order (do_pkcol g) desc x end) db r
          /\ m' = match r with Ok l => set_all m (Some l) | _ => m end
      end
  | _ => r = Ok [] /\ m' = m
  end.
End Related.

(** Over the methods of any connection, as in Saved.v. *)
Section Over.
Context {W T : Type}.
Variable C : methods W.
Variable R : related T.
(** many.rs:271-283 *)
Definition many_delete_on (m : many T) (w : W) : outcome unit * many T * W :=
  match m_owner m with
  | None => (Err NotInitialized, m, w)
  | Some owner =>
      match on_delete_where C (m_table m) (BEq "owner" (EVal owner)) w with
      | (Ok _, w') => (Ok tt, set_all (set_pending m [] []) (Some []), w')
      | (e, w') => (e, m, w')
      end
  end.
(** many.rs:285-295 *)
Definition many_set_on (m : many T) (l : list T) (w : W) : outcome unit * many T * W :=
  match many_delete_on m w with
  | (Ok _, m, w) =>
      match add_all R m l with
      | (Ok _, m) =>
          match many_save_on C m w with
          | (Ok _, m, w) => (Ok tt, set_all m (Some l), w)
          | x => x
          end
      | (e, m) => (e, m, w)
      end
  | x => x
  end.
End Over.
