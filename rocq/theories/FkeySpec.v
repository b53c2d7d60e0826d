(** What a foreign key stands for, and what each operation on it should answer.
    Specification only. *)
From Verif Require Import Base SqlVal Fkey.

(** Keys that survive conversion, and whose equality is that of their SQL values. *)
Record lawful {P} (d : pktype P) (good : P -> Prop) : Prop := {
  law_back : forall p v, good p -> pk_to d p = Ok v -> pk_from d v = Ok p;
  law_eq : forall p q v w, good p -> good q -> pk_to d p = Ok v -> pk_to d q = Ok w ->
    pk_eqb d p q = sqlval_eqb v w
}.

Section Spec.
  Context {O P : Type}.
  Variable d : pktype P.
  Variable pk_of : O -> P.

  (** [f] refers to the object with key [p]. *)
  Definition refers_to (f : fkey O) (p : P) : Prop :=
    (f_val f <> None \/ f_valpk f <> None)
    /\ (forall o, f_val f = Some o -> pk_of o = p)
    /\ (forall v, f_valpk f = Some v -> pk_to d p = Ok v).

  (** The database, when it answers, answers with the object asked for. *)
  Definition answers_right (db_get : P -> outcome O) : Prop := forall p o, db_get p = Ok o -> pk_of o = p.

  (** The results of a history on a foreign key to [p]; [loaded] is the object
      it has obtained so far. *)
  Fixpoint fk_expected (p : P) (loaded : option O) (ops : list (fk_op O P)) (rs : list (fk_result O P)) : Prop :=
    match ops, rs with
    | [], [] => True
    | op :: ops', r :: rs' =>
        match op with
        | OpPk => r = ResPk (Ok p) /\ fk_expected p loaded ops' rs'
        | OpGet => r = ResObj (match loaded with Some o => Ok o | None => Err ValueNotLoaded end)
                   /\ fk_expected p loaded ops' rs'
        | OpLoad db_get =>
            match loaded with
            | Some o => r = ResObj (Ok o) /\ fk_expected p loaded ops' rs'
            | None => r = ResObj (db_get p)
                      /\ fk_expected p (match db_get p with Ok o => Some o | _ => None end) ops' rs'
            end
        | OpToSql => r = ResSql (pk_to d p) /\ fk_expected p loaded ops' rs'
        | OpClone => r = ResUnit /\ fk_expected p loaded ops' rs'
        | OpEq q => r = ResBool (Ok (pk_eqb d p q)) /\ fk_expected p loaded ops' rs'
        end
    | _, _ => False
    end.
End Spec.
