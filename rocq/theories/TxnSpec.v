(** Specification of transactions. *)
From Verif Require Import Base Txn.

Section Spec.
Context {D : Type}.

(** The effects of statements whose answers are known: a successful one took
    effect, a failed one either did not or took effect although its answer is an
    error (lost reply). *)
Inductive effects : D -> list (stmt D) -> list (outcome unit) -> D -> Prop :=
| eff_none d : effects d [] [] d
| eff_done d f d1 fs rs d' : f d = Some d1 -> effects d1 fs rs d' -> effects d (f :: fs) (Ok tt :: rs) d'
| eff_not d f e fs rs d' : effects d fs rs d' -> effects d (f :: fs) (Err e :: rs) d'
| eff_lost d f d1 fs rs d' : f d = Some d1 -> effects d1 fs rs d' -> effects d (f :: fs) (Err (DbError 2) :: rs) d'.

(** No command is lost on the way. *)
Definition no_faults (w : link D) : Prop := l_fate w = [].
(** This connection has no transaction open. *)
Definition no_transaction (w : link D) : Prop := sv_open (l_server w) = None.
(** What other connections see. *)
Definition visible (w : link D) : D := sv_db (l_server w).

(** The statements before the first commit or rollback. *)
Fixpoint statements_before (cs : list (call D)) : list (stmt D) :=
  match cs with Do f :: rest => f :: statements_before rest | _ => [] end.
(** Whether the first of commit and rollback is a commit. *)
Fixpoint commits (cs : list (call D)) : bool :=
  match cs with Do _ :: rest => commits rest | Commit :: _ => true | _ => false end.
End Spec.

Section Spec2.
Context {D : Type}.
(** Running statements one after the other, all of them successfully. *)
Fixpoint run_all (fs : list (stmt D)) (d : D) : option D :=
  match fs with
  | [] => Some d
  | f :: rest => match f d with Some d1 => run_all rest d1 | None => None end
  end.
(** All answers are successes. *)
Definition all_ok (rs : list (outcome unit)) : Prop := forall r, In r rs -> r = Ok tt.
End Spec2.
