(** Specification of iterating over a result, in terms of the calls a user makes
    and what they return. *)
From Verif Require Import Base SqlVal Backend Rows.

(** A user's calls and what they observe. *)
Inductive rcall := Next | Current.
Inductive answer (R : Type) := GotNext (x : outcome (option R)) | GotCurrent (x : option R).
Arguments GotNext {R}. Arguments GotCurrent {R}.

(** Run a sequence of calls and record the answers. *)
Fixpoint observe {St R} (c : cursor St R) (st : St) (calls : list rcall) : list (answer R) :=
  match calls with
  | [] => []
  | Next :: rest => let (x, st') := c_next c st in GotNext x :: observe c st' rest
  | Current :: rest => GotCurrent (c_current c st) :: observe c st rest
  end.

(** The answers to the calls of [next], in order. *)
Fixpoint nexts {R} (l : list (answer R)) : list (outcome (option R)) :=
  match l with
  | [] => []
  | GotNext x :: rest => x :: nexts rest
  | GotCurrent _ :: rest => nexts rest
  end.

(** Each row exactly once, in order, then the end for ever. *)
Definition visits {R} (rows : list R) (l : list (outcome (option R))) : Prop :=
  l = firstn (List.length l) (map (fun x => Ok (Some x)) rows ++ repeat (Ok None) (List.length l)).

(** The rows before a failure, the failure, then the end for ever. *)
Definition visits_until {R} (rows : list R) (e : error) (l : list (outcome (option R))) : Prop :=
  l = firstn (List.length l)
        (map (fun x => Ok (Some x)) rows ++ Err e :: repeat (Ok None) (List.length l)).

(** The row the last call of [next] returned, if it returned one. *)
Definition last_next {R} (l : list (answer R)) : option R :=
  match last (nexts l) (Ok None) with Ok (Some x) => Some x | _ => None end.

(** [current] returns the row most recently returned by [next]. *)
Definition current_is_last {R} (l : list (answer R)) : Prop :=
  forall before x after, l = before ++ GotCurrent x :: after -> x = last_next before.

(** [current] returns the row the following call of [next] will return. *)
Definition current_is_following {R} (l : list (answer R)) : Prop :=
  forall before x between y after,
    l = before ++ GotCurrent x :: between ++ GotNext y :: after ->
    nexts between = [] -> y = Ok x.

(** The result of applying [f] to the rows in order, stopping at the first failure. *)
Inductive mapped_to {R B} (f : R -> outcome B) : list R -> outcome (list B) -> Prop :=
| mapped_all rows ys : Forall2 (fun x y => f x = Ok y) rows ys -> mapped_to f rows (Ok ys)
| mapped_error before x after ys e :
    Forall2 (fun x y => f x = Ok y) before ys -> f x = Err e ->
    mapped_to f (before ++ x :: after) (Err e)
| mapped_panic before x after ys :
    Forall2 (fun x y => f x = Ok y) before ys -> f x = Panic ->
    mapped_to f (before ++ x :: after) Panic.

(** Two rows read alike at the given column types. *)
Definition reads_alike (tys : list SqlType) (r s : brow) : Prop :=
  br_len r = br_len s /\
  forall i ty, nth_error tys i = Some ty -> br_get r i ty = br_get s i ty.

(** A function of a row that looks at it only through the given column types. *)
Definition looks_at {B} (tys : list SqlType) (f : brow -> outcome B) : Prop :=
  forall r s, reads_alike tys r s -> f r = f s.

(** Reading a cell gives a value of the type asked for, or NULL. *)
Definition typed_row (r : brow) : Prop :=
  forall i ty v, br_get r i ty = Ok v -> v = VNull \/ sqlval_type v = Some ty.
