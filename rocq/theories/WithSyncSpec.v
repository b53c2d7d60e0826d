(** Specification of running synchronous code on an async connection. *)
From Verif Require Import Base WithSync.

Section Spec.
Context {C A V : Type}.
Variable driver : method -> A -> C -> outcome V * C.

(** The closure run on a driver connection: [runs f c o c'] when, started with the
    connection in state [c], it ends with [o] and leaves it in state [c']. *)
Inductive runs {T} : closure A V T -> C -> outcome T -> C -> Prop :=
| runs_end o c : runs (Return o) c o c
| runs_call m a k c r c1 o c2 :
    driver m a c = (r, c1) -> runs (k r) c1 o c2 -> runs (Call m a k) c o c2.

(** The closure when every call it makes is answered with a poisoned connection. *)
Inductive refused {T} : closure A V T -> outcome T -> Prop :=
| refused_end o : refused (Return o) o
| refused_call m a k o : refused (k (Err PoisonedConnection)) o -> refused (Call m a k) o.
End Spec.
