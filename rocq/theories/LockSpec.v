(** What processes working on the current schema at the same time have to achieve.
    Specification only. *)
From Verif Require Import Base SqlVal Adb Lock.

(** The types recorded by the processes [order], one after the other. *)
Definition recorded1 (jobs : nat -> job) (m : typemap) (p : nat) : typemap :=
  match jobs p with AddType k t => mput k t m | _ => m end.
Definition types_after (jobs : nat -> job) (order : list nat) (m : typemap) : typemap :=
  fold_left (recorded1 jobs) order m.
(** The file of types is whole and holds [m]; when there are none it may be missing. *)
Definition types_are (d : disk) (m : typemap) : Prop :=
  match k_types d with
  | Some (_, Whole ts) => ts = m
  | Some (_, Cut) => False
  | None => m = []
  end.
Definition tables_are (d : disk) (m : smap string ATable) : Prop :=
  mkeys (k_tables d) = mkeys m /\
  forall n t, mget n m = Some t -> t_name t = n /\ exists f, mget n (k_tables d) = Some (f, Whole t).
(** No process is under way. *)
Definition quiet (jobs : nat -> job) (st : nat -> pc) : Prop :=
  forall p, st p = Start (jobs p) \/ ended (st p).
(** The identities in use are older than the next one. *)
Definition disk_ok (d : disk) : Prop :=
  (forall i, k_lock d = Some i -> i < k_next d) /\
  (forall f c, k_types d = Some (f, c) -> f < k_next d) /\ msorted (k_tables d).
(** Some process was killed. *)
Definition some_killed (st : nat -> pc) : Prop := exists q, st q = Killed.
(** Some of the processes is to write a table. *)
Definition writes_tables (n : nat) (jobs : nat -> job) : Prop := exists q t, q < n /\ jobs q = AddTable t.
(** The file of types was emptied and not written again. *)
Definition types_cut (d : disk) : Prop := exists f, k_types d = Some (f, Cut).
