(** What the migration chain and its application to a database mean,
    independently of the loops that compute them. *)
From Verif Require Import Base Chain.

Section Spec.
  Context {M : Type} (c : Coll M).

  (** [m] says that it is based on [p]. *)
  Definition based_on (m p : M) : Prop :=
    exists n, cl_from c m = Ok (Some n) /\ cl_get c n = Some p.
  Definition is_first (m : M) : Prop := cl_from c m = Ok None.

  (** [chain_to m l]: [l] lists, oldest first, the migrations from a first one to [m],
      each based on the one before. *)
  Inductive chain_to : M -> list M -> Prop :=
  | ch_first m : is_first m -> chain_to m [m]
  | ch_next m p l : based_on m p -> chain_to p l -> chain_to m (l ++ [m]).

  (** The chain of the collection. *)
  Definition chain (l : list M) : Prop :=
    match cl_latest c with
    | None => l = []
    | Some m => chain_to m l
    end.

  (** Every element is based on the one before. *)
  Definition linked (l : list M) : Prop := forall a x y b, l = a ++ x :: y :: b -> based_on y x.

  (** A store finds a migration under its own name, and does not store more
      migrations than it says. *)
  Definition coherent : Prop :=
    (forall n m, cl_get c n = Some m -> cl_name c m = n) /\
    (forall m, cl_latest c = Some m -> cl_get c (cl_name c m) = Some m) /\
    (exists names, length names <= cl_bound c /\ forall n m, cl_get c n = Some m -> In n names).

  Definition names (l : list M) : list string := map (cl_name c) l.

  (** The last element of [l] whose name is in [rows]. *)
  Definition last_recorded (rows : list string) (l : list M) (o : option M) : Prop :=
    match o with
    | Some m => exists a b, l = a ++ m :: b /\ In (cl_name c m) rows /\
                            (forall x, In x b -> ~ In (cl_name c x) rows)
    | None => forall x, In x l -> ~ In (cl_name c x) rows
    end.

  Context {S : Type} (exec : string -> DBS S -> outcome (DBS S)) (bk : string).

  (** Adding / removing a bookkeeping record. *)
  Definition recorded (n : string) (d d' : DBS S) : Prop :=
    exists l, dbs_mig d = Some l /\ ~ In n l /\
              d' = {| dbs_rest := dbs_rest d; dbs_mig := Some (l ++ [n]) |}.
  Definition unrecorded (n : string) (d d' : DBS S) : Prop :=
    exists l, dbs_mig d = Some l /\
              d' = {| dbs_rest := dbs_rest d; dbs_mig := Some (remove string_dec n l) |}.

  (** One migration fully applied / fully downgraded: its whole script ran and its
      record was added / removed. *)
  Definition applies (m : M) (d d' : DBS S) : Prop :=
    exists sql d1, cl_up c m bk = Ok (Some sql) /\ exec sql d = Ok d1 /\ recorded (cl_name c m) d1 d'.
  Definition downgrades (m : M) (d d' : DBS S) : Prop :=
    exists sql d1, cl_down c m bk = Ok (Some sql) /\ exec sql d = Ok d1 /\ unrecorded (cl_name c m) d1 d'.

  Inductive seq (R : M -> DBS S -> DBS S -> Prop) : list M -> DBS S -> DBS S -> Prop :=
  | seq_nil d : seq R [] d d
  | seq_cons m l d d1 d2 : R m d d1 -> seq R l d1 d2 -> seq R (m :: l) d d2.

  (** Scripts do not touch the rows of the bookkeeping table; at most they create
      it. *)
  Definition keeps_records (sql : string) : Prop :=
    forall d d', exec sql d = Ok d' ->
      dbs_mig d' = dbs_mig d \/ (dbs_mig d = None /\ dbs_mig d' = Some []).
  Definition scripts_keep_records (l : list M) : Prop :=
    forall m sql, In m l -> cl_up c m bk = Ok (Some sql) \/ cl_down c m bk = Ok (Some sql) -> keeps_records sql.

  (** Downgrading undoes applying.  The first migration also creates the bookkeeping
      table, which its downgrade leaves in place. *)
  Definition undoes (m : M) : Prop :=
    forall a b b', applies m a b -> downgrades m b b' -> b' = a.
  Definition undoes_first (m : M) : Prop :=
    forall a b b', applies m a b -> downgrades m b b' -> dbs_rest b' = dbs_rest a.

  (** Any number of runs of [migrate], each with its own failures. *)
  Fixpoint migrate_runs_with (plans : list (nat -> fault)) (d : DBS S) : DBS S :=
    match plans with
    | [] => d
    | fp :: r => migrate_runs_with r (cn_db (snd (migrate exec bk fp c (conn_on d))))
    end.

  (** The database records exactly the migrations of [l]. *)
  Definition records (d : DBS S) (l : list M) : Prop :=
    match dbs_mig d with
    | Some rows => rows = names l
    | None => l = []
    end.
End Spec.

(** Nothing goes wrong. *)
Definition no_fault : nat -> fault := fun _ => NoFault.
