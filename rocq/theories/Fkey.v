(** Primary key types, automatic keys and foreign keys.
    Models butane_core/src/sqlval.rs:316-338, butane_core/src/autopk.rs,
    butane_core/src/fkey.rs and butane_core/src/util.rs. *)
From Verif Require Import Base SqlVal Time Conv.

(** * Primary key types: [PrimaryKeyType] with the traits it requires *)
Record pktype (P : Type) := {
  pk_to : P -> outcome SqlVal;       (* ToSql *)
  pk_from : SqlVal -> outcome P;     (* FromSql *)
  pk_eqb : P -> P -> bool;           (* PartialEq *)
  pk_is_valid : P -> bool            (* sqlval.rs:324-326: true by default *)
}.
Arguments pk_to {P}. Arguments pk_from {P}. Arguments pk_eqb {P}. Arguments pk_is_valid {P}.

(** sqlval.rs:332-337: the new key, or the key as it was with the error. *)
Definition initialize {P} (d : pktype P) (k : P) (v : SqlVal) : outcome unit * P :=
  if pk_is_valid d k then (Ok tt, k)
  else match pk_from d v with
       | Ok k' => (Ok tt, k')
       | Err e => (Err e, k)
       | Panic => (Panic, k)
       end.

(** PartialEq of the key types of Conv.v that are not automatic. *)
Fixpoint rust_eqb (t : rty) : rust t -> rust t -> bool :=
  match t with
  | RBool => Bool.eqb
  | RInt _ => Z.eqb
  | RF64 => f64_eqb
  | RF32 => fun a b => f64_eqb (f32_to_f64 a) (f32_to_f64 b)
  | RString | RBytes | RJson | RUuid => String.eqb
  | RNaiveDateTime | RDateTimeUtc => timestamp_eqb
  | RNaiveDate => date_eqb
  | ROption t => fun a b =>
      match a, b with Some x, Some y => rust_eqb t x y | None, None => true | _, _ => false end
  (* autopk.rs:83-91 *)
  | RAutoPk t => fun a b => match a, b with Some x, Some y => rust_eqb t x y | _, _ => false end
  end.
Definition plain_key (t : rty) : pktype (rust t) :=
  {| pk_to := to_sql t; pk_from := from_sql t; pk_eqb := rust_eqb t; pk_is_valid := fun _ => true |}.

(** * AutoPk: [inner : Option<T>], autopk.rs *)

Definition option_eqb {P} (eqb : P -> P -> bool) (a b : option P) : bool :=
  match a, b with Some x, Some y => eqb x y | None, None => true | _, _ => false end.
(** autopk.rs:106-113 *)
Definition autopk_is_valid {P} (d : pktype P) (k : option P) : bool :=
  match k with Some v => pk_is_valid d v | None => false end.
(** autopk.rs:44-104 *)
Definition autopk {P} (d : pktype P) : pktype (option P) :=
  {| pk_to := fun k => match k with Some x => pk_to d x | None => Panic end;
     pk_from := fun v => do x <- pk_from d v ; Ok (Some x);
     pk_eqb := fun a b =>
       if negb (autopk_is_valid d a) || negb (autopk_is_valid d b) then false
       else option_eqb (pk_eqb d) a b;
     pk_is_valid := autopk_is_valid d |}.
(** autopk.rs:93-101: comparison with a plain key. *)
Definition autopk_eq_key {P} (d : pktype P) (a : option P) (b : P) : bool :=
  if negb (autopk_is_valid d a) || negb (pk_is_valid d b) then false
  else option_eqb (pk_eqb d) a (Some b).
(** autopk.rs:126-136 *)
Definition autopk_partial_cmp {P} (cmp : P -> P -> comparison) (a b : option P) : option comparison :=
  match a with
  | Some x => match b with Some y => Some (cmp x y) | None => None end
  | None => None
  end.

(** * ForeignKey *)
Section Fkey.
  Context {O P : Type}.
  Variable d : pktype P.
  Variable pk_of : O -> P.   (* DataObject::pk *)

  (** fkey.rs:36-45: two write-once cells. *)
  Record fkey := { f_val : option O; f_valpk : option SqlVal }.

  (** fkey.rs:48-52 *)
  Definition fk_from_pk (p : P) : outcome fkey :=
    do v <- pk_to d p ; Ok {| f_val := None; f_valpk := Some v |}.
  (** fkey.rs:160-166 *)
  Definition fk_from_obj (o : O) : fkey := {| f_val := Some o; f_valpk := None |}.
  (** fkey.rs:167-171 *)
  Definition fk_from_ref (o : O) : outcome fkey := fk_from_pk (pk_of o).
  (** fkey.rs:209-219 *)
  Definition fk_from_sql (v : SqlVal) : outcome fkey := Ok {| f_val := None; f_valpk := Some v |}.
  (** fkey.rs:56-61 *)
  Definition fk_get (f : fkey) : outcome O :=
    match f_val f with Some o => Ok o | None => Err ValueNotLoaded end.
  (** fkey.rs:64-72 *)
  Definition fk_pk (f : fkey) : outcome P :=
    match f_val f with
    | Some o => Ok (pk_of o)
    | None => match f_valpk f with
              | Some v => match pk_from d v with Ok p => Ok p | _ => Panic end
              | None => Panic
              end
    end.
  (** fkey.rs:81-91, one caller at a time. *)
  Definition fk_ensure_valpk (f : fkey) : outcome SqlVal * fkey :=
    match f_valpk f with
    | Some v => (Ok v, f)
    | None => match f_val f with
              | Some o => match pk_to d (pk_of o) with
                          | Ok v => (Ok v, {| f_val := f_val f; f_valpk := Some v |})
                          | Err e => (Err e, f)
                          | Panic => (Panic, f)
                          end
              | None => (Panic, f)
              end
    end.
  (** fkey.rs:142-157 with util.rs:5-15; [db_get] is [T::get]. *)
  Definition fk_load (db_get : P -> outcome O) (f : fkey) : outcome O * fkey :=
    match f_val f with
    | Some o => (Ok o, f)
    | None =>
        match f_valpk f with
        | None => (Panic, f)
        | Some v =>
            match pk_from d v with
            | Ok p => match db_get p with
                      | Ok o => (Ok o, {| f_val := Some o; f_valpk := f_valpk f |})
                      | Err e => (Err e, f)
                      | Panic => (Panic, f)
                      end
            | Err e => (Err e, f)
            | Panic => (Panic, f)
            end
        end
    end.
  (** fkey.rs:220-235: comparison with a key. *)
  Definition fk_eq (f : fkey) (q : P) : outcome bool :=
    match f_val f with
    | Some o => Ok (pk_eqb d (pk_of o) q)
    | None => match f_valpk f with
              | Some v => do w <- pk_to d q ; Ok (sqlval_eqb v w)
              | None => Panic
              end
    end.
  (** fkey.rs:173-180: a foreign key stands for its [pk()]. *)
  Definition fk_eq_fk (f g : fkey) : outcome bool := do q <- fk_pk g ; fk_eq f q.

  (** ** A history of operations on one foreign key *)
  Inductive fk_op :=
  | OpLoad (db_get : P -> outcome O)
  | OpGet
  | OpPk
  | OpToSql
  | OpClone                (* continue with the clone *)
  | OpEq (q : P).
  Inductive fk_result :=
  | ResObj (o : outcome O)
  | ResPk (p : outcome P)
  | ResSql (v : outcome SqlVal)
  | ResUnit
  | ResBool (b : outcome bool).
  Definition fk_do (op : fk_op) (f : fkey) : fk_result * fkey :=
    match op with
    | OpLoad g => let (r, f') := fk_load g f in (ResObj r, f')
    | OpGet => (ResObj (fk_get f), f)
    | OpPk => (ResPk (fk_pk f), f)
    | OpToSql => let (r, f') := fk_ensure_valpk f in (ResSql r, f')
    | OpClone => (ResUnit, f)
    | OpEq q => (ResBool (fk_eq f q), f)
    end.
  Fixpoint fk_run (ops : list fk_op) (f : fkey) : list fk_result * fkey :=
    match ops with
    | [] => ([], f)
    | op :: ops' => let (r, f') := fk_do op f in
                    let (rs, f'') := fk_run ops' f' in (r :: rs, f'')
    end.

  (** * One foreign key shared by several threads

      [OnceLock::get] and [OnceLock::set] are atomic; [set] fails when the cell is
      full.  A thread is inside one call. *)
  Inductive thread :=
  | LStart              (* load, util.rs:6 next *)
  | LEmpty              (* found no value; fkey.rs:151 next *)
  | LHave (o : O)       (* T::get answered; util.rs:10 next *)
  | LStored             (* util.rs:11 next *)
  | LDone (r : outcome O)
  | WStart              (* to_sql, fkey.rs:82 next *)
  | WEmpty              (* fkey.rs:85 next *)
  | WHave (v : SqlVal)  (* [self.valpk.set(v).unwrap()] next *)
  | WStored             (* fkey.rs:90 next *)
  | WDone (r : outcome SqlVal).
  (** [answer] is what [T::get] answers if this step asks the database. *)
  Definition thread_step (answer : outcome O) (f : fkey) (t : thread) : fkey * thread :=
    match t with
    | LStart => match f_val f with Some o => (f, LDone (Ok o)) | None => (f, LEmpty) end
    | LEmpty => match f_valpk f with
                | None => (f, LDone Panic)
                | Some v => match pk_from d v with
                            | Ok _ => match answer with
                                      | Ok o => (f, LHave o)
                                      | Err e => (f, LDone (Err e))
                                      | Panic => (f, LDone Panic)
                                      end
                            | Err e => (f, LDone (Err e))
                            | Panic => (f, LDone Panic)
                            end
                end
    | LHave o => match f_val f with
                 | None => ({| f_val := Some o; f_valpk := f_valpk f |}, LStored)
                 | Some _ => (f, LStored)
                 end
    | LStored => match f_val f with Some o => (f, LDone (Ok o)) | None => (f, LDone Panic) end
    | WStart => match f_valpk f with Some v => (f, WDone (Ok v)) | None => (f, WEmpty) end
    | WEmpty => match f_val f with
                | Some o => match pk_to d (pk_of o) with
                            | Ok v => (f, WHave v)
                            | Err e => (f, WDone (Err e))
                            | Panic => (f, WDone Panic)
                            end
                | None => (f, WDone Panic)
                end
    | WHave v => match f_valpk f with
                 | None => ({| f_val := f_val f; f_valpk := Some v |}, WStored)
                 | Some _ => (f, WDone Panic)
                 end
    | WStored => match f_valpk f with Some v => (f, WDone (Ok v)) | None => (f, WDone Panic) end
    | LDone _ | WDone _ => (f, t)
    end.
  Fixpoint set_nth {A} (n : nat) (x : A) (l : list A) : list A :=
    match n, l with
    | 0, _ :: l' => x :: l'
    | S n', y :: l' => y :: set_nth n' x l'
    | _, [] => []
    end.
  (** A schedule says which thread moves, and what the database would answer. *)
  Fixpoint run_threads (sched : list (nat * outcome O)) (f : fkey) (ts : list thread) : fkey * list thread :=
    match sched with
    | [] => (f, ts)
    | (i, answer) :: sched' =>
        match nth_error ts i with
        | Some t => let (f', t') := thread_step answer f t in run_threads sched' f' (set_nth i t' ts)
        | None => run_threads sched' f ts
        end
    end.
End Fkey.
Arguments fkey : clear implicits.
Arguments fk_op : clear implicits.
Arguments fk_result : clear implicits.
Arguments thread : clear implicits.
