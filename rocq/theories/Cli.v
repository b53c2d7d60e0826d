(** The commands of the CLI that apply and undo migrations.
    Models butane_cli/src/lib.rs:266-354.

    A message on stderr followed by [std::process::exit(1)] is a [Fail] with that
    message, like an error returned to [main]; an [unwrap] that fails is [Stop].
    Loading the connection settings and connecting are left out: they come before
    everything else and change nothing. *)
From Verif Require Import Base Chain.

Section Cli.
  Context {M S : Type}.
  Variable exec : string -> DBS S -> outcome (DBS S).
  Variable bk : string.
  Variable plan : nat -> fault.
  Variable c : Coll M.

  Definition exit1 {A} (msg : string) : @Run S A := lift (Err (Internal msg)).

  (** The loop of [migrate], lib.rs:271-280 *)
  Fixpoint apply_until (name : option string) (l : list M) : @Run S unit :=
    match l with
    | [] => ret tt
    | m :: r =>
        bind (apply exec bk plan c m) (fun _ =>
          match name with
          | Some n => if String.eqb n (cl_name c m) then ret tt else apply_until name r
          | None => apply_until name r
          end)
    end.
  (** [migrate], lib.rs:266-282 *)
  Definition cli_migrate (name : option string) : @Run S unit :=
    bind (unapplied plan c) (apply_until name).

  (** [for m in to_unapply.into_iter().rev()], lib.rs:335-338; the list is given in the
      order of the loop. *)
  Fixpoint downgrade_each (l : list M) : @Run S unit :=
    match l with
    | [] => ret tt
    | m :: r => bind (downgrade exec bk plan c m) (fun _ => downgrade_each r)
    end.
  (** [iter().position(|m| m.name() == latest.name())], lib.rs:328-330 *)
  Fixpoint position (n : string) (l : list M) : option nat :=
    match l with
    | [] => None
    | m :: r => if String.eqb (cl_name c m) n then Some 0 else option_map Datatypes.S (position n r)
    end.
  (** The selection of what to roll back, lib.rs:327-333 *)
  Definition upto_latest (since : list M) (latest : M) : outcome (list M) :=
    match last (map Some since) None with
    | None => Panic
    | Some x =>
        if String.eqb (cl_name c x) (cl_name c latest) then Ok since
        else match position (cl_name c latest) since with
             | None => Panic
             | Some i => Ok (firstn (i + 1) since)
             end
    end.
  Definition no_change_required : string := "That is the latest migration. No schema change required.".
  (** [unmigrate_to], lib.rs:294-340.  An error of [last_applied_migration] is printed
      before exiting. *)
  Definition cli_unmigrate_to (to : string) : @Run S unit :=
    match cl_get c to with
    | None => exit1 "No such migration!"
    | Some to_m =>
        bind (last_applied plan c) (fun o =>
          match o with
          | None => exit1 "No migrations applied!"
          | Some latest =>
              if String.eqb (cl_name c to_m) (cl_name c latest) then exit1 no_change_required
              else bind (lift (migrations_since c to_m)) (fun since =>
                   match since with
                   | [] => exit1 no_change_required
                   | _ :: _ => bind (lift (upto_latest since latest)) (fun l => downgrade_each (rev l))
                   end)
          end)
    end.
  (** [unmigrate_latest], lib.rs:342-354 *)
  Definition cli_unmigrate_latest : @Run S unit :=
    bind (last_applied plan c) (fun o =>
      match o with
      | None => exit1 "No migrations applied!"
      | Some m => downgrade exec bk plan c m
      end).
  (** [unmigrate], lib.rs:284-292 *)
  Definition cli_unmigrate (name : option string) : @Run S unit :=
    match name with
    | Some to => cli_unmigrate_to to
    | None => cli_unmigrate_latest
    end.
  (** [list_migrations], lib.rs:573-588: what is printed, as name and state. *)
  Definition cli_list : @Run S (list (string * bool)) :=
    bind (unapplied plan c) (fun un =>
    bind (lift (all_migrations c)) (fun all =>
    ret (map (fun m => (cl_name c m, negb (existsb (fun u => String.eqb (cl_name c u) (cl_name c m)) un))) all))).
End Cli.
