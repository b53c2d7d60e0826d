(** What an embedding has to hold: the specification of C53. *)
From Verif Require Import Base SqlVal Json Adb AdbSpec ResolveSpec Chain ChainSpec Store StoreSpec FsStore FsSpec JsonForm JsonSpec ConnSpec Embed.

(** A string that can be written in a raw literal: it has no double quote followed by
    [#], and does not begin with [#], as a double quote comes before it. *)
Definition fits (s : string) : Prop :=
  ~ (exists r, s = String "#" r) /\ ~ (exists a b, s = (a ++ String dquote (String "#" b))%string).
(** Every string of a JSON value: the texts and the names of members. *)
Fixpoint strings (v : json) : list string :=
  match v with
  | JStr s => [s]
  | JArr l => flat_map strings l
  | JObj l => flat_map (fun m => fst m :: strings (snd m)) l
  | _ => []
  end.
(** Numbers are written with digits, signs, a point and an exponent. *)
Definition numeral (s : string) : Prop :=
  forall c, In c (list_ascii_of_string s) -> In c (list_ascii_of_string "0123456789+-.eE").

(** A migration of the directory that can be read in full: its schema, and for every
    backend it has scripts for, both scripts. *)
Definition readable (ls : list string -> list string) (fs : FS) (n : string) : Prop :=
  exists i d, read_info n fs = Ok i /\ NoDup (in_backends i) /\ fs_read_db ls n fs = Ok d
    /\ settled d /\ wf_schema d
    /\ forall b, In b (in_backends i) -> exists u w, read_sql n b "up" fs = Ok (Some u) /\ read_sql n b "down" fs = Ok (Some w).
(** A migration in memory is that of the directory: same name, predecessor, schema,
    backends and scripts. *)
Definition mirrors (ls : list string -> list string) (fs : FS) (n : string) (m : MemMigration) : Prop :=
  mm_name m = n
  /\ (exists i, read_info n fs = Ok i /\ mm_from m = in_from i
      /\ (forall b, In b (in_backends i) <-> In b (mkeys (mm_up m)))
      /\ (forall b, In b (in_backends i) <-> In b (mkeys (mm_down m)))
      /\ forall b, In b (in_backends i) ->
           read_sql n b "up" fs = Ok (mget b (mm_up m)) /\ read_sql n b "down" fs = Ok (mget b (mm_down m)))
  /\ exists d, fs_read_db ls n fs = Ok d /\ mm_read_db m = Ok d.
(** A store in memory is the directory, migration by migration along the chain. *)
Definition same_migrations (ls : list string -> list string) (fs : FS) (s : MemStore) : Prop :=
  exists l l', all_migrations (fs_coll fs) = Ok l /\ all_migrations (mem_coll s) = Ok l'
    /\ Forall2 (mirrors ls fs) l l'
    /\ (forall n m, mem_get s n = Some m <-> In m l' /\ mm_name m = n).
