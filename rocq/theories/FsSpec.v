(** What the store of migrations in files has to achieve. *)
From Verif Require Import Base SqlVal Adb AdbSpec ResolveSpec Chain ChainSpec Store StoreSpec FsStore.
From Coq Require Import Permutation.

(** A directory may be listed in any order. *)
Definition listing (ls : list string -> list string) : Prop := forall l, Permutation (ls l) l.
(** The schema of the migration [n] on disk is [d]: reading it gives [d], in whatever
    order directories are listed. *)
Definition fs_schema (fs : FS) (n : string) (d : ADB) : Prop :=
  forall ls, listing ls -> fs_read_db ls n fs = Ok d.

(** Creating migrations one after the other, each from the latest. *)
Fixpoint fs_create_all (ls : list string -> list string) (bs : list Backend) (steps : list (string * ADB))
    : FsM unit :=
  match steps with
  | [] => fret tt
  | (n, to) :: r =>
      fdo l <- fread (fun fs => Ok (fs_latest fs));
      fdo _ <- fs_create_to ls bs n l to;
      fs_create_all ls bs r
  end.
(** Which of the requested migrations are made: those that change the schema. *)
Inductive made_of : ADB -> list (string * ADB) -> list (string * ADB) -> Prop :=
| mo_nil d : made_of d [] []
| mo_skip d n to steps made : same_schema d to -> made_of d steps made -> made_of d ((n, to) :: steps) made
| mo_make d n to steps made : ~ same_schema d to -> made_of to steps made ->
    made_of d ((n, to) :: steps) ((n, to) :: made).

(** Directories and files are filed under distinct names. *)
Definition fs_ok (fs : FS) : Prop :=
  msorted (fs_dirs fs) /\ forall d dir, mget d (fs_dirs fs) = Some dir -> msorted dir.
(** A store without migrations (there may be directories, as that of the current
    schema). *)
Definition fs_fresh (fs : FS) : Prop := fs_ok fs /\ fs_state fs = None.
(** The text found in a file into which [s] was written: it ends in a newline. *)
Definition with_newline (s : string) : string := if ends_with s newline then s else (s ++ newline)%string.
(** Everything outside the directory [n] and the state file is the same. *)
Definition same_outside (n : string) (fs fs' : FS) : Prop :=
  forall d, d <> n -> mget d (fs_dirs fs') = mget d (fs_dirs fs).

(** The process stopped while the state file was being replaced. *)
Definition torn_state (fs : FS) : Prop := fs_state fs = Some (FTorn "").
(** [x] still holds the migrations [l] of [fs]: the same chain, and for each of them
    the same schema and scripts. *)
Definition intact (fs x : FS) (l : list string) : Prop :=
  chain (fs_coll x) l /\
  forall n, In n l ->
    (forall d, fs_schema fs n d -> fs_schema x n d) /\
    (forall b dir, read_sql n b dir x = read_sql n b dir fs).
(** The store holds exactly the migrations [made], in this order, each with its
    schema. *)
Definition holds_migrations (fs : FS) (made : list (string * ADB)) : Prop :=
  chain (fs_coll fs) (map fst made) /\
  forall n to, In (n, to) made -> exists d, fs_schema fs n d /\ same_schema d to.

(** How the migration [n] with the schema [d] lies on disk: each table in a file of its
    own in the directory, or recorded in [info.json] as last changed by another
    migration, in whose directory it is found.  Reading it gives [d]
    ([FsProofs.stored_schema]); every creation leaves migrations in this form
    ([FsProofs.fs_created]). *)
Definition has_dir (fs : FS) (n : string) : Prop := exists dir, mget n (fs_dirs fs) = Some dir.
Record stored (fs : FS) (n : string) (d : ADB) : Prop := {
  st_dir : has_dir fs n;
  st_wf : wf_schema d;
  st_types : a_types d = [];
  st_settled : settled d;
  st_no_types : get_file n "types.json" fs = None;
  st_files : forall k f, get_file n k fs = Some f -> ends_with k ".table" = true ->
               exists t, k = table_file (t_name t) /\ f = FTable t /\ In (t_name t, t) (a_tables d);
  st_info : exists i, read_info n fs = Ok i /\ msorted (in_bases i) /\
     (forall x b, mget x (in_bases i) = Some b -> get_file n (table_file x) fs = None /\
         exists t, In (x, t) (a_tables d) /\ get_file b (table_file x) fs = Some (FTable t)) /\
     (forall x t, In (x, t) (a_tables d) -> get_file n (table_file x) fs = Some (FTable t) \/
         exists b, mget x (in_bases i) = Some b) }.
(** The schema that a migration made from [from] starts with. *)
Definition from_schema (fs : FS) (from : option string) (d : ADB) : Prop :=
  match from with None => d = adb_new | Some f => stored fs f d end.
