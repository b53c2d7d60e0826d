(** What the maintenance commands have to achieve. *)
From Verif Require Import Base SqlVal Adb AdbSpec ResolveSpec Chain ChainSpec Store StoreSpec FsStore FsSpec Maint.

(** A backend is found under its own name. *)
Definition backends_ok (gb : string -> option Backend) : Prop := forall n b, gb n = Some b -> b_name b = n.

(** [x] holds the same migrations as [fs]: the same chain [l], and for each of them the
    same schema. *)
Definition same_migrations (fs x : FS) (l : list string) : Prop :=
  chain (fs_coll x) l /\ forall m d, In m l -> (fs_schema x m d <-> fs_schema fs m d).
(** The scripts of every backend but [bn], and the list of these backends, are the same. *)
Definition same_scripts_but (bn : string) (fs x : FS) (l : list string) : Prop :=
  forall m, In m l ->
    (forall b dir, b <> bn -> dir = "up"%string \/ dir = "down"%string -> read_sql m b dir x = read_sql m b dir fs) /\
    (forall i i', read_info m fs = Ok i -> read_info m x = Ok i' ->
       filter (fun b => negb (String.eqb b bn)) (in_backends i') = filter (fun b => negb (String.eqb b bn)) (in_backends i)).
(** Everything that is not part of the migrations [l] is the same. *)
Definition same_rest (fs x : FS) (l : list string) : Prop :=
  fs_state x = fs_state fs /\ fs_gitignore x = fs_gitignore fs /\
  forall d, ~ In d l -> mget d (fs_dirs x) = mget d (fs_dirs fs).
(** The process stopped while [info.json] of a migration of [l] was being replaced. *)
Definition torn_info (x : FS) (l : list string) : Prop :=
  exists m, In m l /\ get_file m "info.json" x = Some (FTorn "").

(** The schema that the migration after [a] starts from. *)
Definition schema_before (fs : FS) (a : list string) (d : ADB) : Prop :=
  match last (map Some a) None with
  | None => d = adb_new
  | Some p => fs_schema fs p d
  end.
(** The scripts of [b] for getting from [from_db] to [to_db] and back; when there are no
    tables yet, the bookkeeping table is created as well. *)
Definition backend_scripts (b : Backend) (from_db to_db : ADB) (up down : string) : Prop :=
  exists ops dops, diff_out from_db to_db = Ok ops /\ diff_out to_db from_db = Ok dops /\
    b_sql b from_db (first_ops (match a_tables from_db with [] => None | _ => Some ""%string end) ops) = Ok up /\
    b_sql b to_db dops = Ok down.

(** How the migration [n] lies on disk that comes after [earlier] and leads from the
    schema [dp] to [d]: the tables that differ have a file of their own, the others are
    those of the predecessor and are found in an earlier migration. *)
Definition kept_table (dp : ADB) (x : string) (t : ATable) : Prop :=
  exists t0, In (x, t0) (a_tables dp) /\ same_table t0 t.
Record laid_out (fs : FS) (earlier : list string) (dp : ADB) (n : string) (d : ADB) : Prop := {
  lo_stored : stored fs n d;
  lo_from : omap in_from (read_info n fs) = Ok (last (map Some earlier) None);
  lo_bases : forall i x b, read_info n fs = Ok i -> mget x (in_bases i) = Some b -> In b earlier;
  lo_differs : ~ same_schema dp d;
  lo_changed : forall x t, In (x, t) (a_tables d) -> ~ kept_table dp x t ->
                 get_file n (table_file x) fs = Some (FTable t);
  lo_kept : forall x t, In (x, t) (a_tables d) -> kept_table dp x t ->
              get_file n (table_file x) fs = None /\ In (x, t) (a_tables dp) }.
Inductive laid_chain (fs : FS) : list string -> ADB -> list (string * ADB) -> Prop :=
| lc_nil earlier dp : laid_chain fs earlier dp []
| lc_cons earlier dp n d r : laid_out fs earlier dp n d -> laid_chain fs (earlier ++ [n]) d r ->
    laid_chain fs earlier dp ((n, d) :: r).
(** The store holds the migrations [made], with these schemas. *)
Record laid_store (fs : FS) (made : list (string * ADB)) : Prop := {
  ls_ok : fs_ok fs;
  ls_state : get_state fs = Ok (fs_latest fs);
  ls_chain : chain (fs_coll fs) (map fst made);
  ls_laid : laid_chain fs [] adb_new made;
  ls_current : ~ In "current"%string (map fst made) }.
(** The migrations of [made] have the scripts of the backends [bs], and no others: [n]
    those for getting from [dp] to its schema and back. *)
Inductive has_scripts (fs : FS) (bs : list Backend) : list string -> ADB -> list (string * ADB) -> Prop :=
| hs_nil earlier dp : has_scripts fs bs earlier dp []
| hs_cons earlier dp n d r :
    omap in_backends (read_info n fs) = Ok (map b_name bs) ->
    (forall b, In b bs -> exists up down, scripts_of bs (last (map Some earlier) None) dp d b up down /\
       read_sql n (b_name b) "up" fs = Ok (Some (with_newline up)) /\
       read_sql n (b_name b) "down" fs = Ok (Some (with_newline down))) ->
    (forall k f, get_file n k fs = Some f -> k = "info.json"%string \/ ends_with k ".table" = true \/
       exists b dir, In b bs /\ (dir = "up"%string \/ dir = "down"%string) /\ k = sql_name (b_name b) dir) ->
    has_scripts fs bs (earlier ++ [n]) d r -> has_scripts fs bs earlier dp ((n, d) :: r).
(** A directory is not called like one of the files beside it. *)
Definition plain_root (fs : FS) : Prop :=
  fs_get fs "state.json" = None /\ fs_get fs ".gitignore" = None.

(** The backends named by the latest migration, which is what the commands work with. *)
Definition uses_backends (gb : string -> option Backend) (fs : FS) (bs : list Backend) : Prop :=
  exists m i, fs_latest fs = Some m /\ read_info m fs = Ok i /\ in_backends i <> [] /\
    Forall2 (fun n b => gb n = Some b) (in_backends i) bs.
(** The schema the program currently asks for; none was written yet when there is no
    such directory. *)
Definition current_schema (fs : FS) (d : ADB) : Prop :=
  match fs_get fs "current" with None => d = adb_new | Some _ => fs_schema fs "current" d end.
