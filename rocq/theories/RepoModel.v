(** The files of RepoFiles, read as butane reads them. *)
From Verif Require Import Base SqlVal Json Adb Chain Store FsStore JsonForm Embed RepoFiles.

Section Load.
  Variable show : f64 -> string.
  (** What a file is, by its name (fsmigrations.rs:100-106, 138, 156-176, 282-300). *)
  Definition file_of (name text : string) : outcome file :=
    if String.eqb name "info.json" then omap FInfo (info_of_text text)
    else if String.eqb name "types.json" then omap FTypes (types_of_text text)
    else if ends_with name ".table" then omap FTable (table_of_text show text)
    else Ok (FSql text).
  Definition put_file (d n : string) (f : file) (m : smap string Dir) : smap string Dir :=
    mput d (mput n f (match mget d m with Some dir => dir | None => [] end)) m.
  Definition load_dirs (l : list (string * string * string)) : outcome (smap string Dir) :=
    ofold (fun m p => let '(d, n, t) := p in do f <- file_of n t; Ok (put_file d n f m)) l [].
  Definition load (r : repo_project) : outcome project :=
    do ds <- load_dirs (rp_files r);
    do st <- match rp_state r with
             | None => Ok None
             | Some t => omap (fun l => Some (FState l)) (state_of_text t)
             end;
    Ok {| pj_fs := {| fs_dirs := ds; fs_state := st; fs_gitignore := true |};
          pj_src := true; pj_source := None; pj_cli := Some (rp_cli r) |}.
End Load.
