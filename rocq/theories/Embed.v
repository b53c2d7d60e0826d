(** Migrations embedded in a program: [butane embed] and the commands that keep the
    embedding up to date.  Models butane_cli/src/lib.rs:34-57 and 356-415, and what a Rust
    compiler makes of the file it writes. *)
From Verif Require Import Base SqlVal Json Adb Chain Store FsStore JsonForm ConnSpec.

(** * The source file *)

(** butane_cli/src/lib.rs:376-387, the text before and after [{json}]. *)
Definition source_before : string :=
  "//! Butane migrations embedded in Rust." ++ newline ++ newline
  ++ "use butane::migrations::MemMigrations;" ++ newline ++ newline
  ++ "/// Load the butane migrations embedded in Rust." ++ newline
  ++ "pub fn get_migrations() -> Result<MemMigrations, butane::Error> {" ++ newline
  ++ "    let json = r#" ++ String dquote "".
Definition source_after : string :=
  ";" ++ newline ++ "    MemMigrations::from_json(json)" ++ newline ++ "}" ++ newline.
Definition embed_source (json : string) : string :=
  source_before ++ json ++ String dquote "#" ++ source_after.

(** A raw string literal opened by [r], [#] and a double quote (the Rust reference, Raw
    string literals): it ends at the first double quote followed by [#], and no character
    in it is an escape.  The literal, and the text after it. *)
Fixpoint raw_literal (s : string) : option (string * string) :=
  match s with
  | "" => None
  | String c r =>
      match r with
      | String h r' =>
          if Ascii.eqb c dquote && Ascii.eqb h "#" then Some ("", r')
          else option_map (fun p => (String c (fst p), snd p)) (raw_literal r)
      | "" => None
      end
  end.
(** The program that is meant, written down independently of [source_before]: lines before
    the literal, the opening of the literal, and the rest of the function. *)
Definition lines (l : list string) : string := fold_right (fun s r => (s ++ String "010" r)%string) ""%string l.
Definition meant_before : string :=
  lines ["//! Butane migrations embedded in Rust."; "";
         "use butane::migrations::MemMigrations;"; "";
         "/// Load the butane migrations embedded in Rust.";
         "pub fn get_migrations() -> Result<MemMigrations, butane::Error> {"]
  ++ "    let json = r" ++ String "#" (String """" "").
Definition meant_after : string := lines [";"; "    MemMigrations::from_json(json)"; "}"].
(** The text [json] stands for in the compiled program.  [None]: the file is not the
    program that was meant, what follows the literal not being the end of the function. *)
Definition compiled (src : string) : option string :=
  match strip meant_before src with
  | None => None
  | Some r => match raw_literal r with
              | None => None
              | Some (t, after) => if String.eqb after meant_after then Some t else None
              end
  end.
(** [get_migrations] of the compiled program. *)
Definition embedded_migrations (show : f64 -> string) (src : string) : option (outcome MemStore) :=
  option_map (store_of_text show) (compiled src).

(** * The commands *)

(** What [embed] reads and writes: the migrations directory, whether [../src] is a
    directory, [../src/butane_migrations.rs] and clistate.json. *)
Record project := {
  pj_fs : FS;
  pj_src : bool;
  pj_source : option string;
  pj_cli : option string }.
Definition set_source (p : project) (s : string) : project :=
  {| pj_fs := pj_fs p; pj_src := pj_src p; pj_source := Some s; pj_cli := pj_cli p |}.
Definition set_cli (p : project) (s : string) : project :=
  {| pj_fs := pj_fs p; pj_src := pj_src p; pj_source := pj_source p; pj_cli := Some s |}.

(** [CliState::load], butane_cli/src/lib.rs:39-46.  An unreadable file counts as none. *)
Definition cli_load (p : project) : outcome bool :=
  match pj_cli p with
  | Some s => clistate_of_text s
  | None => Ok false
  end.

(** The migrations copied to memory, butane_cli/src/lib.rs:365-372 *)
Definition embed_store (ls : list string -> list string) (fs : FS) : outcome MemStore :=
  do names <- all_migrations (fs_coll fs);
  ofold (fun s n => do m <- copy_migration (fs_view ls n fs) (mem_migration n); Ok (mem_add s m))
        names mem_new.

Section Embed.
  Variable show : f64 -> string.
  Variable pg_of : string -> pgtype.
  Variable ls : list string -> list string.

  (** butane_cli/src/lib.rs:357-395.  The message on stderr followed by
      [std::process::exit(1)] is an error.  Writing the two files succeeds. *)
  Definition embed (p : project) : outcome unit * project :=
    if pj_src p then
      match (do s <- embed_store ls (pj_fs p); store_text show pg_of s) with
      | Ok json =>
          let p1 := set_source p (embed_source json) in
          match cli_load p1 with
          | Ok _ => (Ok tt, set_cli p1 (clistate_text show true))
          | Err e => (Err e, p1)
          | Panic => (Panic, p1)
          end
      | Err e => (Err e, p)
      | Panic => (Panic, p)
      end
    else (Err (Internal "src directory not found"), p).
  (** butane_cli/src/lib.rs:397-405 *)
  Definition update_embedded (p : project) : outcome unit * project :=
    match cli_load p with
    | Ok true => embed p
    | Ok false => (Ok tt, p)
    | Err e => (Err e, p)
    | Panic => (Panic, p)
    end.
End Embed.
