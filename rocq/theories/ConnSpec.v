(** Connection strings.
    Models butane_core/src/db/mod.rs:535-760. *)
From Verif Require Import Base.

(** * Text *)

(** [str::strip_prefix] *)
Fixpoint strip (p s : string) : option string :=
  match p, s with
  | EmptyString, _ => Some s
  | String a p', String b s' => if Ascii.eqb a b then strip p' s' else None
  | String _ _, EmptyString => None
  end.

(** [str::contains] *)
Fixpoint contains (p s : string) : bool :=
  match strip p s with
  | Some _ => true
  | None => match s with EmptyString => false | String _ r => contains p r end
  end.

(** [str::replacen(p, q, 1)] for a non-empty [p]. *)
Fixpoint replace_first (p q s : string) : string :=
  match strip p s with
  | Some rest => q ++ rest
  | None => match s with EmptyString => EmptyString | String c r => String c (replace_first p q r) end
  end.

Definition code (c : ascii) : nat := nat_of_ascii c.

(** * URLs

    butane asks the url crate for the scheme of the string, or the kind of error.
    The part of the parser that finds the scheme is modelled (WHATWG URL, scheme
    start and scheme state); what the parser says about the text after the scheme
    is a parameter. *)
Inductive url_error := InvalidPort | OtherUrlError.

Definition c0_or_space (c : ascii) : bool := Nat.leb (code c) 32.
Definition tab_or_newline (c : ascii) : bool :=
  Nat.eqb (code c) 9 || Nat.eqb (code c) 10 || Nat.eqb (code c) 13.

Fixpoint trim_start (s : string) : string :=
  match s with
  | EmptyString => EmptyString
  | String c r => if c0_or_space c then trim_start r else s
  end.
Fixpoint trim_end (s : string) : string :=
  match s with
  | EmptyString => EmptyString
  | String c r =>
      match trim_end r with
      | EmptyString => if c0_or_space c then EmptyString else String c EmptyString
      | r' => String c r'
      end
  end.
Fixpoint drop_newlines (s : string) : string :=
  match s with
  | EmptyString => EmptyString
  | String c r => if tab_or_newline c then drop_newlines r else String c (drop_newlines r)
  end.
Definition url_input (s : string) : string := drop_newlines (trim_end (trim_start s)).

Definition is_lower (c : ascii) : bool := Nat.leb 97 (code c) && Nat.leb (code c) 122.
Definition is_upper (c : ascii) : bool := Nat.leb 65 (code c) && Nat.leb (code c) 90.
Definition is_digit (c : ascii) : bool := Nat.leb 48 (code c) && Nat.leb (code c) 57.
Definition letter (c : ascii) : bool := is_lower c || is_upper c.
Definition scheme_char (c : ascii) : bool :=
  letter c || is_digit c || Ascii.eqb c "+" || Ascii.eqb c "-" || Ascii.eqb c ".".
Definition to_lower (c : ascii) : ascii := if is_upper c then ascii_of_nat (code c + 32) else c.
Fixpoint lower (s : string) : string :=
  match s with EmptyString => EmptyString | String c r => String (to_lower c) (lower r) end.

Fixpoint scan_scheme (s : string) : option (string * string) :=
  match s with
  | EmptyString => None
  | String c r =>
      if Ascii.eqb c ":" then Some (EmptyString, r)
      else if scheme_char c
           then match scan_scheme r with Some (x, rest) => Some (String (to_lower c) x, rest) | None => None end
           else None
  end.
Definition url_scheme (s : string) : option (string * string) :=
  match url_input s with
  | String c r => if letter c then scan_scheme (String c r) else None
  | EmptyString => None
  end.

Section Url.
(** What the url crate says about the text after the scheme. *)
Variable after_scheme : string -> string -> option url_error.

Definition url_parse (s : string) : string + url_error :=
  match url_scheme s with
  | None => inr OtherUrlError
  | Some (scheme, rest) =>
      match after_scheme scheme rest with None => inl scheme | Some e => inr e end
  end.

(** * Key-value strings *)

(** The characters the regex class [\s] stands for, in UTF-8. *)
Definition bytes (l : list nat) : string := fold_right (fun n s => String (ascii_of_nat n) s) EmptyString l.
Definition space_chars : list string :=
  map bytes
    ([[9]; [10]; [11]; [12]; [13]; [32]; [194; 133]; [194; 160]; [225; 154; 128];
      [226; 128; 128]; [226; 128; 129]; [226; 128; 130]; [226; 128; 131]; [226; 128; 132]; [226; 128; 133];
      [226; 128; 134]; [226; 128; 135]; [226; 128; 136]; [226; 128; 137]; [226; 128; 138];
      [226; 128; 168]; [226; 128; 169]; [226; 128; 175]; [226; 129; 159]; [227; 128; 128]])%nat.
Definition is_space (c : string) : bool := existsb (String.eqb c) space_chars.

(** [\s*=] *)
Fixpoint eq_after_ws (s : string) : bool :=
  match s with
  | EmptyString => false
  | String a r1 =>
      if Ascii.eqb a "=" then true
      else if is_space (String a EmptyString) then eq_after_ws r1
      else match r1 with
           | EmptyString => false
           | String b r2 =>
               if is_space (String a (String b EmptyString)) then eq_after_ws r2
               else match r2 with
                    | EmptyString => false
                    | String c r3 =>
                        if is_space (String a (String b (String c EmptyString))) then eq_after_ws r3 else false
                    end
           end
  end.

(** db/mod.rs:538 *)
Definition pg_keys : list string := ["hostaddr"; "host"; "dbname"; "user"; "port"].

Definition key_at (s : string) : bool :=
  existsb (fun k => match strip k s with Some r => eq_after_ws r | None => false end) pg_keys.
Fixpoint key_somewhere (s : string) : bool :=
  key_at s || match s with EmptyString => false | String _ r => key_somewhere r end.

(** db/mod.rs:593-602 *)
Definition is_pg_key_value_pairs (s : string) : bool :=
  if contains "://" s then false else key_somewhere s.

(** * Connection specifications *)

(** db/mod.rs:544-551 *)
Record spec := { backend_name : string; conn_str : string }.

(** db/mod.rs:638-704 *)
Definition try_from (value : string) : spec :=
  match url_parse value with
  | inl scheme =>
      if String.eqb scheme "sqlite" then {| backend_name := "sqlite"; conn_str := replace_first "sqlite:" "file:" value |}
      else if String.eqb scheme "file" then {| backend_name := "sqlite"; conn_str := value |}
      else if String.eqb scheme "postgres" || String.eqb scheme "postgresql"
           then {| backend_name := "pg"; conn_str := value |}
      else if String.eqb scheme "libsql" then {| backend_name := "turso"; conn_str := replace_first "libsql:" "turso:" value |}
      else {| backend_name := scheme; conn_str := value |}
  | inr InvalidPort =>
      if starts_with value "postgres" then {| backend_name := "pg"; conn_str := value |}
      else {| backend_name := "sqlite"; conn_str := value |}
  | inr OtherUrlError =>
      if is_pg_key_value_pairs value then {| backend_name := "pg"; conn_str := value |}
      else {| backend_name := "sqlite"; conn_str := value |}
  end.

(** db/mod.rs:605-624 *)
Definition add_parameter (name value : string) (c : spec) : outcome spec :=
  if String.eqb (backend_name c) "pg" && is_pg_key_value_pairs (conn_str c)
  then Ok {| backend_name := backend_name c; conn_str := conn_str c ++ " " ++ name ++ "=" ++ value |}
  else match url_parse (conn_str c) with
       | inr _ => Err (UnknownConnectString
                         "Cannot add query parameter to connection string that is not a postgres or URI")
       | inl _ =>
           Ok {| backend_name := backend_name c;
                 conn_str := conn_str c ++ (if contains "?" (conn_str c) then "&" else "?") ++ name ++ "=" ++ value |}
       end.
End Url.

(** db/mod.rs:749-759: the backends compiled in, by name. *)
Inductive backend_id := BPg | BSqlite | BTurso.
Definition get_backend (name : string) : option backend_id :=
  if String.eqb name "pg" then Some BPg
  else if String.eqb name "sqlite" then Some BSqlite
  else if String.eqb name "turso" then Some BTurso
  else None.

(** db/mod.rs:762-767: the backend [connect] asks and what it passes to it. *)
Definition connect (c : spec) : outcome (backend_id * string) :=
  match get_backend (backend_name c) with
  | None => Err (UnknownBackend (backend_name c))
  | Some b => Ok (b, conn_str c)
  end.

(** * Saving and loading *)

Definition dquote : ascii := ascii_of_nat 34.
Definition backslash : ascii := ascii_of_nat 92.
Definition hex (n : nat) : ascii := ascii_of_nat (if Nat.ltb n 10 then 48 + n else 87 + n).

(** serde_json's escaping of a character in a string. *)
Definition json_escape (c : ascii) : string :=
  let e x := String backslash (String (ascii_of_nat x) EmptyString) in
  match code c with
  | 34 => e 34
  | 92 => e 92
  | 8 => e 98
  | 12 => e 102
  | 10 => e 110
  | 13 => e 114
  | 9 => e 116
  | n => if Nat.ltb n 32
         then String backslash (String "u" (String "0" (String "0" (String (hex (n / 16)) (String (hex (n mod 16)) EmptyString)))))
         else String c EmptyString
  end.
Fixpoint json_escaped (s : string) : string :=
  match s with EmptyString => EmptyString | String c r => json_escape c ++ json_escaped r end.
Definition json_string (s : string) : string := String dquote (json_escaped s ++ String dquote EmptyString).
Definition newline : string := String (ascii_of_nat 10) EmptyString.

(** db/mod.rs:563-565: [to_string_pretty] of the two fields, and a newline. *)
Definition json_of (c : spec) : string :=
  "{" ++ newline ++ "  " ++ json_string "backend_name" ++ ": " ++ json_string (backend_name c) ++ "," ++ newline
  ++ "  " ++ json_string "conn_str" ++ ": " ++ json_string (conn_str c) ++ newline ++ "}" ++ newline.

(** Reading: serde_json on the derived [Deserialize].  Members whose value is not a
    string, and [\u] escapes of surrogates, are reported as errors here; nothing
    [save] writes contains them. *)
Definition unhex (c : ascii) : option nat :=
  if is_digit c then Some (code c - 48)
  else if Nat.leb 97 (code c) && Nat.leb (code c) 102 then Some (code c - 87)
  else if Nat.leb 65 (code c) && Nat.leb (code c) 70 then Some (code c - 55)
  else None.
Definition utf8 (a b x d : nat) : option string :=
  let n := ((a * 16 + b) * 16 + x) * 16 + d in
  if Nat.eqb a 13 && Nat.leb 8 b then None
  else if Nat.ltb n 128 then Some (bytes [n])
  else if Nat.ltb n 2048 then Some (bytes [192 + n / 64; 128 + n mod 64])
  else Some (bytes [224 + n / 4096; 128 + (n / 64) mod 64; 128 + n mod 64]).
Definition unescape (c : ascii) : option ascii :=
  match code c with
  | 34 => Some dquote
  | 92 => Some backslash
  | 47 => Some (ascii_of_nat 47)
  | 98 => Some (ascii_of_nat 8)
  | 102 => Some (ascii_of_nat 12)
  | 110 => Some (ascii_of_nat 10)
  | 114 => Some (ascii_of_nat 13)
  | 116 => Some (ascii_of_nat 9)
  | _ => None
  end.
Definition prepend (x : string) (o : option (string * string)) : option (string * string) :=
  match o with Some (s, r) => Some ((x ++ s)%string, r) | None => None end.

(** The rest of a string after its opening quote. *)
Fixpoint read_string (s : string) : option (string * string) :=
  match s with
  | EmptyString => None
  | String c r =>
      if Ascii.eqb c dquote then Some (EmptyString, r)
      else if Ascii.eqb c backslash then
        match r with
        | EmptyString => None
        | String e r2 =>
            match unescape e with
            | Some x => prepend (String x EmptyString) (read_string r2)
            | None =>
                if Ascii.eqb e "u" then
                  match r2 with
                  | String h1 (String h2 (String h3 (String h4 r6))) =>
                      match unhex h1, unhex h2, unhex h3, unhex h4 with
                      | Some a, Some b, Some x, Some d =>
                          match utf8 a b x d with
                          | Some u => prepend u (read_string r6)
                          | None => None
                          end
                      | _, _, _, _ => None
                      end
                  | _ => None
                  end
                else None
            end
        end
      else if Nat.ltb (code c) 32 then None
      else prepend (String c EmptyString) (read_string r)
  end.

Definition json_ws (c : ascii) : bool :=
  Nat.eqb (code c) 32 || Nat.eqb (code c) 10 || Nat.eqb (code c) 9 || Nat.eqb (code c) 13.
Fixpoint skip_ws (s : string) : string :=
  match s with
  | EmptyString => EmptyString
  | String c r => if json_ws c then skip_ws r else s
  end.
Definition expect_char (c : ascii) (s : string) : option string :=
  match skip_ws s with
  | String d r => if Ascii.eqb c d then Some r else None
  | EmptyString => None
  end.
Definition read_member (s : string) : option (string * string * string) :=
  match expect_char dquote s with
  | None => None
  | Some s1 =>
      match read_string s1 with
      | None => None
      | Some (k, s2) =>
          match expect_char ":" s2 with
          | None => None
          | Some s3 =>
              match expect_char dquote s3 with
              | None => None
              | Some s4 => match read_string s4 with None => None | Some (v, s5) => Some (k, v, s5) end
              end
          end
      end
  end.
Fixpoint read_members (fuel : nat) (s : string) : option (list (string * string) * string) :=
  match fuel with
  | O => None
  | S n =>
      match read_member s with
      | None => None
      | Some (k, v, s1) =>
          match expect_char "," s1 with
          | Some s2 => match read_members n s2 with Some (l, r) => Some ((k, v) :: l, r) | None => None end
          | None => match expect_char "}" s1 with Some r => Some ([(k, v)], r) | None => None end
          end
      end
  end.
Definition read_object (s : string) : option (list (string * string) * string) :=
  match expect_char "{" s with None => None | Some s1 => read_members (String.length s1) s1 end.
(** The one member of that name; a missing or repeated one is an error. *)
Definition member (k : string) (l : list (string * string)) : option string :=
  match filter (fun m => String.eqb (fst m) k) l with [(_, v)] => Some v | _ => None end.
(** db/mod.rs:569-572, the reading half of [load]. *)
Definition of_json (s : string) : outcome spec :=
  match read_object s with
  | None => Err SerdeJson
  | Some (l, rest) =>
      match skip_ws rest with
      | EmptyString =>
          match member "backend_name" l, member "conn_str" l with
          | Some b, Some c => Ok {| backend_name := b; conn_str := c |}
          | _, _ => Err SerdeJson
          end
      | _ => Err SerdeJson
      end
  end.

(** A file system: what is at a path.  Writing to a path assumes its directory
    exists. *)
Inductive node := File (contents : string) | Dir.
Definition files := string -> option node.
Definition put (fs : files) (p : string) (n : node) : files := fun q => if String.eqb q p then Some n else fs q.

(** db/mod.rs:720-726.  [Path::join] is written as adding a slash. *)
Definition conn_complete_if_dir (fs : files) (p : string) : string :=
  match fs p with Some Dir => p ++ "/connection.json" | _ => p end.

(** db/mod.rs:560-567.  [written] is how much of the contents reaches the file. *)
Definition save_upto (written : nat) (c : spec) (fs : files) (path : string) : outcome files :=
  let p := conn_complete_if_dir fs path in
  match fs p with
  | Some Dir => Err IOError
  | _ => Ok (put fs p (File (substring 0 written (json_of c))))
  end.
Definition save (c : spec) (fs : files) (path : string) : outcome files :=
  save_upto (String.length (json_of c)) c fs path.
(** db/mod.rs:569-572. *)
Definition load (fs : files) (path : string) : outcome spec :=
  match fs (conn_complete_if_dir fs path) with
  | Some (File s) => of_json s
  | _ => Err IOError
  end.
