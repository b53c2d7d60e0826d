(** C52: what butane records in the migrations directory reads back as it was recorded. *)
From Coq Require Import Permutation.
From Verif Require Import Base SqlVal Time Query Json Adb AdbSpec Store FsStore JsonForm JsonSpec JsonProofs JsonRound JsonReal
  JsonTorn ConnSpec Embed RepoFiles RepoModel.
Open Scope string_scope.

(** ** The text of a value *)

(** Every JSON value that is written reads back, on one line or over several, and with or
    without a newline at the end: integers of 64 bits, reals whose text reads as
    themselves, and any strings, nested less than 128 deep. *)
Theorem C52_text_reads : forall show v t, ok show v -> (jdepth v < 128)%nat -> t = "" \/ t = ConnSpec.newline ->
  from_text (to_string show v ++ t) = Ok v /\ from_text (to_string_pretty show v ++ t) = Ok v.
Proof. intros show v t Ho Hd Ht. split; apply text_reads; assumption. Qed.
Print Assumptions C52_text_reads.

(** ** The files *)

(** Each file that butane writes into a migrations directory can be written, and reads
    back as what was written.  Missing, here and in the next theorems: real defaults whose
    text does not read as themselves ([C52_real_default_refuted]). *)
Theorem C52_file_reads_partial : forall show pg_of f, storable show pg_of f ->
  exists s, file_text show pg_of f = Ok s /\ JsonSpec.reads_as show s f.
Proof. exact file_reads. Qed.
Print Assumptions C52_file_reads_partial.
(** So does the file with the state of the command line tool, and the store of
    migrations in memory. *)
Theorem C52_state_of_tool_reads : forall show b, clistate_of_text (clistate_text show b) = Ok b.
Proof. exact clistate_reads. Qed.
Print Assumptions C52_state_of_tool_reads.
Theorem C52_store_reads_partial : forall show pg_of s, storable_store show pg_of s ->
  exists t, store_text show pg_of s = Ok t /\ store_of_text show t = Ok s.
Proof. exact store_reads. Qed.
Print Assumptions C52_store_reads_partial.

(** A file cut short anywhere, because the process or the machine stopped while it was
    being written, never reads as something else: what is left is refused, unless only
    the newline at the end is missing. *)
Theorem C52_cut_file_partial : forall show pg_of f s p q, storable show pg_of f ->
  match f with FSql _ | FTorn _ => False | _ => True end ->
  file_text show pg_of f = Ok s -> s = p ++ q -> q <> "" -> JsonSpec.reads_as show p f \/ refused show p f.
Proof. exact file_torn. Qed.
Print Assumptions C52_cut_file_partial.

(** ** Files written by other versions *)

(** The order of the members, and members butane does not know, do not matter. *)
Theorem C52_members : forall show l l',
  (same_members ["name"; "sqltype"; "nullable"; "pk"; "auto"; "unique"; "default"; "reference"] l l' ->
     de_column show (JObj l) = de_column show (JObj l')) /\
  (same_members ["name"; "columns"] l l' -> de_table show (JObj l) = de_table show (JObj l')) /\
  (same_members ["from_name"; "table_bases"; "backends"] l l' -> de_info (JObj l) = de_info (JObj l')) /\
  (same_members ["latest"] l l' -> de_state (JObj l) = de_state (JObj l')).
Proof.
  intros show l l'. split; [apply column_same|]. split; [apply table_same|]. split; [apply info_same|apply state_same].
Qed.
Print Assumptions C52_members.
(** A column without "unique", "default" or "reference" is one that is not unique, has no
    default, or has no reference; an info.json without "from_name" or "table_bases" is one
    of a first migration, or one in which every table has its file. *)
Theorem C52_missing_members : forall show k x l, find_member k l = None ->
  ((k, x) = ("unique", JBool false) \/ (k, x) = ("default", JNull) \/ (k, x) = ("reference", JNull) ->
     de_column show (JObj (l ++ [(k, x)])%list) = de_column show (JObj l)) /\
  ((k, x) = ("from_name", JNull) \/ (k, x) = ("table_bases", JObj []) ->
     de_info (JObj (l ++ [(k, x)])%list) = de_info (JObj l)).
Proof. intros show k x l N. split; [now apply column_default|now apply info_default]. Qed.
Print Assumptions C52_missing_members.

(** ** Real numbers *)

(** The finite reals are those whose eleven exponent bits are not all ones. *)
Theorem C52_finite : forall r, (0 <= r < 2 ^ 64)%Z -> (f64_finite r = true <-> ((r / 2 ^ 52) mod 2 ^ 11 <> 2 ^ 11 - 1)%Z).
Proof.
  intros r Hr. unfold f64_finite, f64_mag, f64_inf. rewrite Z.ltb_lt.
  pose proof (Z.div_mod r (2 ^ 52)) as A. pose proof (Z.mod_pos_bound r (2 ^ 52)) as B.
  pose proof (Z.div_mod (r / 2 ^ 52) (2 ^ 11)) as C. pose proof (Z.mod_pos_bound (r / 2 ^ 52) (2 ^ 11)) as G.
  pose proof (Z.div_mod r (2 ^ 63)) as H. pose proof (Z.mod_pos_bound r (2 ^ 63)) as J.
  assert (Q : (r / 2 ^ 52 / 2 ^ 11 = r / 2 ^ 63)%Z) by (rewrite Z.div_div by lia; reflexivity).
  rewrite Q in C. lia.
Qed.
Print Assumptions C52_finite.
(** A text with a point, at most 22 decimals and not more than about fifteen digits reads
    as the f64 nearest to the number it says. *)
Theorem C52_decimal_reads : forall pos a k f, (0 <= a)%Z -> (1 <= k <= 22)%nat -> (0 <= f < 10 ^ Z.of_nat k)%Z ->
  (a * 10 ^ Z.of_nat k + f < 2 ^ 53)%Z ->
  exists r, read_number (decimal_text pos a k f) = Some (JReal (with_sign pos r), "")
    /\ ((0 < a * 10 ^ Z.of_nat k + f)%Z -> r <> f64_inf ->
        let '(m, e) := f64_parts r in
        (forall b, (0 <= b < f64_inf)%Z -> let '(m', e') := f64_parts b in
           no_further (a * 10 ^ Z.of_nat k + f) (10 ^ Z.of_nat k) m e m' e')
        /\ ((2 * distance (a * 10 ^ Z.of_nat k + f) (10 ^ Z.of_nat k) m e = 10 ^ Z.of_nat k * pow2_up e)%Z -> Z.even m = true)).
Proof.
  intros pos a k f Ha Hk Hf Hs. eexists. split; [now apply decimal_reads|]. intros Hp Hi.
  assert (P : (0 < 10 ^ Z.of_nat k)%Z) by (apply Z.pow_pos_nonneg; lia).
  pose proof (ratio_tie _ _ Hp P Hi) as T.
  pose proof (fun b Hb => ratio_nearest _ _ b Hp P Hi Hb) as N.
  destruct (f64_parts (f64_ratio _ _)) as [m e]. split; [exact N|exact T].
Qed.
Print Assumptions C52_decimal_reads.
(** So a real whose shortest text is such a decimal can be a default. *)
Theorem C52_short_decimals : forall show r pos a k f, f64_finite r = true -> show r = decimal_text pos a k f ->
  (0 <= a)%Z -> (1 <= k <= 22)%nat -> (0 <= f < 10 ^ Z.of_nat k)%Z -> (a * 10 ^ Z.of_nat k + f < 2 ^ 53)%Z ->
  r = with_sign pos (f64_ratio (a * 10 ^ Z.of_nat k + f) (10 ^ Z.of_nat k)) -> real_ok show r.
Proof.
  intros show r pos a k f Hfin Hsh Ha Hk Hf Hs Hr. split; [exact Hfin|]. rewrite Hsh.
  rewrite (decimal_reads pos a k f Ha Hk Hf Hs). now rewrite Hr.
Qed.
Print Assumptions C52_short_decimals.

(** ** Examples *)

(** 1.5, 0.1 and -2.25, as ryu writes them. *)
Definition some_reals (r : f64) : string :=
  if Z.eqb r 4609434218613702656 then "1.5"
  else if Z.eqb r 4591870180066957722 then "0.1"
  else if Z.eqb r 13835621005235585024 then "-2.25"
  else "0.0".
Definition point_pg (n : string) : pgtype :=
  PgType n 16401 (PgComposite [("x", PgType "float8" 701 PgSimple "pg_catalog");
                               ("tags", PgType "_text" 1009 (PgArray (PgType "text" 25 PgSimple "pg_catalog")) "pg_catalog")]) "public".
Definition rich_column (n : string) (t : DeferredSqlType) (d : option SqlVal) (r : option ARef) : AColumn :=
  {| c_name := n; c_type := t; c_nullable := true; c_pk := false; c_auto := false; c_unique := true; c_default := d; c_ref := r |}.
Definition rich_table : ATable :=
  {| t_name := "we""ird"; t_cols :=
       [rich_column "a" (KnownId (TyId TReal)) (Some (VReal 4609434218613702656)) None;
        rich_column "b" (Known (TCustom "point")) None (Some (RefDeferred (Deferred (PK "other::Model"))));
        rich_column "c" (KnownId (TyName "POINT")) (Some (VText "line
break ""quoted"" \ #hash")) (Some (RefLiteral {| rl_table := "t"; rl_column := "id" |}));
        rich_column "d" (Deferred (CustomType "geo::P")) (Some (VBlob (String (ascii_of_nat 0) (String (ascii_of_nat 255) "z")))) None;
        rich_column "e" (KnownId (TyId TBigInt)) (Some (VBigInt (-9223372036854775808))) None;
        rich_column "f" (KnownId (TyId TBool)) (Some (VBool true)) None] |}.
Example C52_example : storable some_reals point_pg (FTable rich_table) /\
  exists s, file_text some_reals point_pg (FTable rich_table) = Ok s /\ table_of_text some_reals s = Ok rich_table
    /\ (1000 <= String.length s)%nat.
Proof.
  assert (H : storable some_reals point_pg (FTable rich_table)).
  { cbn [storable]. unfold storable_table, rich_table. cbn [t_cols].
    repeat (apply Forall_cons; [split; [|split]; cbn; try exact I|]); [..|apply Forall_nil].
    - split; vm_compute; reflexivity.
    - split; [reflexivity|]. split; [|cbn; lia]. cbn. repeat split; lia.
    - reflexivity.
    - reflexivity.
    - lia. }
  split; [exact H|]. destruct (C52_file_reads_partial _ _ _ H) as (s & E & R). exists s. split; [exact E|]. split; [exact R|].
  assert (X : match file_text some_reals point_pg (FTable rich_table) with Ok s => Nat.leb 1000 (String.length s) | _ => false end = true)
    by (vm_compute; reflexivity).
  rewrite E in X. now apply Nat.leb_le.
Qed.
(** Reals that meet the hypotheses of [C52_short_decimals]. *)
Example C52_example_reals : real_ok some_reals 4609434218613702656 /\ real_ok some_reals 4591870180066957722
  /\ real_ok some_reals 13835621005235585024.
Proof.
  split; [|split].
  - apply (C52_short_decimals some_reals _ true 1 1 5); try (vm_compute; reflexivity); try lia; vm_compute; split; (reflexivity || discriminate).
  - apply (C52_short_decimals some_reals _ true 0 1 1); try (vm_compute; reflexivity); try lia; vm_compute; split; (reflexivity || discriminate).
  - apply (C52_short_decimals some_reals _ false 2 2 25); try (vm_compute; reflexivity); try lia; vm_compute; split; (reflexivity || discriminate).
Qed.

(** Every file of four example projects of the repository, written by butane itself,
    reads as the model says and is written again byte for byte. *)
Definition same_text (p : string * string * string) : bool :=
  let '(_, n, t) := p in
  match file_of some_reals n t with
  | Ok f => match file_text some_reals point_pg f with Ok s => String.eqb s t | _ => false end
  | _ => false
  end.
Definition same_project (r : repo_project) : bool :=
  forallb same_text (rp_files r)
  && match rp_state r with
     | None => true
     | Some t => match state_of_text t with
                 | Ok l => match file_text some_reals point_pg (FState l) with Ok s => String.eqb s t | _ => false end
                 | _ => false
                 end
     end
  && match clistate_of_text (rp_cli r) with Ok b => String.eqb (clistate_text some_reals b) (rp_cli r) | _ => false end.
Example C52_example_repository :
  forallb same_project [repo_getting_started; repo_newtype; repo_reserved_words; repo_custom_pg] = true
  /\ length (flat_map rp_files [repo_getting_started; repo_newtype; repo_reserved_words; repo_custom_pg]) = 93%nat.
Proof. split; vm_compute; reflexivity. Qed.
(** A table file cut in the middle. *)
Example C52_example_cut : exists s p q, file_text some_reals point_pg (FTable rich_table) = Ok s /\ s = p ++ q
  /\ String.length p = 300%nat /\ table_of_text some_reals p = Err SerdeJson.
Proof.
  destruct (file_text some_reals point_pg (FTable rich_table)) as [s| |] eqn:E; [|vm_compute in E; discriminate..].
  exists s, (substring 0 300 s), (substring 300 5000 s). vm_compute in E. injection E as <-.
  split; [reflexivity|]. split; [vm_compute; reflexivity|]. split; vm_compute; reflexivity.
Qed.

(** ** Findings *)

(** 1e-30 and the f64 before it. *)
Definition tiny : f64 := 4158027847206421152.
Definition tiny_before : f64 := 4158027847206421151.
Definition ryu_tiny (r : f64) : string :=
  if Z.eqb r tiny then "1e-30" else if Z.eqb r tiny_before then "9.999999999999999e-31" else "0.0".
Definition tiny_table (r : f64) : ATable :=
  {| t_name := "t"; t_cols := [rich_column "a" (KnownId (TyId TReal)) (Some (VReal r)) None] |}.
Definition tiny_db (r : f64) : ADB := {| a_tables := [("t", tiny_table r)]; a_types := [] |}.
(** Finding: a real default need not read back as itself.  serde_json is used without its
    feature float_roundtrip, and computes the number 1e-30 as 1 divided by an f64 near
    1e30; a column with the default 1e-30 is recorded, and reads back with the f64 before
    it, whose own text reads back as 1e-30.  The difference between the two is a change of
    the column, so that every [makemigration] makes a migration for it, for ever. *)
Theorem C52_real_default_refuted : exists s s',
  file_text ryu_tiny point_pg (FTable (tiny_table tiny)) = Ok s /\
  table_of_text ryu_tiny s = Ok (tiny_table tiny_before) /\
  file_text ryu_tiny point_pg (FTable (tiny_table tiny_before)) = Ok s' /\
  table_of_text ryu_tiny s' = Ok (tiny_table tiny) /\
  tiny = f64_ratio 1 (10 ^ 30) /\
  diff_out (tiny_db tiny_before) (tiny_db tiny)
  = Ok [ChangeColumn "t" (rich_column "a" (KnownId (TyId TReal)) (Some (VReal tiny_before)) None)
                      (rich_column "a" (KnownId (TyId TReal)) (Some (VReal tiny)) None)].
Proof. do 2 eexists. repeat split; vm_compute; reflexivity. Qed.
Print Assumptions C52_real_default_refuted.
(** Finding: a default too large for an f64, as 1e400, is recorded as null, and the table
    cannot be read any more. *)
Theorem C52_infinite_default_refuted : forall show, exists t s,
  file_text show point_pg (FTable t) = Ok s /\ table_of_text show s = Err SerdeJson.
Proof.
  intros show. exists (tiny_table f64_inf). eexists. split; [vm_compute; reflexivity|vm_compute; reflexivity].
Qed.
Print Assumptions C52_infinite_default_refuted.
