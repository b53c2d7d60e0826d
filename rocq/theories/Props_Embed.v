(** C53: migrations embedded in a program are those of the migrations directory. *)
From Coq Require Import Permutation.
From Verif Require Import Base SqlVal Json Adb AdbSpec ResolveSpec Chain ChainSpec Store StoreSpec FsStore FsSpec FsProofs
  JsonForm JsonSpec JsonRound JsonTorn ConnSpec Embed EmbedSpec EmbedProofs RepoFiles RepoModel Replay Props_Schema Props_Migrations.
Open Scope string_scope.

(** [embed] copies every migration of the directory, in order, with its predecessor,
    schema and scripts, and changes nothing but the source file and the state of the tool.
    The program compiled from the source has these migrations exactly when no string in
    them begins with the character # or has a double quote before one. *)
Theorem C53_embedded_partial : forall show pg_of ls p l b,
  (forall r, f64_finite r = true -> numeral (show r)) ->
  pj_src p = true -> cli_load p = Ok b -> chain (fs_coll (pj_fs p)) l -> Forall (readable ls (pj_fs p)) l ->
  (forall n d, In n l -> fs_read_db ls n (pj_fs p) = Ok d -> storable_adb show pg_of d) ->
  exists src s j,
    embed show pg_of ls p = (Ok tt, {| pj_fs := pj_fs p; pj_src := true; pj_source := Some src; pj_cli := Some (clistate_text show true) |})
    /\ ser_store pg_of s = Ok j /\ same_migrations ls (pj_fs p) s
    /\ (Forall fits (strings j) -> embedded_migrations show src = Some (Ok s))
    /\ (~ Forall fits (strings j) -> compiled src <> Some (to_string_pretty show j)).
Proof. exact embed_correct. Qed.
Print Assumptions C53_embedded_partial.

(** Any text: the compiled program has it exactly when it has no double quote followed by
    the character #; and a JSON text has none exactly when its strings fit. *)
Theorem C53_literal : forall show v, (forall r, f64_finite r = true -> numeral (show r)) ->
  (compiled (embed_source (to_string_pretty show v)) = Some (to_string_pretty show v) <-> Forall fits (strings v)).
Proof. exact embed_fits. Qed.
Print Assumptions C53_literal.

(** Every history of migrations made in a new directory can be embedded. *)
Theorem C53_created_embedded : forall show pg_of ls bs steps fs fs' tr src0 cli b,
  (forall r, f64_finite r = true -> numeral (show r)) ->
  listing ls -> NoDup (map b_name bs) -> fs_fresh fs -> NoDup (map fst steps) ->
  (forall n to, In (n, to) steps -> fs_get fs n = None /\ wf_schema to /\ settled to /\ storable_adb show pg_of to) ->
  fs_create_all ls bs steps fs = (Ok tt, fs', tr) ->
  let p := {| pj_fs := fs'; pj_src := true; pj_source := src0; pj_cli := cli |} in
  cli_load p = Ok b ->
  exists made src s j, made_of adb_new steps made /\
    embed show pg_of ls p = (Ok tt, {| pj_fs := fs'; pj_src := true; pj_source := Some src; pj_cli := Some (clistate_text show true) |})
    /\ ser_store pg_of s = Ok j
    /\ omap (map mm_name) (all_migrations (mem_coll s)) = Ok (map fst made)
    /\ same_migrations ls fs' s
    /\ (Forall fits (strings j) -> embedded_migrations show src = Some (Ok s)).
Proof.
  intros show pg_of ls bs steps fs fs' tr src0 cli b HS PL ND F NDs Hst H p Hb.
  destruct (created_can_be_embedded show pg_of ls bs steps fs fs' tr PL ND F NDs Hst H) as (made & M & C & E).
  destruct (embed_correct show pg_of ls p (map fst made) b HS eq_refl Hb C) as (src & s & j & E1 & Ej & SM & E2 & _).
  - eapply Forall_impl; [|exact E]. intros n X. apply X.
  - intros n d Hn Hd. rewrite Forall_forall in E. exact (proj2 (E n Hn) d Hd).
  - exists made, src, s, j. split; [exact M|]. split; [exact E1|]. split; [exact Ej|]. split; [|split; [exact SM|exact E2]].
    destruct SM as (l & l' & A & B & F2 & _). change (pj_fs p) with fs' in A. rewrite (ChainProofs.chain_all _ (fs_coherent fs') _ C) in A. apply ok_inj in A as <-.
    rewrite B. cbv beta iota delta [omap obind]. f_equal. clear - F2.
    induction F2 as [|n m l l' X F IH]; [reflexivity|]. cbn. rewrite IH. f_equal. apply X.
Qed.
Print Assumptions C53_created_embedded.

(** The other commands bring the embedding up to date if there is one, and only then. *)
Theorem C53_update : forall show pg_of ls p,
  (cli_load p = Ok true -> update_embedded show pg_of ls p = embed show pg_of ls p) /\
  (cli_load p = Ok false -> update_embedded show pg_of ls p = (Ok tt, p)) /\
  (pj_cli p = None -> cli_load p = Ok false) /\
  (forall p', embed show pg_of ls p = (Ok tt, p') -> cli_load p' = Ok true).
Proof.
  intros show pg_of ls p. unfold update_embedded. split; [now intros ->|]. split; [now intros ->|].
  split; [unfold cli_load; now intros ->|]. intros p' H. unfold embed in H.
  destruct (pj_src p); [|discriminate]. destruct (obind _ _) as [t| |]; try discriminate.
  destruct (cli_load (set_source p (embed_source t))); try discriminate. injection H as <-.
  unfold cli_load, set_cli. cbn [pj_cli]. apply clistate_reads.
Qed.
Print Assumptions C53_update.
(** A failure leaves the directory and the state of the tool alone, and the source too
    unless it is the state of the tool that cannot be read. *)
Theorem C53_failure : forall show pg_of ls p o p', embed show pg_of ls p = (o, p') -> o <> Ok tt ->
  pj_fs p' = pj_fs p /\ pj_cli p' = pj_cli p /\ (p' = p \/ forall b, cli_load p <> Ok b).
Proof.
  intros show pg_of ls p o p' H N. unfold embed in H.
  destruct (pj_src p); [|injection H as <- <-; auto].
  destruct (obind _ _) as [t| |]; try (injection H as <- <-; auto; fail).
  change (cli_load (set_source p (embed_source t))) with (cli_load p) in H.
  destruct (cli_load p) as [b| |]; injection H as <- <-; [congruence|..]; cbn; (split; [reflexivity|split; [reflexivity|right; discriminate]]).
Qed.
Print Assumptions C53_failure.

(** ** Examples *)
Definition no_reals (r : f64) : string := "0.0".
Lemma no_reals_numeral r : f64_finite r = true -> numeral (no_reals r).
Proof. intros _ c. cbn. tauto. Qed.
Definition plain_pg (n : string) : pgtype := PgType n 600 PgSimple "pg_catalog".
Definition dir_order (l : list string) : list string := l.

(** The four example projects of the repository: embedding them gives, byte for byte, the
    sources that are in the repository. *)
Definition embeds_same (r : repo_project) : bool :=
  match load no_reals r with
  | Ok p => match embed no_reals plain_pg dir_order p with
            | (Ok tt, p') => match pj_source p', pj_cli p' with
                             | Some s, Some c => String.eqb s (rp_source r) && String.eqb c (rp_cli r)
                             | _, _ => false
                             end
            | _ => false
            end
  | _ => false
  end.
Example C53_example_repository :
  map embeds_same [repo_getting_started; repo_newtype; repo_reserved_words; repo_custom_pg] = [true; true; true; true].
Proof. vm_compute. reflexivity. Qed.
(** And the migrations in the repository are those the model makes: the same tables, the
    same info.json, and the same scripts for SQLite, PostgreSQL and turso, byte for byte. *)
Definition used_keywords (s : string) : bool :=
  existsb (String.eqb (lower s)) ["id"; "owner"; "tag"; "user"; "rowid"; "name"].
Example C53_example_replay :
  replay_all used_keywords no_reals dir_order repo_getting_started = committed no_reals repo_getting_started
  /\ replay_all used_keywords no_reals dir_order repo_newtype = committed no_reals repo_newtype
  /\ replay_all used_keywords no_reals dir_order repo_reserved_words = committed no_reals repo_reserved_words
  /\ omap (@length _) (committed no_reals repo_getting_started) = Ok 3%nat
  /\ omap (@length _) (committed no_reals repo_newtype) = Ok 2%nat
  /\ omap (@length _) (committed no_reals repo_reserved_words) = Ok 4%nat.
Proof.
  split; [vm_compute; reflexivity|]. split; [vm_compute; reflexivity|]. split; [vm_compute; reflexivity|].
  split; [vm_compute; reflexivity|]. split; vm_compute; reflexivity.
Qed.

(** The history of C14 meets the hypotheses, and its strings fit. *)
Example C53_example : (forall n to, In (n, to) ex_steps -> wf_schema to /\ settled to /\ storable_adb no_reals plain_pg to) /\
  exists fs' tr p' src s, fs_create_all ls_id [toy] ex_steps fs_empty = (Ok tt, fs', tr) /\
    embed no_reals plain_pg ls_id {| pj_fs := fs'; pj_src := true; pj_source := None; pj_cli := None |}
    = (Ok tt, p') /\ pj_source p' = Some src /\
    embedded_migrations no_reals src = Some (Ok s) /\
    omap (map mm_name) (all_migrations (mem_coll s)) = Ok ["m1"; "m3"; "m4"].
Proof.
  split.
  - intros n to H. destruct (ex_steps_ok n to H) as [W St]. split; [exact W|]. split; [exact St|].
    split; [apply W|]. split.
    + cbn in H. repeat (destruct H as [[= <- <-]|H]; [repeat (constructor; [repeat (constructor; [repeat split|]); constructor|]); constructor|]). destruct H.
    + cbn in H. repeat (destruct H as [[= <- <-]|H]; [split; constructor|]). destruct H.
  - destruct (fs_create_all ls_id [toy] ex_steps fs_empty) as [[o fs'] tr] eqn:E.
    assert (X : fst (fst (fs_create_all ls_id [toy] ex_steps fs_empty)) = Ok tt) by (vm_compute; reflexivity).
    assert (Y : let q := embed no_reals plain_pg ls_id {| pj_fs := snd (fst (fs_create_all ls_id [toy] ex_steps fs_empty)); pj_src := true; pj_source := None; pj_cli := None |} in
      fst q = Ok tt /\ match pj_source (snd q) with
        | Some src => match embedded_migrations no_reals src with
                      | Some (Ok s) => omap (map mm_name) (all_migrations (mem_coll s)) = Ok ["m1"; "m3"; "m4"]
                      | _ => False
                      end
        | None => False
        end) by (split; vm_compute; reflexivity).
    rewrite E in X, Y. cbn [fst snd] in X, Y. subst o. destruct (embed no_reals plain_pg ls_id {| pj_fs := fs'; pj_src := true; pj_source := None; pj_cli := None |}) as [o p'] eqn:Ee. cbn [fst snd] in Y. destruct Y as [-> Y].
    destruct (pj_source p') as [src|] eqn:Es; [|contradiction].
    destruct (embedded_migrations no_reals src) as [[s| |]|] eqn:Em; try contradiction.
    exists fs', tr, p', src, s. split; [reflexivity|]. split; [exact Ee|]. split; [exact Es|]. split; [exact Em|exact Y].
Qed.

(** ** Finding *)

Definition colour_db : ADB :=
  {| a_tables := [("label", {| t_name := "label"; t_cols := [pkcol "id" TBigInt;
       {| c_name := "colour"; c_type := KnownId (TyId TText); c_nullable := false; c_pk := false; c_auto := false; c_unique := false;
          c_default := Some (VText "#ffffff"); c_ref := None |}] |})]; a_types := [] |}.
(** Finding: a column whose default is a text that begins with the character #, as a
    colour does, ends the literal.  The migration is made and [embed] reports success, but
    what follows the literal in the file it wrote is the rest of the JSON text: the
    program does not compile any more. *)
Theorem C53_hash_refuted : exists fs' tr p' src s,
  fs_create_all ls_id [toy] [("m1", colour_db)] fs_empty = (Ok tt, fs', tr) /\
  storable_adb no_reals plain_pg colour_db /\
  embed no_reals plain_pg ls_id {| pj_fs := fs'; pj_src := true; pj_source := None; pj_cli := None |} = (Ok tt, p') /\
  pj_source p' = Some src /\ compiled src = None /\
  embed_store ls_id fs' = Ok s /\ same_migrations ls_id fs' s.
Proof.
  destruct (fs_create_all ls_id [toy] [("m1", colour_db)] fs_empty) as [[o fs'] tr] eqn:E.
  assert (Sto : storable_adb no_reals plain_pg colour_db).
  { split; [repeat constructor|]. split; [|split; constructor].
    repeat (constructor; [repeat (constructor; [repeat split|]); constructor|]); constructor. }
  assert (X : fst (fst (fs_create_all ls_id [toy] [("m1", colour_db)] fs_empty)) = Ok tt) by (vm_compute; reflexivity).
  assert (Y : let q := embed no_reals plain_pg ls_id {| pj_fs := snd (fst (fs_create_all ls_id [toy] [("m1", colour_db)] fs_empty)); pj_src := true; pj_source := None; pj_cli := None |} in
    fst q = Ok tt /\ match pj_source (snd q) with Some src => compiled src = None | None => False end)
    by (split; vm_compute; reflexivity).
  rewrite E in X, Y. cbn [fst snd] in X, Y. subst o. destruct (embed no_reals plain_pg ls_id {| pj_fs := fs'; pj_src := true; pj_source := None; pj_cli := None |}) as [o p'] eqn:Ee. cbn [fst snd] in Y. destruct Y as [-> Y].
  destruct (pj_source p') as [src|] eqn:Es; [|contradiction].
  destruct (created_can_be_embedded no_reals plain_pg ls_id [toy] [("m1", colour_db)] fs_empty fs' tr) as (made & _ & C & F).
  - intros l. apply Permutation.Permutation_refl.
  - repeat constructor. intros [].
  - split; [split; [constructor|discriminate]|reflexivity].
  - repeat constructor. intros [].
  - intros n to [[= <- <-]|[]]. split; [reflexivity|]. split; [wf_tac|]. split; [|exact Sto].
    intros n t [[= <- <-]|[]]. split.
    + intros c [<-|[<-|[]]]; (split; [eexists; reflexivity|auto]).
    + left. exists (pkcol "id" TBigInt). eexists [], _. split; [reflexivity|]. split; [reflexivity|]. intros x [].
  - exact E.
  - destruct (embed_store_same ls_id fs' (map fst made) C) as (s & A & B).
    + eapply Forall_impl; [|exact F]. intros a H. apply H.
    + exists fs', tr, p', src, s. repeat (split; [assumption || reflexivity|]). exact B.
Qed.
Print Assumptions C53_hash_refuted.
