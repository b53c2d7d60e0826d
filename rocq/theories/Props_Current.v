(** Property theorems C49: the current schema. *)
From Coq Require Import Permutation.
From Verif Require Import Base SqlVal Adb AdbSpec AdbProofs ResolveSpec ResolveProofs Props_Schema
  Chain ChainSpec ChainProofs Store StoreSpec StoreProofs FsStore FsSpec FsProofs Props_Migrations
  Conv ConvSpec Codegen CodegenSpec CodegenProofs Props_Models Maint MaintSpec MaintProofs MaintLaid MaintWorld Props_Maint Current CurrentSpec CurrentProofs CurrentMem.

(** ** After any history *)

(** A project that has not been compiled yet has no current schema. *)
Theorem C49_start : forall fs, mget "current"%string (fs_dirs fs) = None ->
  current_holds fs (fun _ => None) (fun _ => None).
Proof.
  intros fs H. assert (G : forall k, get_file "current" k fs = None) by (intros k; unfold get_file; now rewrite H).
  split; [apply G|intros n; now rewrite G|discriminate|]. exists []. split; [apply msorted_nil|]. split; [reflexivity|]. auto.
Qed.
Print Assumptions C49_start.

(** Compile models, derive field types, delete tables and clean in any order and as often
    as you like: the current schema is made of what was recorded last for each table and
    each type, and nothing but the current schema is touched. *)
Theorem C49_current_schema : forall resolve ls l fs T Y fs' tr, fs_ok fs -> current_holds fs T Y ->
  run_commands resolve ls l fs = (fs', tr) ->
  let h := flat_map (events resolve) l in
  only_current fs fs' /\ fs_ok fs' /\
  current_holds fs' (fun n => table_after n h (T n)) (fun k => type_after k h (Y k)) /\
  exists d, schema_of (fun n => table_after n h (T n)) (fun k => type_after k h (Y k)) d /\ reads_as fs' d.
Proof.
  intros resolve ls l fs T Y fs' tr OK H R h. destruct (commands_do resolve ls l fs T Y fs' tr OK H R) as ((F1 & F2 & F3) & A & _).
  split; [split; assumption|]. split; [exact F1|]. split; [exact A|]. exact (read_current _ _ _ A).
Qed.
Print Assumptions C49_current_schema.

(** Which of these succeed: compiling a model exactly when the macro accepts it, deriving
    a field type always, deleting a table exactly when it is there, and cleaning exactly
    when there is something to clean. *)
Theorem C49_outcome : forall resolve ls fs T Y, fs_ok fs -> current_holds fs T Y ->
  (forall s, fst (fst (run_command resolve ls (Build s) fs)) = Ok tt <-> exists ts, create_atables resolve s = Ok ts) /\
  (forall n d, fst (fst (run_command resolve ls (Derive n d) fs)) = Ok tt) /\
  (forall n, fst (fst (run_command resolve ls (DeleteTable n) fs)) = if T n then Ok tt else Err IOError) /\
  (fst (fst (run_command resolve ls Clean fs)) = if mget "current"%string (fs_dirs fs) then Ok tt else Err IOError).
Proof.
  intros resolve ls fs T Y OK H. split; [|split; [|split]]; intros; cbn [run_command].
  - destruct (write_table_to_disk resolve s fs) as [[o f] t] eqn:E. exact (write_model_outcome _ _ _ _ _ _ _ _ OK H E).
  - unfold add_custom_type. destruct (fs_add_type _ _ _ fs) as [[o f] t] eqn:E. cbn. exact (proj2 (add_type_does _ _) _ _ _ _ _ _ OK H E).
  - unfold cli_delete_table. destruct (fs_delete_table _ n fs) as [[o f] t] eqn:E. cbn.
    destruct (delete_table_does n _ _ _ _ _ _ OK H E) as (A & B & _). destruct (T n) eqn:ET; [apply A; discriminate|now apply B].
  - unfold cli_clean. destruct (fs_clear_current ls fs) as [[o f] t] eqn:E. cbn.
    destruct (clean_any ls _ _ _ _ OK E) as (A & B & _). destruct (mget _ _) eqn:EM.
    + apply A. eexists. exact EM.
    + apply B. intros [x X]. congruence.
Qed.
Print Assumptions C49_outcome.

(** Wherever the process stops, the current schema is the one recorded up to there, or
    reading it is refused because the file being written is cut off, or it has lost some
    of its tables to a clean that was under way.  Never is a wrong table read. *)
Theorem C49_interrupted : forall resolve ls l fs T Y fs' tr, fs_ok fs -> current_holds fs T Y ->
  run_commands resolve ls l fs = (fs', tr) ->
  Forall (fun x => only_current fs x /\ exists h1 h2, flat_map (events resolve) l = h1 ++ h2 /\
    ((exists d, schema_of (fun n => table_after n h1 (T n)) (fun k => type_after k h1 (Y k)) d /\ reads_as x d)
     \/ (forall ls', listing ls' -> fs_read_db ls' "current" x = Err SerdeJson)
     \/ (exists r, h2 = AllGone :: r) /\
        exists T' Y' d, (forall n, T' n = table_after n h1 (T n) \/ T' n = None) /\
          (forall k, Y' k = type_after k h1 (Y k) \/ Y' k = None) /\ schema_of T' Y' d /\ reads_as x d)) tr.
Proof.
  intros resolve ls l fs T Y fs' tr OK H R. destruct (commands_do resolve ls l fs T Y fs' tr OK H R) as (_ & _ & M).
  eapply Forall_impl; [|exact M]. intros x ((F1 & F2 & F3) & h1 & h2 & E & C). split; [split; assumption|].
  exists h1, h2. split; [exact E|]. destruct C as [C|[(k & fs0 & K & C & D)|[X (T' & Y' & C & CT & CY)]]].
  - left. exact (read_current _ _ _ C).
  - right. left. intros ls' PL. eapply read_cut; [|exact K|exact PL]. exists fs0. eauto.
  - right. right. split; [exact X|]. destruct (read_current _ _ _ C) as (d & D1 & D2). exists T', Y', d. auto.
Qed.
Print Assumptions C49_interrupted.

(** Cleaning removes the current schema whatever state it is in, cut-off files
    included. *)
Theorem C49_clean_recovers : forall ls fs o fs' tr, fs_ok fs -> cli_clean ls fs = (o, fs', tr) ->
  only_current fs fs' /\ fs_ok fs' /\ current_holds fs' (fun _ => None) (fun _ => None).
Proof.
  intros ls fs o fs' tr OK E. destruct (clean_any ls fs o fs' tr OK E) as (_ & _ & (F1 & F2 & F3) & D & G & _).
  split; [split; assumption|]. split; [exact F1|]. apply C49_start. destruct (mget _ _) eqn:X; [|reflexivity].
  destruct D. eexists. exact X.
Qed.
Print Assumptions C49_clean_recovers.

(** ** Compiling everything *)

Definition compiles_only (c : command) : Prop := match c with Build _ | Derive _ _ => True | _ => False end.
(** The tables a list of commands is about. *)
Definition recorded (resolve : resolver) (l : list command) (t : ATable) : Prop :=
  exists s ts, In (Build s) l /\ create_atables resolve s = Ok ts /\ In t ts.
Lemma builds_events resolve l : Forall compiles_only l -> forall e, In e (flat_map (events resolve) l) ->
  (exists t, e = TableIs t /\ recorded resolve l t) \/ exists k t, e = TypeNamed k t.
Proof.
  intros F e H. apply in_flat_map in H as (c & Hc & He). rewrite Forall_forall in F. specialize (F c Hc).
  destruct c as [s|n d|n|]; cbn in F; try contradiction.
  - cbn [events] in He. destruct (create_atables resolve s) as [ts| |] eqn:E; try contradiction.
    apply in_app_or in He as [He|He]; apply in_map_iff in He as (x & <- & Hx); [left|right; eauto].
    exists x. split; [reflexivity|]. exists s, ts. auto.
  - destruct He as [<-|[]]. right. eauto.
Qed.
Lemma recorded_event resolve l t : recorded resolve l t -> In (TableIs t) (flat_map (events resolve) l).
Proof.
  intros (s & ts & Hs & E & Ht). apply in_flat_map. exists (Build s). split; [exact Hs|]. cbn [events]. rewrite E.
  apply in_or_app. left. now apply in_map.
Qed.
Definition only_records (h : list event) : Prop :=
  forall e, In e h -> (exists t, e = TableIs t) \/ exists k t, e = TypeNamed k t.
Lemma table_after_some n h : only_records h -> forall o,
  (forall t, In (TableIs t) h -> t_name t <> n) /\ table_after n h o = o \/
  exists t, In (TableIs t) h /\ t_name t = n /\ table_after n h o = Some t.
Proof.
  induction h as [|e h IH]; intros P o; [left; split; [intros t []|reflexivity]|].
  assert (P' : only_records h) by (intros x Hx; apply P; now right).
  unfold table_after. cbn [fold_left]. fold (table_after n h (table_after1 n o e)).
  destruct (IH P' (table_after1 n o e)) as [[N E]|(t & Ht & Nt & E)]; [|right; exists t; split; [now right|auto]].
  rewrite E. destruct (P e (or_introl eq_refl)) as [[t ->]|(k & t & ->)]; cbn.
  - destruct (String.eqb_spec (t_name t) n) as [En|En]; [right; exists t; auto|].
    left. split; [|reflexivity]. intros t' [[= <-]|H']; [exact En|now apply N].
  - left. split; [|reflexivity]. intros t' [H'|H']; [discriminate|now apply N].
Qed.
Lemma type_after_some k h : only_records h -> forall o,
  (forall t, ~ In (TypeNamed k t) h) /\ type_after k h o = o \/
  exists t, In (TypeNamed k t) h /\ type_after k h o = Some t.
Proof.
  induction h as [|e h IH]; intros P o; [left; split; [intros t []|reflexivity]|].
  assert (P' : only_records h) by (intros x Hx; apply P; now right).
  unfold type_after. cbn [fold_left]. fold (type_after k h (type_after1 k o e)).
  destruct (IH P' (type_after1 k o e)) as [[N E]|(t & Ht & E)]; [|right; exists t; split; [now right|auto]].
  rewrite E. destruct (P e (or_introl eq_refl)) as [[t ->]|(k' & t & ->)]; cbn [type_after1].
  - left. split; [|reflexivity]. intros t' [H'|H']; [discriminate|now apply (N t')].
  - destruct (keqb_spec k' k) as [->|En]; [right; exists t; split; [now left|reflexivity]|].
    left. split; [|reflexivity]. intros t' [H'|H']; [injection H' as -> _; now destruct En|now apply (N t')].
Qed.

(** After a clean, compiling every model of the project makes the current schema exactly
    the tables of its models, whatever was there before. *)
Theorem C49_rebuild : forall resolve ls l fs o fs1 tr1 fs' tr, fs_ok fs -> cli_clean ls fs = (o, fs1, tr1) ->
  Forall compiles_only l -> run_commands resolve ls l fs1 = (fs', tr) ->
  exists d, reads_as fs' d /\ msorted (a_tables d) /\
    (forall n t, mget n (a_tables d) = Some t -> t_name t = n /\ recorded resolve l t) /\
    (forall t, recorded resolve l t -> mget (t_name t) (a_tables d) <> None).
Proof.
  intros resolve ls l fs o fs1 tr1 fs' tr OK E F R.
  destruct (C49_clean_recovers ls fs o fs1 tr1 OK E) as (_ & OK1 & H1).
  destruct (C49_current_schema resolve ls l fs1 _ _ fs' tr OK1 H1 R) as (_ & _ & _ & d & (D1 & _ & D2 & _) & D3).
  assert (P : only_records (flat_map (events resolve) l)).
  { intros e He. destruct (builds_events resolve l F e He) as [(t & -> & _)|(k & t & ->)]; eauto. }
  exists d. split; [exact D3|]. split; [exact D1|]. split.
  - intros n t. rewrite D2. destruct (table_after_some n _ P None) as [[_ ->]|(u & Hu & Nu & ->)]; [discriminate|].
    intros [= <-]. split; [exact Nu|]. destruct (builds_events resolve l F _ Hu) as [(v & [= <-] & Hv)|(k & v & Hv)]; [exact Hv|discriminate].
  - intros t Ht. rewrite D2. apply recorded_event in Ht.
    destruct (table_after_some (t_name t) _ P None) as [[N _]|(u & _ & _ & ->)]; [now destruct (N t Ht)|discriminate].
Qed.
Print Assumptions C49_rebuild.

(** The order in which models are compiled does not matter, as long as no two of them
    have a table or type in common. *)
Definition subject (e : event) : list (string + TypeKey) :=
  match e with TableIs t => [inl (t_name t)] | TypeNamed k _ => [inr k] | TableGone n => [inl n] | AllGone => [] end.
Lemma table_after_in n h t o : only_records h -> NoDup (flat_map subject h) -> In (TableIs t) h -> t_name t = n ->
  table_after n h o = Some t.
Proof.
  intros P ND Ht Nt. destruct (table_after_some n h P o) as [[N _]|(u & Hu & Nu & E)]; [now destruct (N t Ht)|].
  rewrite E. f_equal. clear E P o. revert ND Hu Ht. induction h as [|e h IH]; intros ND Hu Ht; [destruct Hu|].
  cbn in ND. destruct Hu as [->|Hu], Ht as [Ht|Ht]; try (now injection Ht); try (subst e);
    cbn in ND; try (apply NoDup_cons_iff in ND as [X _]; destruct X; apply in_flat_map; eexists; split; [eassumption|]; cbn; left; congruence).
  apply IH; auto. clear - ND. induction (subject e) as [|a l IHl]; [exact ND|]. cbn in ND. inversion ND; auto.
Qed.
Lemma type_after_in k h t o : only_records h -> NoDup (flat_map subject h) -> In (TypeNamed k t) h -> type_after k h o = Some t.
Proof.
  intros P ND Ht. destruct (type_after_some k h P o) as [[N _]|(u & Hu & E)]; [now destruct (N t Ht)|].
  rewrite E. f_equal. clear E P o. revert ND Hu Ht. induction h as [|e h IH]; intros ND Hu Ht; [destruct Hu|].
  cbn in ND. destruct Hu as [->|Hu], Ht as [Ht|Ht]; try (now injection Ht); try (subst e);
    cbn in ND; try (apply NoDup_cons_iff in ND as [X _]; destruct X; apply in_flat_map; eexists; split; [eassumption|]; cbn; left; congruence).
  apply IH; auto. clear - ND. induction (subject e) as [|a l IHl]; [exact ND|]. cbn in ND. inversion ND; auto.
Qed.
Lemma perm_flat {A B} (f : A -> list B) l l' : Permutation l l' -> Permutation (flat_map f l) (flat_map f l').
Proof. intros H. now apply Permutation_flat_map. Qed.
Lemma after_perm h h' : only_records h -> NoDup (flat_map subject h) -> Permutation h h' ->
  (forall n o, table_after n h' o = table_after n h o) /\ (forall k o, type_after k h' o = type_after k h o).
Proof.
  intros P ND PM.
  assert (P' : only_records h') by (intros e He; apply P; eapply Permutation_in; [apply Permutation_sym, PM|exact He]).
  assert (ND' : NoDup (flat_map subject h')) by (eapply Permutation_NoDup; [apply perm_flat, PM|exact ND]).
  split.
  - intros n o. destruct (table_after_some n h' P' o) as [[N E]|(t & Ht & Nt & E)]; rewrite E.
    + destruct (table_after_some n h P o) as [[_ E']|(t & Ht & Nt & _)]; [now rewrite E'|].
      destruct (N t); [eapply Permutation_in; [exact PM|exact Ht]|exact Nt].
    + symmetry. eapply table_after_in; eauto. eapply Permutation_in; [apply Permutation_sym, PM|exact Ht].
  - intros k o. destruct (type_after_some k h' P' o) as [[N E]|(t & Ht & E)]; rewrite E.
    + destruct (type_after_some k h P o) as [[_ E']|(t & Ht & _)]; [now rewrite E'|].
      destruct (N t). eapply Permutation_in; [exact PM|exact Ht].
    + symmetry. eapply type_after_in; eauto. eapply Permutation_in; [apply Permutation_sym, PM|exact Ht].
Qed.
Theorem C49_any_order : forall resolve ls l l' fs T Y fs1 tr1 fs2 tr2, fs_ok fs -> current_holds fs T Y ->
  Forall compiles_only l -> Permutation l l' -> NoDup (flat_map subject (flat_map (events resolve) l)) ->
  run_commands resolve ls l fs = (fs1, tr1) -> run_commands resolve ls l' fs = (fs2, tr2) ->
  exists d, reads_as fs1 d /\ reads_as fs2 d.
Proof.
  intros resolve ls l l' fs T Y fs1 tr1 fs2 tr2 OK H F PM ND R1 R2.
  destruct (C49_current_schema resolve ls l fs T Y fs1 tr1 OK H R1) as (_ & _ & _ & d & (A1 & A2 & A3 & A4) & A5).
  destruct (C49_current_schema resolve ls l' fs T Y fs2 tr2 OK H R2) as (_ & _ & _ & d' & (B1 & B2 & B3 & B4) & B5).
  assert (P : only_records (flat_map (events resolve) l)).
  { intros e He. destruct (builds_events resolve l F e He) as [(t & -> & _)|(k & t & ->)]; eauto. }
  destruct (after_perm _ _ P ND (perm_flat (events resolve) _ _ PM)) as [ET EY].
  exists d. split; [exact A5|]. replace d with d'; [exact B5|]. eapply schema_of_unique; [|split; [exact A1|split; [exact A2|split; [exact A3|exact A4]]]].
  split; [exact B1|]. split; [exact B2|]. split; [intros n; now rewrite B3, ET|intros k; now rewrite B4, EY].
Qed.
Print Assumptions C49_any_order.

(** Example: two models and a derived type, compiled in both orders, one of them twice. *)
Definition tag : sdef :=
  {| st_ident := "Tag"; st_attrs := [];
     st_fields := [{| sf_ident := "tag"; sf_ty := bare "Label"; sf_attrs := [AttrPk] |}] |}.
Definition old_tag : sdef :=
  {| st_ident := "Tag"; st_attrs := []; st_fields := [{| sf_ident := "n"; sf_ty := bare "i64"; sf_attrs := [AttrPk] |}] |}.
Definition blog : sdef :=
  {| st_ident := "Blog"; st_attrs := []; st_fields := [f_plain "id" (bare "i64")] |}.
Definition ex_commands : list command := [Build post; Build blog; Derive "Label" (DEnum ["A"]); Build tag].
Definition ex_run := run_commands table_resolve (@rev string) (Build old_tag :: ex_commands) fs_empty.
Definition column_names (o : outcome ADB) : list (string * list (string * DeferredSqlType)) :=
  match o with Ok d => map (fun p => (fst p, map (fun c => (c_name c, c_type c)) (t_cols (snd p)))) (a_tables d) | _ => [] end.
Example C49_case : fs_ok fs_empty /\ mget "current"%string (fs_dirs fs_empty) = None /\
  Forall compiles_only ex_commands /\ NoDup (flat_map subject (flat_map (events table_resolve) ex_commands)) /\
  column_names (fs_read_db (@rev string) "current" (fst ex_run))
  = [("Blog", [("id", KnownId (TyId TBigInt))]);
     ("Tag", [("tag", KnownId (TyId TText))]);
     ("posts", [("title", KnownId (TyId TText)); ("id", KnownId (TyId TBigInt)); ("type", KnownId (TyId TInt)); ("blog", KnownId (TyId TBigInt))]);
     ("posts_tags_Many", [("owner", KnownId (TyId TBigInt)); ("has", KnownId (TyId TText))])]%string /\
  Exists (fun x => fs_read_db (@rev string) "current" x = Err SerdeJson) (snd ex_run) /\
  column_names (fs_read_db (@rev string) "current" (fst (run_commands table_resolve (@rev string) [DeleteTable "posts_tags_Many"; Build blog; DeleteTable "posts"] (fst ex_run))))
  = [("Blog", [("id", KnownId (TyId TBigInt))]); ("Tag", [("tag", KnownId (TyId TText))])]%string.
Proof.
  split; [split; [constructor|discriminate]|]. split; [reflexivity|]. split; [repeat constructor|].
  split; [vm_compute; repeat constructor; cbn; intuition discriminate|]. split; [vm_compute; reflexivity|].
  split; [apply Exists_exists; exists (nth 1 (snd ex_run) fs_empty); split; [apply nth_In; vm_compute; repeat constructor|vm_compute; reflexivity]|].
  vm_compute. reflexivity.
Qed.

Definition key_col (n : string) : AColumn :=
  {| c_name := n; c_type := KnownId (TyId TBigInt); c_nullable := false; c_pk := true; c_auto := false;
     c_unique := false; c_default := None; c_ref := None |}.
(** A model that is renamed or deleted stays in the current schema: compiling the rest of
    the project does not remove its table, and the next migration keeps it. *)
Theorem C49_stale_table_refuted : exists resolve ls l l' d, listing ls /\ Forall compiles_only (l ++ l') /\
  reads_as (fst (run_commands resolve ls (l ++ l') fs_empty)) d /\
  exists n t d', mget n (a_tables d) = Some t /\ (forall u, recorded resolve l' u -> t_name u <> n) /\
    resolved d = Ok d' /\ mget n (a_tables d') <> None.
Proof.
  exists table_resolve, (@rev string), [Build blog], [Build old_tag].
  destruct (run_commands table_resolve (@rev string) ([Build blog] ++ [Build old_tag]) fs_empty) as [fs' tr] eqn:E.
  destruct (C49_current_schema table_resolve (@rev string) ([Build blog] ++ [Build old_tag]) fs_empty _ _ fs' tr (proj1 C49_case)
    (C49_start _ (proj1 (proj2 C49_case))) E) as (_ & _ & _ & d & S & R).
  exists d. split; [apply ls_rev|]. split; [repeat constructor|]. split; [exact R|].
  pose (t1 := {| t_name := "Blog"; t_cols := [key_col "id"] |}%string).
  pose (t2 := {| t_name := "Tag"; t_cols := [key_col "n"] |}%string).
  assert (D : d = {| a_tables := [("Blog", t1); ("Tag", t2)]%string; a_types := [] |}).
  { eapply schema_of_unique; [exact S|]. split; [vm_compute; repeat constructor|]. split; [constructor|]. split.
    - intros n. unfold table_after. 
      change (flat_map (events table_resolve) ([Build blog] ++ [Build old_tag])) with
        ([TableIs t1; TableIs t2]). cbn [fold_left table_after1 a_tables mget].
      change (t_name t1) with "Blog"%string. change (t_name t2) with "Tag"%string.
      destruct (String.eqb_spec "Tag" n) as [<-|N2]; [reflexivity|]. destruct (String.eqb_spec "Blog" n) as [<-|N1]; [reflexivity|].
      rewrite (proj2 (keqb_neq n "Blog"%string) (fun X => N1 (eq_sym X))), (proj2 (keqb_neq n "Tag"%string) (fun X => N2 (eq_sym X))). reflexivity.
    - intros k. reflexivity. }
  exists "Blog"%string, t1, {| a_tables := [("Blog", t1); ("Tag", t2)]%string; a_types := [] |}. subst d. split; [reflexivity|]. split; [|split].
  - intros u (s & ts & [[= <-]|[]] & Ec & Hu). vm_compute in Ec. injection Ec as <-. destruct Hu as [<-|[]]. discriminate.
  - vm_compute. reflexivity.
  - discriminate.
Qed.
Print Assumptions C49_stale_table_refuted.

(** A process that stops while a type is being recorded leaves a file that every later
    recording of a type refuses to read, as do reading the schema and making a migration,
    until [clean] is run. *)
Theorem C49_cut_types_refuted : exists ls x, listing ls /\ In x (snd (run_command table_resolve ls (Derive "Label" (DEnum ["A"]%string)) fs_empty)) /\
  forall n d, exists x', fst (run_command table_resolve ls (Derive n d) x) = (Err SerdeJson, x') /\
    fs_read_db ls "current" x' = Err SerdeJson.
Proof.
  exists (@rev string), {| fs_dirs := [("current", [("types.json", FTorn "")])]%string; fs_state := None; fs_gitignore := fs_gitignore fs_empty |}.
  split; [apply ls_rev|]. split; [vm_compute; auto|]. intros n d. eexists. split; vm_compute; reflexivity.
Qed.
Print Assumptions C49_cut_types_refuted.

(** ** Describing *)

Lemma settled_showable d : settled d -> showable d.
Proof.
  intros H n t c Ht Hc. destruct (proj1 (H n t Ht) c Hc) as [[i E] R]. split.
  - unfold typeid. destruct (c_type c); cbn in E; try discriminate; injection E as <-; eauto.
  - intros x. destruct R as [->|[l ->]]; discriminate.
Qed.
(** Describing a stored migration tells exactly what it changes: every new and removed
    table, every new and removed column, and of every changed column each property that
    differs with its old and new value, and nothing else.  Nothing is changed. *)
Theorem C49_describe : forall ls fs made a n d q, listing ls -> laid_store fs made -> made = a ++ (n, d) :: q ->
  exists ops tr lines, describe_migration ls n fs = (Ok ops, fs, tr) /\ Forall (eq fs) tr /\
    print_ops ops = Ok lines /\ described (last (map snd a) adb_new) d lines /\ ~ In NoChanges lines.
Proof.
  intros ls fs made a n d q PL H E. pose proof (ls_laid _ _ H) as L. rewrite E in L. apply laid_chain_app in L as [_ L].
  inversion L as [|? ? ? ? ? LO _]; subst.
  destruct (laid_differs fs _ a n d q H eq_refl) as (W1 & W2 & NS).
  assert (Hin : In (n, d) (a ++ (n, d) :: q)) by (apply in_or_app; right; now left).
  assert (SO : showable (last (map snd a) adb_new)).
  { destruct a as [|[p dp] a _] using rev_ind; [intros x t c []|]. rewrite map_app. cbn [map snd]. rewrite last_last. apply settled_showable.
    eapply st_settled, stored_of; [exact H|]. apply in_or_app. left. apply in_or_app. right. now left. }
  assert (SN : showable d) by (apply settled_showable; eapply st_settled, LO).
  destruct (describe_runs ls n fs d (last (map Some (map fst a)) None) (last (map snd a) adb_new) PL) as (tr & R & T).
  - intros X. apply (ls_current _ _ H). apply (in_map fst) in Hin. now rewrite <- X.
  - eapply st_dir, LO.
  - eapply laid_schema; eassumption.
  - apply LO.
  - destruct a as [|[p dp] a _] using rev_ind; [reflexivity|]. rewrite !(map_app _ a). cbn [map fst snd]. rewrite last_some, last_last.
    assert (Hp : In (p, dp) ((a ++ [(p, dp)]) ++ (n, d) :: q)) by (apply in_or_app; left; apply in_or_app; right; now left).
    split; [eapply st_dir, stored_of; eassumption|eapply laid_schema; eassumption].
  - rewrite diff_eq in R. destruct (describes _ _ _ W1 W2 SO SN (diff_eq (last (map snd a) adb_new) d)) as (lines & P & D).
    eexists _, tr, lines. split; [exact R|]. split; [exact T|]. split; [exact P|]. split; [exact D|].
    intros X. apply NS, (ds_same _ _ _ D), X.
Qed.
Print Assumptions C49_describe.

(** Describing the current schema tells what the next migration would change. *)
Theorem C49_describe_current : forall ls fs made d, listing ls -> laid_store fs made -> has_dir fs "current" ->
  fs_schema fs "current" d -> wf_schema d -> showable d ->
  exists ops tr lines, describe_migration ls "current" fs = (Ok ops, fs, tr) /\ Forall (eq fs) tr /\
    print_ops ops = Ok lines /\ described (last (map snd made) adb_new) d lines.
Proof.
  intros ls fs made d PL H HD RD W SH.
  assert (X : wf_schema (last (map snd made) adb_new) /\ showable (last (map snd made) adb_new) /\
    match fs_latest fs with None => last (map snd made) adb_new = adb_new | Some p => fs_schema fs p (last (map snd made) adb_new) end).
  { pose proof (laid_from_latest _ _ H) as FL. destruct (fs_latest fs) as [p|] eqn:E.
    - cbn [from_schema] in FL. split; [eapply st_wf, FL|]. split; [eapply settled_showable, st_settled, FL|]. apply stored_schema; [apply H|exact FL].
    - cbn [from_schema] in FL. rewrite FL. split; [apply empty_wf|]. split; [intros x t c []|reflexivity]. }
  destruct X as (W0 & S0 & X). destruct (describe_current_runs ls fs d _ PL RD HD X) as (tr & R & T). rewrite diff_eq in R.
  destruct (describes _ _ _ W0 W S0 SH (diff_eq (last (map snd made) adb_new) d)) as (lines & P & D). eexists _, tr, lines.
  split; [exact R|]. split; [exact T|]. split; [exact P|exact D].
Qed.
Print Assumptions C49_describe_current.
(** A migration that does not exist is refused. *)
Theorem C49_describe_unknown : forall ls n fs, n <> "current"%string -> ~ has_dir fs n ->
  describe_migration ls n fs = (Err (Internal "No such migration!"), fs, []).
Proof. exact describe_unknown. Qed.
Print Assumptions C49_describe_unknown.

Definition told (x : outcome (list Operation) * FS * list FS) : outcome (list line) :=
  match fst (fst x) with Ok ops => print_ops ops | Err e => Err e | Panic => Panic end.
Example C49_describe_case : exists made, laid_store ex_fs made /\ map fst made = ex_names /\
  told (describe_migration (@rev string) "m3" ex_fs) = Ok
    [NewTable "tag"; TableColumn "tag" (TyId TText); TableColumn "p" (TyId TInt); TableRemoved "blog";
     NewColumn "post" "body" (TyId TText); ColumnRemoved "post" "likes";
     ColumnChanged "post" "title"; NullableIs false true; UniqueIs false true; DefaultIs None (Some (VText "x"))]%string.
Proof.
  destruct ex_fs_laid as (made & H & N & _). exists made. split; [exact H|]. split; [exact N|]. vm_compute. reflexivity.
Qed.
(** A migration whose predecessor has been deleted cannot be described: the command
    panics. *)
Theorem C49_describe_orphan_refuted : exists ls fs n, listing ls /\ fs_ok fs /\ has_dir fs n /\
  fst (fst (describe_migration ls n fs)) = Panic.
Proof.
  exists (@rev string), {| fs_dirs := [("b", [("info.json", FInfo {| in_from := Some "a"; in_bases := []; in_backends := [] |})])]%string;
                           fs_state := None; fs_gitignore := false |}, "b"%string.
  split; [apply ls_rev|]. split; [|split; [eexists; reflexivity|vm_compute; reflexivity]].
  split; [repeat constructor|]. intros d dir. cbn. destruct (keqb d "b"%string); [intros [= <-]; repeat constructor|discriminate].
Qed.
Print Assumptions C49_describe_orphan_refuted.

(** ** The store in memory *)

(** Any edits of a migration in memory, failed ones included: its name stays, its
    predecessor is the one set last, each backend has the scripts given last, both or
    none, and each table and type is the one recorded last, except that open types and
    references may have been filled in. *)
Theorem C49_memory : forall l m m',
  msorted (a_tables (mm_db m)) -> msorted (a_types (mm_db m)) -> msorted (mm_up m) -> msorted (mm_down m) ->
  mem_edits m l = Ok m' ->
  mm_name m' = mm_name m /\ mm_from m' = fold_left from_after1 l (mm_from m) /\
  (forall b o, mget b (mm_up m) = option_map fst o /\ mget b (mm_down m) = option_map snd o ->
     mget b (mm_up m') = option_map fst (fold_left (scripts_after1 b) l o) /\
     mget b (mm_down m') = option_map snd (fold_left (scripts_after1 b) l o)) /\
  (forall n, table_kept (table_after n (flat_map edit_events l) (mget n (a_tables (mm_db m)))) (mget n (a_tables (mm_db m')))) /\
  (forall k, type_entry_kept (type_after k (flat_map edit_events l) (mget k (a_types (mm_db m)))) (mget k (a_types (mm_db m')))).
Proof.
  intros l m m' S1 S2 S3 S4 E. destruct (edits_do l m m' (conj S1 (conj S2 (conj S3 S4))) E) as (_ & A & B & C & D & F). auto 6.
Qed.
Print Assumptions C49_memory.
(** The calls that fail report it and the others do not, and the calls [create_migration]
    and [copy_migration] make (C14, C48) are these edits. *)
Theorem C49_memory_calls : forall m,
  (forall t, mm_add_table m t = do p <- mem_edit m (EdTable t); do _ <- snd p; Ok (fst p)) /\
  (forall k t, mm_add_type m k t = do p <- mem_edit m (EdType k t); do _ <- snd p; Ok (fst p)) /\
  (forall e, match e with EdTable _ | EdType _ _ => False | _ => True end -> exists m', mem_edit m e = Ok (m', Ok tt)).
Proof.
  intros m. split; [|split].
  - intros t. unfold mm_add_table, mem_edit, mm_resolved. destruct (resolve_types _) as [[d [[]|e|]]| |]; reflexivity.
  - intros k t. unfold mm_add_type, mem_edit, mm_resolved. destruct (resolve_types _) as [[d [[]|e|]]| |]; reflexivity.
  - intros [] H; try contradiction; eexists; reflexivity.
Qed.
Print Assumptions C49_memory_calls.
(** Deleting all migrations leaves none, and the current schema as it is. *)
Theorem C49_memory_delete : forall s,
  (forall n, mem_get (mem_delete s) n = None) /\ mem_latest (mem_delete s) = None /\
  all_migrations (mem_coll (mem_delete s)) = Ok [] /\ ms_current (mem_delete s) = ms_current s.
Proof. intros s. repeat split. Qed.
Print Assumptions C49_memory_delete.

Definition fk_table : ATable :=
  {| t_name := "post"; t_cols := [key_col "id";
       with_ref (with_type (key_col "blog") (Deferred (PK "blog"))) (Some (RefDeferred (Deferred (PK "blog"))))] |}%string.
Definition blog_table (ty : SqlType) : ATable :=
  {| t_name := "blog"; t_cols := [with_type (key_col "id") (KnownId (TyId ty))] |}%string.
Definition mem_columns (m : MemMigration) := column_names (Ok (mm_db m)).
Example C49_memory_case : exists m, mem_edits (mem_migration "m") [EdTable fk_table; EdSql "a" "x" "y"; EdFrom (Some "p"%string);
    EdTable (blog_table TInt); EdSql "b" "u" "v"; EdNoSql "a"; EdType (CustomType "T") (KnownId (TyId TText))] = Ok m /\
  mem_columns m = [("blog", [("id", KnownId (TyId TInt))]); ("post", [("id", KnownId (TyId TBigInt)); ("blog", KnownId (TyId TInt))])]%string /\
  mget "a"%string (mm_up m) = None /\ mget "b"%string (mm_down m) = Some "v"%string.
Proof. eexists. split; [vm_compute; reflexivity|]. vm_compute. auto. Qed.
(** The same tables recorded on disk. *)
Definition fsteps_of (l : list edit) (fs : FS) : FS * list FS :=
  let '(_, fs', tr) := add_tables (flat_map (fun e => match e with EdTable t => [t] | _ => [] end) l) fs in (fs', tr).
(** In memory, unlike on disk, a column that refers to another table keeps the type the
    table's key had when it was first resolved: when the key's type changes, the column
    does not follow until its own table is recorded again. *)
Theorem C49_memory_stale_type_refuted : exists l m fs tr, mem_edits (mem_migration "current") l = Ok m /\
  fsteps_of l fs_empty = (fs, tr) /\
  mem_columns m = [("blog", [("id", KnownId (TyId TText))]); ("post", [("id", KnownId (TyId TBigInt)); ("blog", KnownId (TyId TInt))])]%string /\
  column_names (fs_read_db (@rev string) "current" fs) = [("blog", [("id", KnownId (TyId TText))]); ("post", [("id", KnownId (TyId TBigInt)); ("blog", KnownId (TyId TText))])]%string.
Proof.
  exists [EdTable fk_table; EdTable (blog_table TInt); EdTable (blog_table TText)].
  eexists _, _, _. split; [vm_compute; reflexivity|]. split; [vm_compute; reflexivity|]. split; vm_compute; reflexivity.
Qed.
Print Assumptions C49_memory_stale_type_refuted.
