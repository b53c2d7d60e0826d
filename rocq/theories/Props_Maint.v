(** Property theorems C44: the commands of the CLI that maintain stored migrations. *)
From Verif Require Import Base SqlVal Adb AdbSpec AdbProofs ResolveSpec ResolveProofs Props_Schema
  Chain ChainSpec ChainProofs Store StoreSpec StoreProofs FsStore FsSpec FsProofs Props_Migrations
  Cli CliProofs Maint MaintSpec MaintProofs MaintLaid MaintWorld.

(** ** The stores these theorems are about *)

(** What [laid_store fs made] means to a user: the migrations are those of [made] in
    this order, and reading them gives their schemas. *)
Theorem C44_store_means : forall fs made, laid_store fs made ->
  all_migrations (fs_coll fs) = Ok (map fst made) /\ chain (fs_coll fs) (map fst made) /\
  forall n d, In (n, d) made -> fs_schema fs n d.
Proof.
  intros fs made H. split; [exact (laid_all _ _ H)|]. split; [apply H|]. intros n d. exact (laid_schema _ _ _ _ H).
Qed.
Print Assumptions C44_store_means.

(** Every history of creations starting without migrations leads to such a store. *)
Lemma absent fs n : fs_get fs n = None -> ~ has_dir fs n.
Proof. intros G [dir D]. unfold fs_get in G. now rewrite D in G. Qed.
Lemma laid_history ls bs : listing ls -> NoDup (map b_name bs) -> forall steps fs made fs' tr, laid_store fs made ->
  NoDup (map fst made ++ map fst steps) ->
  (forall n to, In (n, to) steps -> n <> "current"%string /\ fs_get fs n = None /\ wf_schema to /\ settled to) ->
  fs_create_all ls bs steps fs = (Ok tt, fs', tr) -> exists made', laid_store fs' made'.
Proof.
  intros PL NB. induction steps as [|[n to] r IH]; intros fs made fs' tr H ND HS R; cbn [fs_create_all] in R.
  - injection R as <- _. eauto.
  - destruct (HS n to (or_introl eq_refl)) as (NC & BL & Wt & St).
    apply fbind_ok in R as (l & f0 & t1 & t2 & E1 & R & _). apply fread_ok in E1 as (E1 & -> & _). injection E1 as <-.
    apply fbind_ok in R as (b & fs1 & t3 & t4 & E2 & R & _).
    assert (Nn : ~ In n (map fst made)).
    { intros Hn. cbn [map fst] in ND. apply NoDup_remove_2 in ND. apply ND, in_or_app. now left. }
    destruct b.
    + destruct (laid_made ls bs n fs made to fs1 t3 PL NB H (blank_absent _ _ (absent _ _ BL)) Nn NC Wt St E2) as (d' & SS & LS & LL & _ & SO & _).
      eapply IH; [exact LS| | |exact R].
      * rewrite map_app, <- app_assoc. exact ND.
      * intros n0 to0 H0. destruct (HS n0 to0 (or_intror H0)) as (A & B & C & D). split; [exact A|]. split; [|auto].
        unfold fs_get in *. rewrite SO; [exact B|]. intros ->. cbn [map fst] in ND. apply NoDup_remove_2 in ND. apply ND, in_or_app. right.
        apply in_map_iff. now exists (n, to0).
    + destruct (fs_not_created ls bs n _ to fs _ fs1 t3 (ls_ok _ _ H) PL (laid_from_latest _ _ H) Wt E2) as [-> _].
      eapply IH; [exact H| | |exact R].
      * cbn [map fst] in ND. now apply NoDup_remove_1 in ND.
      * intros n0 to0 H0. apply HS. now right.
Qed.
Theorem C44_creation_lays_out : forall ls bs steps fs fs' tr, listing ls -> NoDup (map b_name bs) -> fs_fresh fs ->
  NoDup (map fst steps) ->
  (forall n to, In (n, to) steps -> n <> "current"%string /\ fs_get fs n = None /\ wf_schema to /\ settled to) ->
  fs_create_all ls bs steps fs = (Ok tt, fs', tr) -> exists made, laid_store fs' made.
Proof.
  intros ls bs steps fs fs' tr PL NB F ND HS R. eapply (laid_history ls bs PL NB steps fs []); eauto using laid_fresh.
Qed.
Print Assumptions C44_creation_lays_out.

(** ** Adding a backend *)

(** Whatever happens and wherever the command is interrupted, the migrations, their
    schemas, the scripts of other backends and all other files stay as they are, except
    that [info.json] of one migration may be torn ([torn_info]); the command never ends
    like that.  When it succeeds, each migration has the new backend's scripts from its
    predecessor's schema to its own and back, and lists the backend. *)
Theorem C44_add_backend : forall ls gb bn fs made o fs' tr, listing ls -> backends_ok gb -> laid_store fs made ->
  cli_add_backend ls gb bn fs = (o, fs', tr) ->
  (laid_store fs' made /\ same_scripts_but bn fs fs' (map fst made) /\ same_rest fs fs' (map fst made)) /\
  Forall (fun x => (laid_store x made /\ same_scripts_but bn fs x (map fst made) /\ same_rest fs x (map fst made)) \/
                   torn_info x (map fst made)) tr /\
  (o = Ok tt -> exists b bs, gb bn = Some b /\ uses_backends gb fs bs /\ ~ In bn (map b_name bs) /\
     forall a m d q, made = a ++ (m, d) :: q -> exists up down i i',
       backend_scripts b (last (map snd a) adb_new) d up down /\
       read_sql m bn "up" fs' = Ok (Some (with_newline up)) /\ read_sql m bn "down" fs' = Ok (Some (with_newline down)) /\
       read_info m fs = Ok i /\ read_info m fs' = Ok i' /\
       in_backends i' = if existsb (String.eqb bn) (in_backends i) then in_backends i else in_backends i ++ [bn]).
Proof.
  intros ls gb bn fs made o fs' tr PL BO H R. destruct (add_command _ _ _ _ _ _ _ _ BO H R) as [S0 T].
  assert (K : forall x, script_only (map fst made) bn fs x ->
    laid_store x made /\ same_scripts_but bn fs x (map fst made) /\ same_rest fs x (map fst made)).
  { intros x SO. split; [eapply laid_script; eauto|]. apply (so_same _ _ _ _ (ls_ok _ _ H) (ls_chain _ _ H) SO). }
  split; [now apply K|]. split.
  { eapply Forall_impl; [|exact T]. intros x [X|X]; [left; now apply K|now right]. }
  intros ->. destruct (add_command_ok _ _ _ _ _ _ _ _ PL BO H R) as (b & bs & Eb & EB & NI & Q).
  exists b, bs. split; [exact Eb|]. split; [now apply uses_iff|]. split; [exact NI|].
  intros a m d q E. destruct (Q a m d q E) as (up & down & i & A & B & C & D & F). exists up, down, i, (with_backend bn i).
  repeat (split; [assumption|]). reflexivity.
Qed.
Print Assumptions C44_add_backend.

(** A backend already in use is refused without changing anything. *)
Theorem C44_add_backend_twice_refused : forall ls gb bn fs bs, uses_backends gb fs bs -> In bn (map b_name bs) ->
  exists e, cli_add_backend ls gb bn fs = (Err e, fs, []).
Proof.
  intros ls gb bn fs bs U Hb. apply uses_iff in U. unfold cli_add_backend, fbind, fread. rewrite U.
  destruct (existsb _ bs) eqn:EX; [eexists; reflexivity|]. exfalso. apply in_map_iff in Hb as (b & E & Hb).
  assert (X : existsb (fun b => String.eqb (b_name b) bn) bs = true); [|congruence].
  apply existsb_exists. exists b. split; [exact Hb|]. now apply String.eqb_eq.
Qed.
Print Assumptions C44_add_backend_twice_refused.

(** If the scripts were those of [bs], they are now those of [bs] and the new backend.
    (Where a schema in between has no tables at all, the new backend's script also
    creates the bookkeeping table if it is missing.) *)
Theorem C44_add_backend_scripts : forall ls gb bn fs made bs fs' tr, listing ls -> backends_ok gb -> laid_store fs made ->
  uses_backends gb fs bs -> has_scripts fs bs [] adb_new made ->
  (forall a p q, made = a ++ p :: q -> a <> [] -> a_tables (last (map snd a) adb_new) <> []) ->
  cli_add_backend ls gb bn fs = (Ok tt, fs', tr) ->
  exists b, gb bn = Some b /\ ~ In bn (map b_name bs) /\ has_scripts fs' (bs ++ [b]) [] adb_new made.
Proof.
  intros ls gb bn fs made bs fs' tr PL BO H U HS NE R. destruct (add_command _ _ _ _ _ _ _ _ BO H R) as [S0 _].
  destruct (add_command_ok _ _ _ _ _ _ _ _ PL BO H R) as (b & bs' & Eb & EB & NI & Q).
  apply uses_iff in U. rewrite U in EB. injection EB as <-. exists b. split; [exact Eb|]. split; [exact NI|].
  pose proof (BO _ _ Eb) as E. rewrite <- E in *.
  apply (with_scripts (map fst made) fs fs' bs b S0 NI made made []); auto.
  intros a0 m d q E0. eapply NE; eauto.
Qed.
Print Assumptions C44_add_backend_scripts.

(** It succeeds when the backend can express every step. *)
Theorem C44_add_backend_completes : forall ls gb bn fs made bs b, listing ls -> backends_ok gb -> laid_store fs made ->
  uses_backends gb fs bs -> ~ In bn (map b_name bs) -> gb bn = Some b ->
  (forall a m d q, made = a ++ (m, d) :: q -> exists up down,
     backend_scripts b (last (map snd a) adb_new) d up down /\ up <> ""%string /\ down <> ""%string) ->
  exists fs' tr, cli_add_backend ls gb bn fs = (Ok tt, fs', tr).
Proof.
  intros ls gb bn fs made bs b PL BO H U NI Eb SC. apply uses_iff in U. eapply add_command_runs; eauto.
Qed.
Print Assumptions C44_add_backend_completes.

(** ** Removing a backend *)
Theorem C44_remove_backend : forall gb bn fs made o fs' tr, backends_ok gb -> laid_store fs made ->
  cli_remove_backend gb bn fs = (o, fs', tr) ->
  (laid_store fs' made /\ same_scripts_but bn fs fs' (map fst made) /\ same_rest fs fs' (map fst made)) /\
  Forall (fun x => (laid_store x made /\ same_scripts_but bn fs x (map fst made) /\ same_rest fs x (map fst made)) \/
                   torn_info x (map fst made)) tr /\
  (o = Ok tt -> exists b bs, gb bn = Some b /\ uses_backends gb fs bs /\ length bs <> 1 /\
     forall m, In m (map fst made) -> exists i i', read_info m fs = Ok i /\ read_info m fs' = Ok i' /\
       in_backends i' = filter (fun x => negb (String.eqb x bn)) (in_backends i) /\
       read_sql m bn "up" fs' = Ok None /\ read_sql m bn "down" fs' = Ok None).
Proof.
  intros gb bn fs made o fs' tr BO H R. destruct (remove_command _ _ _ _ _ _ _ BO H R) as [S0 T].
  assert (K : forall x, script_only (map fst made) bn fs x ->
    laid_store x made /\ same_scripts_but bn fs x (map fst made) /\ same_rest fs x (map fst made)).
  { intros x SO. split; [eapply laid_script; eauto|]. apply (so_same _ _ _ _ (ls_ok _ _ H) (ls_chain _ _ H) SO). }
  split; [now apply K|]. split.
  { eapply Forall_impl; [|exact T]. intros x [X|X]; [left; now apply K|now right]. }
  intros ->. destruct (remove_command_ok _ _ _ _ _ _ _ BO H R) as (b & bs & Eb & EB & NL & Q).
  exists b, bs. split; [exact Eb|]. split; [now apply uses_iff|]. split; [exact NL|].
  intros m Hm. destruct (Q m Hm) as (i & I & I' & A & B). exists i, (without_backend bn i).
  repeat (split; [assumption|]). split; [reflexivity|auto].
Qed.
Print Assumptions C44_remove_backend.

(** The only backend cannot be removed. *)
Theorem C44_remove_last_refused : forall gb bn fs b, uses_backends gb fs [b] ->
  exists e, cli_remove_backend gb bn fs = (Err e, fs, []).
Proof.
  intros gb bn fs b U. apply uses_iff in U. unfold cli_remove_backend, fbind, fread. rewrite U. eexists. reflexivity.
Qed.
Print Assumptions C44_remove_last_refused.

Theorem C44_remove_backend_scripts : forall gb bn fs made bs fs' tr, backends_ok gb -> laid_store fs made ->
  has_scripts fs bs [] adb_new made -> cli_remove_backend gb bn fs = (Ok tt, fs', tr) ->
  has_scripts fs' (filter (fun b => negb (String.eqb (b_name b) bn)) bs) [] adb_new made.
Proof.
  intros gb bn fs made bs fs' tr BO H HS R. destruct (remove_command _ _ _ _ _ _ _ BO H R) as [S0 _].
  destruct (remove_command_ok _ _ _ _ _ _ _ BO H R) as (b & bs' & Eb & EB & NL & Q).
  eapply without_scripts; [exact S0|exact HS|]. intros m Hm. destruct (Q m Hm) as (i & I & I' & A & B). exists i.
  assert (G : forall dir, read_sql m bn dir fs' = Ok None -> get_file m (sql_name bn dir) fs' = None).
  { intros dir. unfold read_sql. destruct (get_file m (sql_name bn dir) fs') as [[]|]; congruence. }
  auto.
Qed.
Print Assumptions C44_remove_backend_scripts.

Theorem C44_remove_backend_completes : forall gb bn fs made bs b, backends_ok gb -> laid_store fs made ->
  uses_backends gb fs bs -> length bs <> 1 -> gb bn = Some b ->
  (forall m, In m (map fst made) -> (exists s, read_sql m bn "up" fs = Ok (Some s)) /\ exists s, read_sql m bn "down" fs = Ok (Some s)) ->
  exists fs' tr, cli_remove_backend gb bn fs = (Ok tt, fs', tr).
Proof. intros gb bn fs made bs b BO H U NL Eb SC. apply uses_iff in U. eapply remove_command_runs; eauto. Qed.
Print Assumptions C44_remove_backend_completes.

(** ** Regenerating *)

(** The chain and the schemas are those of before, the scripts are the ones the
    backends of the latest migration generate, and there are no other files left in the
    directories of the migrations. *)
Theorem C44_regenerate : forall ls gb fs made bs fs' tr, listing ls -> laid_store fs made -> uses_backends gb fs bs ->
  NoDup (map b_name bs) -> cli_regenerate ls gb fs = (Ok tt, fs', tr) ->
  laid_store fs' made /\ has_scripts fs' bs [] adb_new made /\
  (forall m, ~ In m (map fst made) -> mget m (fs_dirs fs') = mget m (fs_dirs fs)).
Proof.
  intros ls gb fs made bs fs' tr PL H U NB R. apply uses_iff in U.
  destruct (laid_regenerated ls gb fs made tt fs' tr bs PL H U NB R) as (A & B & _ & C). auto.
Qed.
Print Assumptions C44_regenerate.

Theorem C44_regenerate_completes : forall ls gb fs made bs, listing ls -> laid_store fs made -> uses_backends gb fs bs ->
  NoDup (map b_name bs) ->
  (forall a n d q, made = a ++ (n, d) :: q -> forall b, In b bs -> exists up down,
     scripts_of bs (last (map Some (map fst a)) None) (last (map snd a) adb_new) d b up down /\ up <> ""%string /\ down <> ""%string) ->
  exists fs' tr, cli_regenerate ls gb fs = (Ok tt, fs', tr).
Proof. intros ls gb fs made bs PL H U NB SC. apply uses_iff in U. eapply regenerate_runs; eauto. Qed.
Print Assumptions C44_regenerate_completes.

(** ** Collapsing *)

(** One migration is left: it has the schema of the last applied one, starts from
    nothing, has the scripts of all backends, and is recorded as applied; the tables of
    the database are not touched. *)
Theorem C44_collapse : forall (S : Type) plan ls gb name fs (c : Conn S) made bs fs' c' tr, listing ls ->
  laid_store fs made -> plain_root fs -> name <> "current"%string -> uses_backends gb fs bs -> NoDup (map b_name bs) ->
  cli_collapse ls gb plan name (fs, c) = (Val tt, (fs', c'), tr) ->
  exists m d rows, dbs_mig (cn_db c) = Some rows /\ last_recorded (fs_coll fs) rows (map fst made) (Some m) /\ In (m, d) made /\
    laid_store fs' [(name, d)] /\ has_scripts fs' bs [] adb_new [(name, d)] /\
    records (fs_coll fs') (cn_db c') [name] /\ dbs_rest (cn_db c') = dbs_rest (cn_db c) /\
    (forall x, x <> name -> mget x (fs_dirs fs') = if String.eqb x "current" then mget x (fs_dirs fs) else None).
Proof.
  intros S plan ls gb name fs c made bs fs' c' tr PL H PR NC U NB R. apply uses_iff in U.
  destruct (collapse_effect plan ls gb name fs c made bs tt fs' c' tr PL H PR NC U NB R) as (m & d & rows & A & B & C & D & E & F & G).
  exists m, d, rows. repeat (split; [assumption|]). rewrite F. cbn [dbs_rest]. split; [reflexivity|auto].
Qed.
Print Assumptions C44_collapse.

Theorem C44_collapse_completes : forall (S : Type) ls gb name fs (c : Conn S) made bs rows m d, listing ls ->
  laid_store fs made -> plain_root fs -> name <> "current"%string -> uses_backends gb fs bs -> NoDup (map b_name bs) ->
  2 <= length made -> dbs_mig (cn_db c) = Some rows -> last_recorded (fs_coll fs) rows (map fst made) (Some m) ->
  In (m, d) made -> ~ same_schema adb_new d ->
  (forall b, In b bs -> exists up down, scripts_of bs None adb_new d b up down /\ up <> ""%string /\ down <> ""%string) ->
  exists fs' c' tr, cli_collapse ls gb no_fault name (fs, c) = (Val tt, (fs', c'), tr).
Proof.
  intros S ls gb name fs c made bs rows m d PL H PR NC U NB L2 ER LR Hd NS SC. apply uses_iff in U. eapply collapse_runs; eauto.
Qed.
Print Assumptions C44_collapse_completes.

(** A single migration, or a chain of which nothing is applied, is left alone. *)
Theorem C44_collapse_refused : forall (S : Type) plan ls gb name fs (c : Conn S) made bs r fs' c' tr, laid_store fs made ->
  uses_backends gb fs bs ->
  (exists p, made = [p]) \/ last_recorded (fs_coll fs) (match dbs_mig (cn_db c) with Some rows => rows | None => [] end) (map fst made) None ->
  cli_collapse ls gb plan name (fs, c) = (r, (fs', c'), tr) -> r <> Val tt /\ fs' = fs /\ cn_db c' = cn_db c.
Proof.
  intros S plan ls gb name fs c made bs r fs' c' tr H U HR R. apply uses_iff in U. unfold cli_collapse in R.
  unfold cbind at 1 in R. unfold on_files at 1, fread at 1 in R. cbn [fst snd] in R.
  rewrite (laid_all _ _ H) in R. cbn [of_outcome map] in R.
  unfold cbind at 1 in R. unfold on_files at 1, fread at 1 in R. cbn [fst snd of_outcome map] in R.
  pose proof (laid_latest _ _ H) as EL.
  destruct (map fst made) as [|i rest] eqn:EM.
  { unfold exits in R. injection R as <- <- <- _. repeat split; discriminate. }
  destruct (fs_latest fs) as [l|] eqn:El.
  2:{ injection R as <- <- <- _. repeat split; discriminate. }
  destruct (String.eqb i l) eqn:Ei.
  { unfold exits in R. injection R as <- <- <- _. repeat split; discriminate. }
  destruct HR as [[p ->]|LR].
  { cbn in EM. injection EM as <- <-. cbn in EL. injection EL as ->. now rewrite String.eqb_refl in Ei. }
  unfold cbind at 1 in R. unfold on_files at 1, fread at 1 in R. cbn [fst snd] in R. rewrite U in R. cbn [of_outcome map] in R.
  unfold cbind at 1 in R. unfold on_conn at 1 in R. cbn [fst snd] in R.
  destruct (last_applied plan (fs_coll fs) c) as [ra c1] eqn:EA. rewrite <- EM in LR.
  destruct (last_applied_effect _ _ _ _ _ _ (fs_coherent fs) (ls_chain _ _ H) EA) as [D1 LR'].
  destruct ra as [o| |].
  - assert (o = None) as ->.
    { eapply last_recorded_fun; [|exact LR'|exact LR]. apply chain_NoDup; [apply fs_coherent|apply H]. }
    unfold exits in R. injection R as <- <- <- _. repeat split; [discriminate|exact D1].
  - injection R as <- <- <- _. repeat split; [discriminate|exact D1].
  - injection R as <- <- <- _. repeat split; [discriminate|exact D1].
Qed.
Print Assumptions C44_collapse_refused.

(** ** Detaching the latest migration *)

(** The chain loses its last migration, whose directory stays; the database is not
    touched.  The only migration, and a migration known to be applied, are refused. *)
Theorem C44_detach : forall (S : Type) plan connected fs (c : Conn S) made n d r fs' c' tr, laid_store fs (made ++ [(n, d)]) ->
  cli_detach plan connected (fs, c) = (r, (fs', c'), tr) ->
  cn_db c' = cn_db c /\ fs_dirs fs' = fs_dirs fs /\
  match r with
  | Val _ => made <> [] /\ laid_store fs' made /\
      (connected = true -> ~ last_recorded (fs_coll fs) (match dbs_mig (cn_db c) with Some rows => rows | None => [] end)
                               (map fst made ++ [n]) (Some n))
  | _ => fs' = fs
  end.
Proof. intros S plan connected fs c made n d r fs' c' tr H R. exact (detach_command plan connected fs c made n d r fs' c' tr H R). Qed.
Print Assumptions C44_detach.

Theorem C44_detach_completes : forall (S : Type) connected fs (c : Conn S) made n d, laid_store fs (made ++ [(n, d)]) -> made <> [] ->
  (connected = true -> ~ last_recorded (fs_coll fs) (match dbs_mig (cn_db c) with Some rows => rows | None => [] end)
                           (map fst made ++ [n]) (Some n)) ->
  exists fs' c' tr, cli_detach no_fault connected (fs, c) = (Val tt, (fs', c'), tr).
Proof. intros S connected fs c made n d. exact (detach_runs connected fs c made n d). Qed.
Print Assumptions C44_detach_completes.

(** ** Making a migration *)

(** Nothing happens if the current schema is that of the latest migration.  Otherwise
    one migration is added at the end, whose schema is the current one and which has
    the scripts of the backends in use. *)
Theorem C44_make : forall ls gb spec name fs made cur bs o fs' tr, listing ls -> laid_store fs made -> current_schema fs cur ->
  wf_schema cur -> settled cur -> fs_get fs name = None -> name <> "current"%string ->
  (uses_backends gb fs bs \/ fs_latest fs = None /\ exists n b, spec = Some n /\ gb n = Some b /\ bs = [b]) ->
  NoDup (map b_name bs) -> cli_make ls gb spec name fs = (Ok o, fs', tr) ->
  (forall m, m <> name -> m <> "current"%string -> mget m (fs_dirs fs') = mget m (fs_dirs fs)) /\
  if o then ~ same_schema (last (map snd made) adb_new) cur /\
       has_scripts fs' bs (map fst made) (last (map snd made) adb_new) [(name, cur)] /\
       exists d, same_schema d cur /\ laid_store fs' (made ++ [(name, d)])
  else same_schema (last (map snd made) adb_new) cur /\ laid_store fs' made.
Proof.
  intros ls gb spec name fs made cur bs o fs' tr PL H C Wc Sc Fr NC LB NB R. eapply make_effect; eauto.
  unfold load_backends. destruct LB as [U|(L & n & b & -> & Eb & ->)].
  - apply uses_iff in U. now rewrite U.
  - unfold latest_backends. rewrite L. now rewrite Eb.
Qed.
Print Assumptions C44_make.

Theorem C44_make_completes : forall ls gb spec name fs made cur bs, listing ls -> laid_store fs made -> current_schema fs cur ->
  wf_schema cur -> settled cur -> fs_get fs name = None -> name <> "current"%string ->
  (uses_backends gb fs bs \/ fs_latest fs = None /\ exists n b, spec = Some n /\ gb n = Some b /\ bs = [b]) ->
  (same_schema (last (map snd made) adb_new) cur -> exists fs' tr, cli_make ls gb spec name fs = (Ok false, fs', tr)) /\
  (~ same_schema (last (map snd made) adb_new) cur ->
     (forall b, In b bs -> exists up down,
        scripts_of bs (last (map Some (map fst made)) None) (last (map snd made) adb_new) cur b up down /\ up <> ""%string /\ down <> ""%string) ->
     exists fs' tr, cli_make ls gb spec name fs = (Ok true, fs', tr)).
Proof.
  intros ls gb spec name fs made cur bs PL H C Wc Sc Fr NC LB. apply make_runs; auto.
  unfold load_backends. destruct LB as [U|(L & n & b & -> & Eb & ->)].
  - apply uses_iff in U. now rewrite U.
  - unfold latest_backends. rewrite L. now rewrite Eb.
Qed.
Print Assumptions C44_make_completes.

(** The name of a migration that is there, or no migration yet and no connection settings:
    refused, and no file is touched. *)
Theorem C44_make_refused : forall ls gb spec name fs made, laid_store fs made ->
  In name (map fst made) \/ (made = [] /\ spec = None) ->
  exists e, cli_make ls gb spec name fs = (Err e, fs, []).
Proof.
  intros ls gb spec name fs made H HN. unfold cli_make, fbind, fread, flift. rewrite (laid_all _ _ H).
  destruct HN as [HN|[-> ->]].
  - assert (X : existsb (fun m => String.eqb m name) (map fst made) = true).
    { apply existsb_exists. exists name. split; [assumption|apply String.eqb_refl]. }
    rewrite X. eauto.
  - cbn [map existsb]. unfold load_backends, latest_backends. rewrite (laid_latest _ _ H). cbn. eauto.
Qed.
Print Assumptions C44_make_refused.

(** ** Any history of commands *)

(** The commands a user may run one after the other, each to its end; in between the
    database and the current schema may change in any way.  [made] is what the chain
    should consist of. *)
Inductive maintained {S : Type} (ls : list string -> list string) (gb : string -> option Backend) :
    FS -> Conn S -> list (string * ADB) -> Prop :=
| mt_fresh fs c : fs_fresh fs -> maintained ls gb fs c []
| mt_database fs c c' made : maintained ls gb fs c made -> maintained ls gb fs c' made
| mt_current fs fs' c made : maintained ls gb fs c made -> fs_ok fs' -> fs_state fs' = fs_state fs ->
    (has_dir fs "current" -> has_dir fs' "current") ->
    (forall m, m <> "current"%string -> mget m (fs_dirs fs') = mget m (fs_dirs fs)) -> maintained ls gb fs' c made
| mt_same spec name fs fs' c made cur bs tr : maintained ls gb fs c made ->
    current_schema fs cur -> wf_schema cur -> settled cur -> fs_get fs name = None -> name <> "current"%string ->
    load_backends gb spec fs = Ok bs -> NoDup (map b_name bs) ->
    cli_make ls gb spec name fs = (Ok false, fs', tr) -> maintained ls gb fs' c made
| mt_make spec name fs fs' c made cur d bs tr : maintained ls gb fs c made ->
    current_schema fs cur -> wf_schema cur -> settled cur -> fs_get fs name = None -> name <> "current"%string ->
    load_backends gb spec fs = Ok bs -> NoDup (map b_name bs) ->
    cli_make ls gb spec name fs = (Ok true, fs', tr) -> fs_schema fs' name d -> same_schema d cur ->
    maintained ls gb fs' c (made ++ [(name, d)])
| mt_add bn fs fs' c made o tr : maintained ls gb fs c made -> cli_add_backend ls gb bn fs = (o, fs', tr) ->
    maintained ls gb fs' c made
| mt_remove bn fs fs' c made o tr : maintained ls gb fs c made -> cli_remove_backend gb bn fs = (o, fs', tr) ->
    maintained ls gb fs' c made
| mt_regenerate fs fs' c made bs tr : maintained ls gb fs c made -> uses_backends gb fs bs -> NoDup (map b_name bs) ->
    cli_regenerate ls gb fs = (Ok tt, fs', tr) -> maintained ls gb fs' c made
| mt_collapse plan name fs fs' c c' made bs rows m d tr : maintained ls gb fs c made -> plain_root fs ->
    name <> "current"%string -> uses_backends gb fs bs -> NoDup (map b_name bs) ->
    dbs_mig (cn_db c) = Some rows -> last_recorded (fs_coll fs) rows (map fst made) (Some m) -> In (m, d) made ->
    cli_collapse ls gb plan name (fs, c) = (Val tt, (fs', c'), tr) -> maintained ls gb fs' c' [(name, d)]
| mt_detach plan connected fs fs' c c' made n d tr : maintained ls gb fs c (made ++ [(n, d)]) ->
    cli_detach plan connected (fs, c) = (Val tt, (fs', c'), tr) -> maintained ls gb fs' c' made.

Lemma fs_schema_fun fs n d d' : fs_schema fs n d -> fs_schema fs n d' -> d = d'.
Proof. intros H H'. pose proof (H (@rev string) ls_rev) as A. pose proof (H' (@rev string) ls_rev) as B. congruence. Qed.

Theorem C44_any_history : forall (S : Type) ls gb fs (c : Conn S) made, listing ls -> backends_ok gb ->
  maintained ls gb fs c made ->
  all_migrations (fs_coll fs) = Ok (map fst made) /\ chain (fs_coll fs) (map fst made) /\
  forall n d, In (n, d) made -> fs_schema fs n d.
Proof.
  intros S ls gb fs c made PL BO M. apply C44_store_means.
  induction M as [fs c F|fs c c' made M IH|fs fs' c made M IH OK ST DC SO|spec name fs fs' c made cur bs tr M IH C Wc Sc Fr NC LB NB R
    |spec name fs fs' c made cur d bs tr M IH C Wc Sc Fr NC LB NB R SD SS
    |bn fs fs' c made o tr M IH R|bn fs fs' c made o tr M IH R|fs fs' c made bs tr M IH U NB R
    |plan name fs fs' c c' made bs rows m d tr M IH PR NC U NB ER LR Hd R|plan connected fs fs' c c' made n d tr M IH R].
  - now apply laid_fresh.
  - exact IH.
  - apply (laid_same fs); auto.
    + intros n Hn. destruct (String.eqb_spec n "current") as [->|N]; [auto|]. destruct Hn as [dir D]. exists dir. now rewrite SO.
    + intros n Hn. apply SO. intros ->. now apply (ls_current _ _ IH).
  - destruct (make_effect ls gb spec name fs made cur bs false fs' tr PL IH C Wc Sc Fr NC LB NB R) as (_ & _ & X). exact X.
  - destruct (make_effect ls gb spec name fs made cur bs true fs' tr PL IH C Wc Sc Fr NC LB NB R) as (_ & _ & _ & d' & _ & X).
    assert (d' = d) as <-; [|exact X]. eapply fs_schema_fun; [|exact SD]. eapply laid_schema; [exact X|]. apply in_or_app. right. now left.
  - destruct (add_command _ _ _ _ _ _ _ _ BO IH R) as [S0 _]. eapply laid_script; eauto.
  - destruct (remove_command _ _ _ _ _ _ _ BO IH R) as [S0 _]. eapply laid_script; eauto.
  - apply uses_iff in U. destruct (laid_regenerated ls gb fs made tt fs' tr bs PL IH U NB R) as (X & _). exact X.
  - apply uses_iff in U.
    destruct (collapse_effect plan ls gb name fs c made bs tt fs' c' tr PL IH PR NC U NB R) as (m' & d' & rows' & A & B & Cd & D & _).
    assert (rows' = rows) as -> by congruence.
    assert (X : Some m' = Some m).
    { eapply last_recorded_fun; [|exact B|exact LR]. apply chain_NoDup; [apply fs_coherent|apply IH]. }
    injection X as ->. assert (d' = d) as <-; [|exact D]. exact (fs_schema_fun fs m d' d (laid_schema _ _ _ _ IH Cd) (laid_schema _ _ _ _ IH Hd)).
  - destruct (detach_command plan connected fs c made n d _ fs' c' tr IH R) as (_ & _ & _ & X & _). exact X.
Qed.
Print Assumptions C44_any_history.

(** ** Examples *)
Definition extra : Backend := {| b_name := "extra"; b_sql := fun _ ops => Ok ("x " ++ join "; " (map op_word ops) ++ ";")%string |}.
Definition ex_gb (n : string) : option Backend :=
  if String.eqb n "toy" then Some toy else if String.eqb n "extra" then Some extra else None.
Example ex_gb_ok : backends_ok ex_gb.
Proof.
  intros n b. unfold ex_gb. destruct (String.eqb_spec n "toy") as [->|_]; [intros [= <-]; reflexivity|].
  destruct (String.eqb_spec n "extra") as [->|_]; [intros [= <-]; reflexivity|discriminate].
Qed.
(** The three migrations created on disk in the example of C14. *)
Definition ex_fs : FS := snd (fst ex_disk).
Definition ex_names : list string := ["m1"; "m3"; "m4"]%string.
Lemma run_parts {A W} (x : outcome A * W * list W) a : fst (fst x) = Ok a -> x = (Ok a, snd (fst x), snd x).
Proof. destruct x as [[o w] t]. cbn. now intros ->. Qed.
Lemma ex_fs_ran : fst (fst ex_disk) = Ok tt.
Proof. vm_compute. reflexivity. Qed.
Lemma ex_disk_eq : ex_disk = fs_create_all (@rev string) [toy] ex_steps fs_empty.
Proof. reflexivity. Qed.
Lemma ex_fs_all : all_migrations (fs_coll ex_fs) = Ok ex_names.
Proof. vm_compute. reflexivity. Qed.
Lemma ex_fs_uses : latest_backends ex_gb ex_fs = Ok [toy].
Proof. vm_compute. reflexivity. Qed.
Lemma ex_fs_plain : plain_root ex_fs.
Proof. split; vm_compute; reflexivity. Qed.
Lemma ex_fs_made : exists made, laid_store ex_fs made.
Proof.
  apply (C44_creation_lays_out (@rev string) [toy] ex_steps fs_empty ex_fs (snd ex_disk)).
  - apply ls_rev.
  - repeat constructor. intros [].
  - split; [|reflexivity]. split; [constructor|discriminate].
  - repeat constructor; cbn; intuition discriminate.
  - intros n to H. split; [|split; [reflexivity|now apply (ex_steps_ok n)]].
    cbn in H. repeat (destruct H as [[= <- <-]|H]; [discriminate|]). destruct H.
  - rewrite <- ex_disk_eq. unfold ex_fs. exact (run_parts ex_disk tt ex_fs_ran).
Qed.
Example ex_fs_laid : exists made, laid_store ex_fs made /\ map fst made = ex_names /\ uses_backends ex_gb ex_fs [toy] /\ plain_root ex_fs.
Proof.
  destruct ex_fs_made as [made H]. exists made. split; [exact H|]. split.
  { pose proof (laid_all _ _ H) as A. rewrite ex_fs_all in A. now injection A as <-. }
  split; [apply uses_iff, ex_fs_uses|apply ex_fs_plain].
Qed.
Definition ex_rows (l : list string) : Conn unit :=
  {| cn_db := {| dbs_rest := tt; dbs_mig := Some l |}; cn_work := None; cn_step := 0 |}.
Definition ex_all (w : FS) : outcome (list string) := all_migrations (fs_coll w).
(** Each command runs to its end on the example. *)
Example C44_example_add : fst (fst (cli_add_backend (@rev string) ex_gb "extra" ex_fs)) = Ok tt /\
  read_sql "m1" "extra" "up" (snd (fst (cli_add_backend (@rev string) ex_gb "extra" ex_fs))) =
  Ok (Some ("x add blog; add post; ensure butane_migrations;" ++ newline)%string).
Proof. split; vm_compute; reflexivity. Qed.
Definition ex_fs2 : FS := snd (fst (cli_add_backend (@rev string) ex_gb "extra" ex_fs)).
Example C44_example_remove : fst (fst (cli_remove_backend ex_gb "toy" ex_fs2)) = Ok tt.
Proof. vm_compute. reflexivity. Qed.
Example C44_example_regenerate : fst (fst (cli_regenerate (@rev string) ex_gb ex_fs2)) = Ok tt.
Proof. vm_compute. reflexivity. Qed.
Example C44_example_collapse :
  fst (fst (cli_collapse (@rev string) ex_gb no_fault "one" (ex_fs2, ex_rows ["m1"; "m3"; "m4"]))) = Val tt /\
  ex_all (fst (snd (fst (cli_collapse (@rev string) ex_gb no_fault "one" (ex_fs2, ex_rows ["m1"; "m3"; "m4"]))))) = Ok ["one"%string].
Proof. split; vm_compute; reflexivity. Qed.
Example C44_example_detach :
  fst (fst (cli_detach no_fault true (ex_fs, ex_rows ["m1"; "m3"]))) = Val tt /\
  ex_all (fst (snd (fst (cli_detach no_fault true (ex_fs, ex_rows ["m1"; "m3"]))))) = Ok ["m1"; "m3"]%string /\
  exists e, fst (fst (cli_detach no_fault true (ex_fs, ex_rows ["m1"; "m3"; "m4"]))) = Fail e.
Proof. split; [|split]; [vm_compute; reflexivity..|]. eexists. vm_compute. reflexivity. Qed.
Definition ex_current : FS :=
  snd (fst (fs_add_modified "current" {| t_name := "tag"; t_cols := [pkcol "id" TInt; col "name" TText] |} ex_fs)).
Example C44_example_make : fst (fst (cli_make (@rev string) ex_gb None "m5" ex_current)) = Ok true /\
  ex_all (snd (fst (cli_make (@rev string) ex_gb None "m5" ex_current))) = Ok ["m1"; "m3"; "m4"; "m5"]%string.
Proof. split; vm_compute; reflexivity. Qed.

(** ** Findings *)

Lemma on_trace {A W} (x : A * W * list W) (P : W -> bool) : existsb P (snd x) = true ->
  exists w, In w (snd x) /\ P w = true.
Proof. apply existsb_exists. Qed.
Lemma world_parts {A} {S : Type} (x : res A * (FS * Conn S) * list (FS * Conn S)) r : fst (fst x) = r ->
  x = (r, (fst (snd (fst x)), snd (snd (fst x))), snd x).
Proof. destruct x as [[r0 [f c]] t]. cbn. now intros ->. Qed.

(** Collapsing drops the migrations that are not yet applied. *)
Notation ex_col := (cli_collapse (@rev string) ex_gb no_fault "one" (ex_fs, ex_rows ["m1"; "m3"]%string)).
Lemma ex_col_ran : fst (fst ex_col) = Val tt.
Proof. vm_compute. reflexivity. Qed.
Lemma ex_col_m4 : fs_get (fst (snd (fst ex_col))) "m4" = None.
Proof. vm_compute. reflexivity. Qed.
Lemma ex_col_all : all_migrations (fs_coll (fst (snd (fst ex_col)))) = Ok ["one"%string].
Proof. vm_compute. reflexivity. Qed.
Lemma ex_col_schema : fs_read_db (@rev string) "one" (fst (snd (fst ex_col))) <> fs_read_db (@rev string) "m4" ex_fs.
Proof. vm_compute. discriminate. Qed.
Lemma ex_has made n : map fst made = ex_names -> In n ex_names -> exists d : ADB, In (n, d) made.
Proof.
  intros EM X. rewrite <- EM in X. apply in_map_iff in X as ([m d] & E & X). cbn in E. subst m. eauto.
Qed.
Lemma ex_has_m1 : In "m1"%string ex_names.
Proof. cbn. auto. Qed.
Lemma ex_has_m4 : In "m4"%string ex_names.
Proof. cbn. auto. Qed.
Theorem C44_collapse_drops_pending_refuted : exists ls gb fs (c : Conn unit) made n d fs' c' tr, listing ls /\ backends_ok gb /\
  laid_store fs made /\ In (n, d) made /\ cli_collapse ls gb no_fault "one" (fs, c) = (Val tt, (fs', c'), tr) /\
  fs_get fs' n = None /\ all_migrations (fs_coll fs') = Ok ["one"%string] /\ ~ fs_schema fs' "one" d.
Proof.
  destruct ex_fs_laid as (made & H & EM & _ & _). destruct (ex_has made "m4" EM ex_has_m4) as [d Hd].
  pose proof ex_col_ran as R. pose proof ex_col_m4 as M4. pose proof ex_col_all as AL. pose proof ex_col_schema as SC.
  destruct ex_col as [[r [fs' c']] tr] eqn:E. cbn [fst snd] in R, M4, AL, SC. subst r.
  pose proof (laid_schema _ _ _ _ H Hd (@rev string) ls_rev) as A. rewrite A in SC.
  exists (@rev string), ex_gb, ex_fs, (ex_rows ["m1"; "m3"]%string), made, "m4"%string, d, fs', c', tr.
  split; [apply ls_rev|]. split; [apply ex_gb_ok|]. split; [exact H|]. split; [exact Hd|]. split; [exact E|].
  split; [exact M4|]. split; [exact AL|]. intros Q. apply SC. exact (Q (@rev string) ls_rev).
Qed.
Print Assumptions C44_collapse_drops_pending_refuted.

(** A process that stops while collapsing leaves a database whose tables exist, and
    neither migrations nor records of them. *)
Definition ex_lost (w : FS * Conn unit) : bool :=
  match all_migrations (fs_coll (fst w)) with Ok [] => true | _ => false end &&
  match dbs_mig (cn_db (snd w)) with Some [] => true | _ => false end &&
  forallb (fun n => match fs_get (fst w) n with None => true | _ => false end) ex_names.
Lemma ex_col_lost : existsb ex_lost (snd ex_col) = true.
Proof. vm_compute. reflexivity. Qed.
Theorem C44_collapse_interrupted_refuted : exists ls gb fs (c : Conn unit) made r fs' c' tr x cx, listing ls /\ backends_ok gb /\
  laid_store fs made /\ made <> [] /\ cli_collapse ls gb no_fault "one" (fs, c) = (r, (fs', c'), tr) /\ In (x, cx) tr /\
  all_migrations (fs_coll x) = Ok [] /\ dbs_mig (cn_db cx) = Some [] /\ (forall n, In n (map fst made) -> fs_get x n = None).
Proof.
  destruct ex_fs_laid as (made & H & EM & _ & _).
  destruct (on_trace ex_col ex_lost ex_col_lost) as ([x cx] & Hx & B).
  unfold ex_lost in B. cbn [fst snd] in B. apply andb_true_iff in B as [B B3]. apply andb_true_iff in B as [B1 B2].
  destruct ex_col as [[r [fs' c']] tr] eqn:E. cbn [snd] in Hx.
  exists (@rev string), ex_gb, ex_fs, (ex_rows ["m1"; "m3"]%string), made, r, fs', c', tr, x, cx.
  split; [apply ls_rev|]. split; [apply ex_gb_ok|]. split; [exact H|]. split; [intros ->; discriminate EM|]. split; [exact E|].
  split; [exact Hx|]. split; [destruct (all_migrations (fs_coll x)) as [[|]| |]; congruence|].
  split; [destruct (dbs_mig (cn_db cx)) as [[|]|]; congruence|].
  intros n Hn. rewrite EM in Hn. rewrite forallb_forall in B3. apply B3 in Hn. destruct (fs_get x n); congruence.
Qed.
Print Assumptions C44_collapse_interrupted_refuted.

(** Collapsing a chain whose last applied schema has no tables deletes it and panics. *)
Definition ex_empty : FS := snd (fst (fs_create_all (@rev string) [toy] [("m1", ex_old); ("m2", adb_new)]%string fs_empty)).
Notation ex_col0 := (cli_collapse (@rev string) ex_gb no_fault "one" (ex_empty, ex_rows ["m1"; "m2"]%string)).
Lemma ex_col0_ran : fst (fst ex_col0) = Stop /\ cn_db (snd (snd (fst ex_col0))) = cn_db (ex_rows []) /\
  fst (snd (fst ex_col0)) = fs_empty.
Proof. vm_compute. auto. Qed.
Lemma ex_empty_all : all_migrations (fs_coll ex_empty) = Ok ["m1"; "m2"]%string.
Proof. vm_compute. reflexivity. Qed.
Theorem C44_collapse_empty_schema_refuted : exists ls gb fs (c : Conn unit) fs' c' tr, listing ls /\ backends_ok gb /\
  all_migrations (fs_coll fs) = Ok ["m1"; "m2"]%string /\ records (fs_coll fs) (cn_db c) ["m1"; "m2"]%string /\
  cli_collapse ls gb no_fault "one" (fs, c) = (Stop, (fs', c'), tr) /\
  all_migrations (fs_coll fs') = Ok [] /\ fs_get fs' "m1" = None /\ fs_get fs' "m2" = None /\ dbs_mig (cn_db c') = Some [].
Proof.
  pose proof ex_col0_ran as (R & C & F). destruct ex_col0 as [[r [fs' c']] tr] eqn:E. cbn [fst snd] in R, C, F. subst r fs'.
  exists (@rev string), ex_gb, ex_empty, (ex_rows ["m1"; "m2"]%string), fs_empty, c', tr.
  split; [apply ls_rev|]. split; [apply ex_gb_ok|]. split; [apply ex_empty_all|]. split; [reflexivity|]. split; [exact E|].
  rewrite C. repeat split.
Qed.
Print Assumptions C44_collapse_empty_schema_refuted.

(** A process that stops while regenerating leaves a migration whose tables are lost. *)
Notation ex_reg := (cli_regenerate (@rev string) ex_gb ex_fs).
Definition no_tables (x : FS) : bool :=
  match fs_read_db (@rev string) "m1" x with Ok {| a_tables := [] |} => true | _ => false end &&
  match all_migrations (fs_coll x) with Ok [a; b; c] => String.eqb a "m1" && String.eqb b "m3" && String.eqb c "m4" | _ => false end.
Lemma no_tables_means x : no_tables x = true ->
  all_migrations (fs_coll x) = Ok ex_names /\ exists d, fs_read_db (@rev string) "m1" x = Ok d /\ a_tables d = [].
Proof.
  unfold no_tables. intros B. apply andb_true_iff in B as [B1 B2]. split.
  - destruct (all_migrations (fs_coll x)) as [[|a [|b [|c [|]]]]| |]; try discriminate B2.
    apply andb_true_iff in B2 as [B2 C]. apply andb_true_iff in B2 as [A B].
    apply String.eqb_eq in A as ->. apply String.eqb_eq in B as ->. apply String.eqb_eq in C as ->. reflexivity.
  - destruct (fs_read_db (@rev string) "m1" x) as [[[|] ty]| |]; try discriminate B1. eexists. split; reflexivity.
Qed.
Lemma ex_reg_lost : existsb no_tables (snd ex_reg) = true.
Proof. vm_compute. reflexivity. Qed.
Lemma ex_m1 : match fs_read_db (@rev string) "m1" ex_fs with Ok d => a_tables d <> [] | _ => False end.
Proof. vm_compute. discriminate. Qed.
Theorem C44_regenerate_interrupted_refuted : exists ls gb fs made d o fs' tr x dx, listing ls /\ backends_ok gb /\ laid_store fs made /\
  In ("m1"%string, d) made /\ a_tables d <> [] /\ cli_regenerate ls gb fs = (o, fs', tr) /\ In x tr /\
  all_migrations (fs_coll x) = Ok (map fst made) /\ fs_read_db ls "m1" x = Ok dx /\ a_tables dx = [].
Proof.
  destruct ex_fs_laid as (made & H & EM & _ & _). destruct (ex_has made "m1" EM ex_has_m1) as [d Hd].
  destruct (on_trace ex_reg no_tables ex_reg_lost) as (x & Hx & B). apply no_tables_means in B as (A & dx & EX & TX).
  pose proof ex_m1 as Y. rewrite (laid_schema _ _ _ _ H Hd (@rev string) ls_rev) in Y.
  destruct ex_reg as [[o fs'] tr] eqn:E. cbn [snd] in Hx. rewrite <- EM in A.
  exists (@rev string), ex_gb, ex_fs, made, d, o, fs', tr, x, dx.
  split; [apply ls_rev|]. split; [apply ex_gb_ok|]. split; [exact H|]. split; [exact Hd|]. split; [exact Y|]. auto.
Qed.
Print Assumptions C44_regenerate_interrupted_refuted.

(** A process that stops while a backend is being added may leave a chain that cannot
    be listed. *)
Notation ex_add := (cli_add_backend (@rev string) ex_gb "extra" ex_fs).
Definition unlistable (x : FS) : bool := match all_migrations (fs_coll x) with Err _ => true | _ => false end.
Lemma ex_add_torn : existsb unlistable (snd ex_add) = true.
Proof. vm_compute. reflexivity. Qed.
Theorem C44_add_interrupted_refuted : exists ls gb fs made o fs' tr x e, listing ls /\ backends_ok gb /\ laid_store fs made /\
  cli_add_backend ls gb "extra" fs = (o, fs', tr) /\ In x tr /\ all_migrations (fs_coll x) = Err e.
Proof.
  destruct ex_fs_laid as (made & H & EM & _ & _).
  destruct (on_trace ex_add unlistable ex_add_torn) as (x & Hx & B). unfold unlistable in B.
  destruct (all_migrations (fs_coll x)) as [|e|] eqn:EX; try discriminate B.
  destruct ex_add as [[o fs'] tr] eqn:E. cbn [snd] in Hx.
  exists (@rev string), ex_gb, ex_fs, made, o, fs', tr, x, e.
  split; [apply ls_rev|]. split; [apply ex_gb_ok|]. split; [exact H|]. auto.
Qed.
Print Assumptions C44_add_interrupted_refuted.

(** A backend whose removal was interrupted can not be removed any more: the command
    fails at the script that is already gone, every time. *)
Notation ex_rem := (cli_remove_backend ex_gb "toy" ex_fs2).
Definition stuck (x : FS) : bool :=
  match cli_remove_backend ex_gb "toy" x with (Err IOError, _, _) => true | _ => false end &&
  match read_info "m1" x with Ok i => existsb (String.eqb "toy") (in_backends i) | _ => false end.
Lemma ex_rem_stuck : existsb stuck (snd ex_rem) = true.
Proof. vm_compute. reflexivity. Qed.
Lemma ex_add_ran : fst (fst ex_add) = Ok tt.
Proof. vm_compute. reflexivity. Qed.
Lemma ex_fs2_eq : ex_add = (Ok tt, ex_fs2, snd ex_add).
Proof. unfold ex_fs2. exact (run_parts ex_add tt ex_add_ran). Qed.
Theorem C44_remove_interrupted_refuted : exists ls gb fs made o fs' tr x i, listing ls /\ backends_ok gb /\ laid_store fs made /\
  cli_remove_backend gb "toy" fs = (o, fs', tr) /\ In x tr /\
  fst (fst (cli_remove_backend gb "toy" x)) = Err IOError /\ read_info "m1" x = Ok i /\ In "toy"%string (in_backends i).
Proof.
  destruct ex_fs_laid as (made & H & EM & _ & _).
  assert (H2 : laid_store ex_fs2 made).
  { pose proof ex_fs2_eq as E2. 
    destruct (C44_add_backend (@rev string) ex_gb "extra" ex_fs made _ _ _ ls_rev ex_gb_ok H E2) as ((X & _) & _). exact X. }
  destruct (on_trace ex_rem stuck ex_rem_stuck) as (x & Hx & B). unfold stuck in B. apply andb_true_iff in B as [B1 B2].
  destruct (read_info "m1" x) as [i| |] eqn:EI; try discriminate B2.
  destruct ex_rem as [[o fs'] tr] eqn:E. cbn [snd] in Hx.
  exists (@rev string), ex_gb, ex_fs2, made, o, fs', tr, x, i.
  split; [apply ls_rev|]. split; [apply ex_gb_ok|]. split; [exact H2|]. split; [exact E|]. split; [exact Hx|]. split.
  { destruct (cli_remove_backend ex_gb "toy" x) as [[[|[]|] ?] ?]; try discriminate B1. reflexivity. }
  split; [exact EI|]. apply existsb_exists in B2 as (y & Hy & Ey). apply String.eqb_eq in Ey as <-. exact Hy.
Qed.
Print Assumptions C44_remove_interrupted_refuted.

(** A store that is not laid out as butane does it: every migration can be read, but the
    second one also holds the table [a] it did not change, and the third refers to that
    file.  Regenerating deletes the file, fails at the third migration and leaves it
    unreadable. *)
Definition two_tables (c : string) : ADB :=
  {| a_tables := a_tables (one_table "a") ++ [("b", {| t_name := "b"; t_cols := [pkcol "id" TInt; col c TText] |})]%string; a_types := [] |}.
Definition other_layout : FS :=
  let fs := snd (fst (fs_create_all (@rev string) [toy] [("m1", two_tables "x"); ("m2", two_tables "y"); ("m3", two_tables "z")]%string fs_empty)) in
  let fs := snd (fst (fs_add_modified "m2" {| t_name := "a"; t_cols := [pkcol "id" TInt] |} fs)) in
  snd (fst (write_info "m3" {| in_from := Some "m2"%string; in_bases := [("a", "m2")]%string; in_backends := ["toy"%string] |} fs)).
Definition readable (fs : FS) (n : string) : bool := match fs_read_db (@rev string) n fs with Ok _ => true | _ => false end.
Theorem C44_regenerate_other_layout_refuted : exists ls gb fs fs' tr e, listing ls /\ backends_ok gb /\
  all_migrations (fs_coll fs) = Ok ["m1"; "m2"; "m3"]%string /\ map (readable fs) ["m1"; "m2"; "m3"]%string = [true; true; true] /\
  cli_regenerate ls gb fs = (Err e, fs', tr) /\ map (readable fs') ["m1"; "m2"; "m3"]%string = [true; true; false].
Proof.
  assert (A : all_migrations (fs_coll other_layout) = Ok ["m1"; "m2"; "m3"]%string) by (vm_compute; reflexivity).
  assert (B : map (readable other_layout) ["m1"; "m2"; "m3"]%string = [true; true; true]) by (vm_compute; reflexivity).
  assert (C : fst (fst (cli_regenerate (@rev string) ex_gb other_layout)) = Err IOError) by (vm_compute; reflexivity).
  assert (D : map (readable (snd (fst (cli_regenerate (@rev string) ex_gb other_layout)))) ["m1"; "m2"; "m3"]%string = [true; true; false])
    by (vm_compute; reflexivity).
  destruct (cli_regenerate (@rev string) ex_gb other_layout) as [[o fs'] tr] eqn:E. cbn [fst snd] in C, D. subst o.
  exists (@rev string), ex_gb, other_layout, fs', tr, IOError.
  split; [apply ls_rev|]. split; [apply ex_gb_ok|]. auto 6.
Qed.
Print Assumptions C44_regenerate_other_layout_refuted.

(** A migration with the schema of its predecessor, as one for changes of data only, is
    emptied by regenerating, and a backend can no longer be added: the command panics
    half way. *)
Definition data_only : FS :=
  let fs := snd (fst (fs_create_all (@rev string) [toy] [("m1", one_table "a")]%string fs_empty)) in
  let fs := snd (fst (write_info "m2" {| in_from := Some "m1"%string; in_bases := [("a", "m1")]%string; in_backends := [] |} fs)) in
  let fs := snd (fst (fs_add_sql "m2" "toy" "update" "restore" fs)) in
  snd (fst (save_state (Some "m2"%string) fs)).
Theorem C44_data_only_refuted : exists ls gb fs d fs1 tr1 d1 fs2 tr2, listing ls /\ backends_ok gb /\
  all_migrations (fs_coll fs) = Ok ["m1"; "m2"]%string /\
  fs_read_db ls "m1" fs = Ok d /\ fs_read_db ls "m2" fs = Ok d /\ a_tables d <> [] /\
  cli_regenerate ls gb fs = (Ok tt, fs1, tr1) /\ fs_read_db ls "m2" fs1 = Ok d1 /\ a_tables d1 = [] /\
  read_sql "m2" "toy" "up" fs1 = Ok None /\
  cli_add_backend ls gb "extra" fs = (Panic, fs2, tr2) /\ fs_get fs2 "m2" <> None /\ read_sql "m1" "extra" "up" fs2 <> Ok None /\
  read_sql "m2" "extra" "up" fs2 = Ok None.
Proof.
  assert (A : all_migrations (fs_coll data_only) = Ok ["m1"; "m2"]%string) by (vm_compute; reflexivity).
  assert (B : fs_read_db (@rev string) "m1" data_only = Ok (one_table "a") /\ fs_read_db (@rev string) "m2" data_only = Ok (one_table "a"))
    by (split; vm_compute; reflexivity).
  assert (C : fst (fst (cli_regenerate (@rev string) ex_gb data_only)) = Ok tt) by (vm_compute; reflexivity).
  assert (D : fs_read_db (@rev string) "m2" (snd (fst (cli_regenerate (@rev string) ex_gb data_only))) = Ok adb_new /\
              read_sql "m2" "toy" "up" (snd (fst (cli_regenerate (@rev string) ex_gb data_only))) = Ok None) by (split; vm_compute; reflexivity).
  assert (F : fst (fst (cli_add_backend (@rev string) ex_gb "extra" data_only)) = Panic) by (vm_compute; reflexivity).
  assert (G : fs_get (snd (fst (cli_add_backend (@rev string) ex_gb "extra" data_only))) "m2" <> None /\
              read_sql "m1" "extra" "up" (snd (fst (cli_add_backend (@rev string) ex_gb "extra" data_only))) <> Ok None /\
              read_sql "m2" "extra" "up" (snd (fst (cli_add_backend (@rev string) ex_gb "extra" data_only))) = Ok None)
    by (split; [|split]; vm_compute; [discriminate|discriminate|reflexivity]).
  destruct B as [B1 B2].
  destruct (cli_regenerate (@rev string) ex_gb data_only) as [[o1 fs1] tr1] eqn:E1. cbn [fst snd] in C, D. subst o1. destruct D as [D1 D2].
  destruct (cli_add_backend (@rev string) ex_gb "extra" data_only) as [[o2 fs2] tr2] eqn:E2. cbn [fst snd] in F, G. subst o2. destruct G as (G1 & G2 & G3).
  exists (@rev string), ex_gb, data_only, (one_table "a"), fs1, tr1, adb_new, fs2, tr2.
  split; [apply ls_rev|]. split; [apply ex_gb_ok|]. split; [exact A|]. split; [exact B1|]. split; [exact B2|]. split; [discriminate|].
  split; [exact E1|]. split; [exact D1|]. split; [reflexivity|]. split; [exact D2|]. split; [exact E2|]. auto.
Qed.
Print Assumptions C44_data_only_refuted.
