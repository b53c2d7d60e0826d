(** One script run by the engine, then the whole chain. *)
From Verif Require Import Base SqlVal Sql Query QuerySpec Adb AdbSpec AdbProofs Literal LiteralSpec Ddl DdlProofs DdlSpec SqliteDdl SqliteDdlProofs DdlFine
  Backend BackendSpec SqliteSem MigrateSpec MigrateProofs MigrateInv MigrateMain MigrateReady
  Chain ChainSpec ChainProofs Store StoreSpec FsStore FsSpec Deploy DeploySpec DeploySame DeployWalk.

Lemma mig_not_temporary n : temporary n <> mig_name.
Proof.
  unfold temporary, mig_name. intros E.
  assert (L : String.length (n ++ "__butane_tmp") = String.length "butane_migrations") by (now rewrite E).
  rewrite str_app_length in L. cbn in L.
  do 5 (destruct n as [|? n]; [cbn in L; lia|]). destruct n; [discriminate E|cbn in L; lia].
Qed.
Lemma mig_table_fine : table_fine migrations_table.
Proof.
  split; [reflexivity|]. split; [discriminate|]. repeat constructor; cbn; eauto; try discriminate.
  eexists. split; [reflexivity|]. discriminate.
Qed.
Lemma first_fine from : forall ops d, ops_fine d ops -> ops_fine d (first_ops from ops).
Proof.
  intros ops d. destruct from; [auto|]. cbn [first_ops]. revert d.
  induction ops as [|o r IH]; intros d; cbn.
  - intros _. split; [apply mig_table_fine|exact I].
  - intros [A B]. split; [exact A|]. now apply IH.
Qed.
Lemma first_plain from ops : Forall default_plain ops -> Forall default_plain (first_ops from ops).
Proof. destruct from; [auto|]. intros H. apply Forall_app. split; [exact H|]. repeat constructor. Qed.
Lemma first_ast show strict from : forall ops d, ops_ast show strict d (first_ops from ops)
  = ops_ast show strict d ops ++ match from with None => [create_ast strict true migrations_table] | Some _ => [] end.
Proof.
  intros ops d. destruct from; [symmetry; apply app_nil_r|]. cbn [first_ops]. revert d.
  induction ops as [|o r IH]; intros d; cbn; [reflexivity|]. now rewrite IH, app_assoc.
Qed.
Lemma diff_plain old new ops : wf_schema old -> wf_schema new -> defaults_plain old new -> diff_out old new = Ok ops -> Forall default_plain ops.
Proof.
  intros Wo Wn P E. rewrite diff_eq in E. injection E as <-. apply Forall_forall. intros op Hop.
  apply diff_In in Hop; [|assumption..]. destruct op; try exact I. cbn. intros s. apply (P t c s). exact Hop.
Qed.
Lemma mapm_names l : mapm row_name (map (fun n => [("name"%string, LText n)]) l) = Some l.
Proof. induction l as [|n l IH]; [reflexivity|]. cbn [map mapm]. now rewrite IH. Qed.
Lemma mig_rows strict l : mapm row_name (b_rows (mig_tab strict l)) = Some l.
Proof. apply mapm_names. Qed.

(** * The database with and without the table of applied migrations *)
Section Whole.
Variable conv : bool -> list string -> lvalue -> option lvalue.
Variable veq : lvalue -> lvalue -> bool.
Variable strict : bool.
Variable s : DBS edb.
Hypothesis S : msorted (dbs_rest s).
Hypothesis A : mget mig_name (dbs_rest s) = None.

Lemma whole_sorted : msorted (whole strict s).
Proof. unfold whole. destruct (dbs_mig s); [now apply mput_sorted|exact S]. Qed.
Lemma whole_other n : n <> mig_name -> mget n (whole strict s) = mget n (dbs_rest s).
Proof.
  intros N. unfold whole. destruct (dbs_mig s); [|reflexivity]. rewrite mget_mput by exact S. destruct (keqb_spec n mig_name); congruence.
Qed.
Lemma whole_mig : mget mig_name (whole strict s) = option_map (mig_tab strict) (dbs_mig s).
Proof. unfold whole. destruct (dbs_mig s); [|exact A]. rewrite mget_mput by exact S. cbn. reflexivity. Qed.
Lemma whole_get n x : mget n (whole strict s) = Some x -> mget n (dbs_rest s) = Some x \/ (n = mig_name /\ exists l, x = mig_tab strict l).
Proof.
  intros H. destruct (string_dec n mig_name) as [->|N]; [|left; now rewrite <- whole_other].
  rewrite whole_mig in H. destruct (dbs_mig s); [|discriminate]. injection H as <-. eauto.
Qed.
Lemma rest_get n x : mget n (dbs_rest s) = Some x -> mget n (whole strict s) = Some x.
Proof. intros H. rewrite whole_other; [exact H|]. intros ->. congruence. Qed.
Lemma whole_realises d : realises conv strict d (dbs_rest s) -> realises conv strict d (whole strict s).
Proof. intros R n t Ht. destruct (R n t Ht) as (x & G & X). exists x. split; [now apply rest_get|exact X]. Qed.
Lemma whole_temporary new : (forall m t c f n, In (m, t) (a_tables new) -> In c (t_cols t) -> refers c f -> fk_table f <> temporary n) ->
  (forall m b f n, mget m (dbs_rest s) = Some b -> In f (b_fks b) -> fk_table f <> temporary n) -> no_temporary new (whole strict s).
Proof.
  intros N D. split; [|exact N]. intros m b f n G F. apply whole_get in G as [G|(_ & l & ->)]; [eapply D; eauto|destruct F].
Qed.
Lemma whole_ready old new : ~ has_table old mig_name -> ~ has_table new mig_name ->
  ready conv veq strict old new (dbs_rest s) -> ready conv veq strict old new (whole strict s).
Proof.
  intros No Nn []. constructor; try assumption.
  - intros n H1 H2. rewrite whole_other; [now apply rd_free|]. intros ->. contradiction.
  - intros n H. destruct (rd_temporary n H) as (B & C). split; [|exact C]. rewrite whole_other; [exact B|apply mig_not_temporary].
  - intros n H1 H2 m b f r v p G N F E Hr Hv Nv Hp. apply whole_get in G as [G|(_ & l & ->)]; [|destruct F].
    apply whole_get in Hp as [Hp|(-> & _)]; [|contradiction]. exact (rd_dropped n H1 H2 m b f r v p G N F E Hr Hv Nv Hp).
  - intros n m b f r v H G. apply whole_get in G as [G|(_ & l & ->)]; [exact (rd_rebuilt n m b f r v H G)|intros []].
  - intros n m t u b c f r v H Ht Hu Hc R E G. apply whole_get in G as [G|(-> & _)]; [eapply rd_rebuilt_new; eauto|]. destruct No. now exists t.
  - intros n t u b c H Ht Hu G Hc. apply whole_get in G as [G|(-> & _)]; [|destruct No; now exists t].
    destruct (rd_fits n t u b c H Ht Hu G Hc) as (vs & B & C & D & F). exists vs. repeat split; auto.
    intros f R. eapply Forall_impl; [|exact (F f R)]. cbn. intros v [X|(p & X & Y)]; [auto|]. right. exists p. split; [now apply rest_get|exact Y].
Qed.
End Whole.

Lemma parted_ok db : msorted db -> forall o, mget mig_name db = option_map (mig_tab true) o \/ mget mig_name db = option_map (mig_tab false) o ->
  exists s1, parted db = Ok s1 /\ dbs_mig s1 = o /\ msorted (dbs_rest s1) /\ mget mig_name (dbs_rest s1) = None
    /\ forall n, n <> mig_name -> mget n (dbs_rest s1) = mget n db.
Proof.
  intros S o H. unfold parted.
  assert (X : match o with Some l => exists st, mget mig_name db = Some (mig_tab st l) | None => mget mig_name db = None end).
  { destruct o; cbn in H; destruct H; eauto. }
  destruct o as [l|].
  - destruct X as (st & ->). rewrite mig_rows. eexists. split; [reflexivity|]. cbn. split; [reflexivity|]. split; [now apply mdel_sorted|].
    split; [rewrite mget_mdel; reflexivity|]. intros n N. rewrite mget_mdel. destruct (keqb_spec n mig_name); congruence.
  - rewrite X. eexists. split; [reflexivity|]. cbn. auto.
Qed.
Lemma parted_strict db (strict : bool) : msorted db -> forall o, mget mig_name db = option_map (mig_tab strict) o ->
  exists s1, parted db = Ok s1 /\ dbs_mig s1 = o /\ msorted (dbs_rest s1) /\ mget mig_name (dbs_rest s1) = None
    /\ forall n, n <> mig_name -> mget n (dbs_rest s1) = mget n db.
Proof. intros S o H. apply parted_ok; [exact S|]. destruct strict; auto. Qed.
Lemma create_mig conv veq read db strict : run conv veq read db [create_ast strict true migrations_table]
  = Some (match mget mig_name db with Some _ => db | None => mput mig_name (mig_tab strict []) db end).
Proof.
  cbn [run]. unfold exec, create_ast. change (t_name migrations_table) with mig_name. unfold create.
  destruct (mget mig_name db); [reflexivity|]. cbn [is_some]. destruct strict; reflexivity.
Qed.

Lemma migrated_ext conv strict old new a a' b b' : ~ has_table old mig_name -> ~ has_table new mig_name ->
  (forall n, n <> mig_name -> mget n a' = mget n a) -> (forall n, n <> mig_name -> mget n b' = mget n b) ->
  mget mig_name a' = mget mig_name b' ->
  migrated conv strict old new a b -> migrated conv strict old new a' b'.
Proof.
  intros No Nn Ea Eb Em (R & K & N & G & O).
  assert (Xo : forall n t, In (n, t) (a_tables old) -> n <> mig_name) by (intros n t H ->; apply No; now exists t).
  assert (Xn : forall n t, In (n, t) (a_tables new) -> n <> mig_name) by (intros n t H ->; apply Nn; now exists t).
  split; [|split; [|split; [|split]]].
  - intros n t Ht. rewrite Eb by eauto. now apply R.
  - intros n t u Ht Hu. rewrite Ea, Eb by eauto. now apply K.
  - intros n H1 H2. destruct H1 as (t & Ht). rewrite Eb by eauto. apply N; [now exists t|exact H2].
  - intros n H1 H2. destruct H1 as (t & Ht). rewrite Eb by eauto. apply G; [now exists t|exact H2].
  - intros n H1 H2. destruct (string_dec n mig_name) as [->|X]; [now symmetry|]. rewrite Ea, Eb by exact X. now apply O.
Qed.

Section Step.
Variable conv : bool -> list string -> lvalue -> option lvalue.
Variable veq : lvalue -> lvalue -> bool.
Variable read : bool -> string -> f64.
Variable show : f64 -> string.
Variable strict : bool.
Hypothesis Hs : storage_ok conv strict read.
Hypothesis Hshow : display_ok read show.
Variable reads : string -> option (list ddl).
Variable sql : ADB -> list Operation -> outcome string.
Hypothesis Hread : forall d ops script, ops_fine d ops -> (strict = false -> Forall default_plain ops) -> sql d ops = Ok script ->
  with_newline script = script /\ reads script = Some (ops_ast show strict d ops).

Lemma script_reads old new from ops script : change_fine strict old new -> diff_out old new = Ok ops ->
  sql old (first_ops from ops) = Ok script ->
  with_newline script = script /\
  reads script = Some (ops_ast show strict old ops ++ match from with None => [create_ast strict true migrations_table] | Some _ => [] end).
Proof.
  intros [] E Es. assert (F : ops_fine old ops) by (now apply (diff_ops_fine old new)).
  destruct (Hread old (first_ops from ops) script (first_fine from _ _ F)) as (A & B); [|exact Es|].
  - intros X. apply first_plain. exact (diff_plain old new ops cf_old cf_new (cf_plain X) E).
  - split; [exact A|]. now rewrite <- first_ast.
Qed.

(** What a script that ran leaves. *)
Lemma exec_step old new from ops script s s1 : change_fine strict old new -> database_is conv strict old s ->
  diff_out old new = Ok ops -> sql old (first_ops from ops) = Ok script ->
  engine_exec conv veq read strict reads script s = Ok s1 ->
  migrated conv strict old new (dbs_rest s) (dbs_rest s1) /\ database_is conv strict new s1 /\ dbs_mig s1 = bookkeeping from (dbs_mig s).
Proof.
  intros CF D E Es Ex. pose proof CF as []. destruct D as [SO AP HA TE].
  destruct (script_reads old new from ops script CF E Es) as (_ & Rd). unfold engine_exec in Ex. rewrite Rd, run_app in Ex.
  destruct (run conv veq read (whole strict s) (ops_ast show strict old ops)) as [db1|] eqn:R1; [|discriminate].
  assert (F : ops_fine old ops) by (now apply (diff_ops_fine old new)).
  destruct (run_migrates conv veq read show strict Hs Hshow old new cf_old cf_new (whole strict s) (whole_sorted strict s SO)
    (whole_realises conv strict s SO AP old HA) cf_exact cf_refs (whole_temporary strict s SO AP new cf_temporary TE) ops db1 E F R1) as (MG & S1).
  assert (M1 : mget mig_name db1 = option_map (mig_tab strict) (dbs_mig s)).
  { destruct MG as (_ & _ & _ & _ & O). rewrite O by assumption. now apply whole_mig. }
  set (db2 := match from with None => match mget mig_name db1 with Some _ => db1 | None => mput mig_name (mig_tab strict []) db1 end | Some _ => db1 end).
  assert (R2 : run conv veq read db1 (match from with None => [create_ast strict true migrations_table] | Some _ => [] end) = Some db2).
  { subst db2. destruct from; [reflexivity|]. apply create_mig. }
  rewrite R2 in Ex.
  assert (S2 : msorted db2).
  { subst db2. destruct from; [exact S1|]. destruct (mget mig_name db1); [exact S1|now apply mput_sorted]. }
  assert (M2 : mget mig_name db2 = option_map (mig_tab strict) (bookkeeping from (dbs_mig s))).
  { subst db2. unfold bookkeeping. destruct from; [destruct (dbs_mig s); exact M1|]. destruct (dbs_mig s) as [l|]; cbn in M1; rewrite M1; [exact M1|].
    rewrite mget_mput by exact S1. reflexivity. }
  assert (O2 : forall n, n <> mig_name -> mget n db2 = mget n db1).
  { intros n N. subst db2. destruct from; [reflexivity|]. destruct (mget mig_name db1); [reflexivity|]. rewrite mget_mput by exact S1.
    destruct (keqb_spec n mig_name); congruence. }
  destruct (parted_strict db2 strict S2 _ M2) as (s2 & P2 & Mg & S3 & A3 & O3). rewrite P2 in Ex. injection Ex as <-.
  assert (MG' : migrated conv strict old new (dbs_rest s) (dbs_rest s2)).
  { apply (migrated_ext conv strict old new (whole strict s) (dbs_rest s) db1 (dbs_rest s2)); auto.
    - intros n N. symmetry. now apply whole_other.
    - intros n N. rewrite O3, O2 by exact N. reflexivity.
    - now rewrite AP, A3. }
  split; [exact MG'|]. split; [|exact Mg]. destruct MG' as (R & _ & _ & G & O). constructor; auto.
  intros m b f n Gm Hf. destruct (in_dec string_dec m (map fst (a_tables new))) as [I|NI].
  - apply in_map_iff in I as ((m' & t) & <- & Ht). cbn in Gm. destruct (R m' t Ht) as (b' & Gb & (_ & _ & _ & _ & Fk) & _).
    assert (b' = b) by congruence. subst b'. apply Fk in Hf as (c & Hc & Rf). exact (cf_temporary m' t c f n Ht Hc Rf).
  - assert (Nn : ~ has_table new m) by (intros (t & Ht); apply NI; apply in_map_iff; now exists (m, t)).
    destruct (in_dec string_dec m (map fst (a_tables old))) as [I|NI'].
    + apply in_map_iff in I as ((m' & t) & <- & Ht). cbn in Gm. rewrite G in Gm; [discriminate|now exists t|exact Nn].
    + rewrite O in Gm; [exact (TE m b f n Gm Hf)| |exact Nn]. intros (t & Ht). apply NI'. apply in_map_iff. now exists (m, t).
Qed.
(** When the database is ready the script runs. *)
Lemma exec_ready old new from ops script s : change_fine strict old new -> database_is conv strict old s -> ready conv veq strict old new (dbs_rest s) ->
  diff_out old new = Ok ops -> sql old (first_ops from ops) = Ok script ->
  exists s1, engine_exec conv veq read strict reads script s = Ok s1.
Proof.
  intros CF D RD E Es. pose proof CF as []. destruct D as [SO AP HA TE].
  destruct (script_reads old new from ops script CF E Es) as (_ & Rd). unfold engine_exec. rewrite Rd, run_app.
  pose proof (whole_temporary strict s SO AP new cf_temporary TE) as NT.
  pose proof (whole_realises conv strict s SO AP old HA) as WR.
  destruct (ready_runs conv veq read show strict Hs Hshow old new cf_old cf_new cf_old_fine cf_new_fine cf_defaults (whole strict s) (whole_sorted strict s SO)
    WR cf_exact cf_refs NT (whole_ready conv veq strict s SO AP old new cf_old_name cf_new_name RD) ops E) as (db1 & R1).
  rewrite R1.
  assert (F : ops_fine old ops) by (now apply (diff_ops_fine old new)).
  destruct (run_migrates conv veq read show strict Hs Hshow old new cf_old cf_new (whole strict s) (whole_sorted strict s SO)
    WR cf_exact cf_refs NT ops db1 E F R1) as (MG & S1).
  assert (M1 : mget mig_name db1 = option_map (mig_tab strict) (dbs_mig s)).
  { destruct MG as (_ & _ & _ & _ & O). rewrite O by assumption. now apply whole_mig. }
  assert (X : exists db2 o, run conv veq read db1 (match from with None => [create_ast strict true migrations_table] | Some _ => [] end) = Some db2
    /\ msorted db2 /\ mget mig_name db2 = option_map (mig_tab strict) o).
  { destruct from; [exists db1, (dbs_mig s); cbn; auto|]. rewrite create_mig.
    destruct (mget mig_name db1) eqn:Eg; [exists db1, (dbs_mig s); repeat split; auto; congruence|].
    exists (mput mig_name (mig_tab strict []) db1), (Some []). split; [reflexivity|]. split; [now apply mput_sorted|]. now rewrite mget_mput. }
  destruct X as (db2 & o & -> & S2 & M2). destruct (parted_strict db2 strict S2 o M2) as (s2 & P2 & _). eauto.
Qed.
End Step.
