(** One script run by PostgreSQL, and a migration applied or undone there. *)
From Verif Require Import Base SqlVal Sql Query QuerySpec Adb AdbSpec AdbProofs Literal LiteralSpec LiteralProofs
  Ddl DdlProofs DdlSpec SqliteDdl SqliteDdlProofs DdlFine PgDdl PgSem PgSpec PgDdlProofs PgLocal PgOps PgMain PgReady
  ResolveProofs Backend BackendSpec Chain ChainSpec ChainProofs Store StoreSpec StoreProofs FsStore FsSpec
  Deploy DeploySpec DeploySame DeployMade DeployWalk DeployProofs DeployChain PgDeploy PgDeploySpec PgDeploySame.

Lemma pg_mig_fine : pg_table_fine migrations_table.
Proof. split; [reflexivity|]. split; [discriminate|]. repeat constructor; cbn; auto; discriminate. Qed.
Lemma script_ends l : with_newline (script_of_lines l) = script_of_lines l.
Proof.
  unfold with_newline. assert (E : ends_with (script_of_lines l) newline = true) by (apply ends_with_iff; eexists; reflexivity). now rewrite E.
Qed.
Lemma table_dec (kw : string -> bool) (d : ADB) m : (exists n, has_table d n /\ cat kw n = m) \/ (forall n, has_table d n -> cat kw n <> m).
Proof.
  destruct (in_dec string_dec m (map (fun p => cat kw (fst p)) (a_tables d))) as [I|N].
  - left. apply in_map_iff in I as ([n t] & E & Ht). exists n. split; [now exists t|exact E].
  - right. intros n (t & Ht) E. apply N. apply in_map_iff. exists (n, t). auto.
Qed.

Section Step.
Variable d : dialect.
Variable kw : string -> bool.
Variable show : f64 -> string.
Variable read : bool -> string -> f64.
Variable pick : pdb -> string -> string.
Variable allows : pdb -> ddl -> bool.
Hypothesis Hq : quotes_enough kw d.
Hypothesis Hd : quotes_ddl kw ddl_words.
Hypothesis Hk : key_free d.
Hypothesis Hs : display_ok read show.
Hypothesis Hp : picks pick.
Variable others : pdb.
Hypothesis Ho : others_apart others.
Notation cat := (cat kw).
Notation is := (pg_database_is kw others).
Notation ok := (pg_change_fine kw others).
Notation exec := (pg_exec pick allows d).
Notation ast := (pg_op_ast show).
Notation rs := (map (respell kw lower)).
Definition mig_create : list ddl := rs (ast (AddTableIfNotExists migrations_table)).

Lemma pg_script_reads old new from ops script : ok old new -> diff_out old new = Ok ops ->
  pg_migration_sql kw show old (first_ops from ops) = Ok script ->
  with_newline script = script /\
  parse_script d lower script = Some (rs (flat_map ast (d_all old new)) ++ match from with None => mig_create | Some _ => [] end).
Proof.
  intros [] E Es. rewrite diff_eq in E. injection E as <-.
  pose proof (pg_ops_fine old new pf_old pf_new pf_old_fine pf_new_fine pf_defaults) as F.
  assert (F' : Forall (pg_op_fine old) (first_ops from (d_all old new))).
  { destruct from; [exact F|]. cbn [first_ops]. apply Forall_app. split; [exact F|]. constructor; [apply pg_mig_fine|constructor]. }
  destruct (pg_script d kw show read Hs Hq Hd Hk old _ F') as (s & E & P). rewrite Es in E. injection E as <-. split.
  - unfold pg_migration_sql in Es. destruct (omapm _ _) as [l| |]; [|discriminate..]. injection Es as <-. apply script_ends.
  - rewrite P. f_equal. destruct from; [now rewrite app_nil_r|]. cbn [first_ops]. rewrite flat_map_app, map_app. f_equal.
Qed.
Lemma mig_spelled : mig_create = [CreateTable true mig_name [{| cd_name := "name"; cd_type := ["TEXT"%string]; cd_cons := [KNotNull; KPrimary false] |}] [] false].
Proof.
  unfold mig_create. cbn. unfold respell_col, spelled. cbn. destruct (kw "butane_migrations"), (kw "name"); reflexivity.
Qed.

Lemma rest_names old new s : ok old new -> is old s -> names_clear kw old new (dbs_rest s).
Proof.
  intros [] []. destruct pf_names. constructor; auto. intros n c x H E. destruct (nc_free n c x H E) as [A B]. split; [exact A|].
  intros m b G N. destruct (string_dec m mig_name) as [->|Nm].
  - destruct (pf_keys n c x H E) as [K1 K2]. split; [congruence|]. rewrite pi_mig in G. destruct (dbs_mig s); [|discriminate]. injection G as <-.
    intros y [X|[]]. injection X as X _. congruence.
  - apply (B m b); [|exact N]. rewrite <- pi_others; [exact G|exact Nm|]. intros k Hn. apply N. now left.
Qed.
Lemma key_free_there old new s db1 : ok old new -> is old s -> pg_migrated kw read old new (dbs_rest s) db1 -> msorted db1 ->
  forall cols, ~ taken (mput mig_name {| p_cols := cols; p_cons := [] |} db1) pg_mig_key.
Proof.
  intros [] [] (M1 & M2 & M3 & _) S1 cols [T|(t & tb & x & G & Hx)]; destruct Ho as (_ & _ & Nt).
  - rewrite Base.mget_mput in T by exact S1. change (keqb pg_mig_key mig_name) with false in T. cbn iota in T.
    rewrite M3 in T; [|intros n Hn; now apply pf_apart]. rewrite pi_others in T; [|discriminate|intros n Hn; apply pf_apart; now left]. apply Nt. now left.
  - rewrite Base.mget_mput in G by exact S1. destruct (keqb_spec t mig_name) as [->|Nm]; [injection G as <-; destruct Hx|].
    destruct (table_dec kw new t) as [(n & (u & Hu) & <-)|Nn].
    + destruct (M1 n u Hu) as (b & Gb & (_ & _ & _ & T) & U). assert (b = tb) by congruence. subst b.
      pose proof (U _ _ Hx) as E. destruct (proj1 (T x) (in_map snd _ _ Hx)) as (c & Hc & W).
      destruct (pf_keys n (c_name c) x) as [_ X]; [|now apply (wants_at kw)|now apply X].
      exists u. split; [now right|]. exists c. auto.
    + destruct (table_dec kw old t) as [(n & Hn & <-)|No].
      * rewrite M2 in G; [discriminate|exact Hn|]. intros Y. now apply (Nn n).
      * rewrite M3 in G; [|intros n [Y|Y]; auto]. rewrite pi_others in G; [|exact Nm|exact No]. apply Nt. right. eauto.
Qed.
Lemma run_create db1 al : (forall cols, ~ taken (mput mig_name {| p_cols := cols; p_cons := [] |} db1) pg_mig_key) -> msorted db1 ->
  forall db2, prun pick al db1 mig_create = Some db2 ->
  db2 = match mget mig_name db1 with Some _ => db1 | None => mput mig_name pg_mig_tab db1 end.
Proof.
  intros Nt S1 db2. rewrite mig_spelled. cbn [prun]. unfold pexec. destruct (al db1 _); [|discriminate]. cbn [pexec0]. unfold pcreate.
  destruct (mget mig_name db1) eqn:G; cbn [is_some]; [congruence|]. cbn [map distinct existsb forallb negb andb cd_name].
  change (coldef_ok _) with true. cbn iota. cbn [andb].
  change (all_cons _ _) with [PKey "name"%string]. cbn [add_all]. unfold add_cons. rewrite SqliteDdlProofs.mget_mput_eq.
  cbn [cons_col]. change (pcol_at _ _) with (Some (pcol_of {| cd_name := "name"; cd_type := ["TEXT"%string]; cd_cons := [KNotNull; KPrimary false] |})).
  cbn [is_some some_cons existsb p_cons negb andb]. intros [= <-]. rewrite mput_mput. f_equal. unfold pg_mig_tab, with_cons. cbn. repeat f_equal.
  apply Hp; [apply Nt|cbn; lia].
Qed.
Lemma create_runs db1 : exists db2, prun pick (fun _ _ => true) db1 mig_create = Some db2.
Proof.
  rewrite mig_spelled. cbn [prun pexec pexec0]. unfold pcreate.
  destruct (mget mig_name db1) eqn:G; cbn [is_some]; [eauto|]. cbn [map distinct existsb forallb negb andb cd_name].
  change (coldef_ok _) with true. cbn iota. cbn [andb].
  change (all_cons _ _) with [PKey "name"%string]. cbn [add_all]. unfold add_cons. rewrite SqliteDdlProofs.mget_mput_eq.
  cbn [cons_col]. change (pcol_at _ _) with (Some (pcol_of {| cd_name := "name"; cd_type := ["TEXT"%string]; cd_cons := [KNotNull; KPrimary false] |})).
  cbn [is_some some_cons existsb p_cons negb andb]. eauto.
Qed.

(** What a script that ran leaves. *)
Lemma pg_exec_step old new from ops script s s1 : ok old new -> is old s ->
  diff_out old new = Ok ops -> pg_migration_sql kw show old (first_ops from ops) = Ok script -> exec script s = Ok s1 ->
  pg_carried kw read old new (dbs_rest s) (dbs_rest s1) /\ is new s1 /\ dbs_mig s1 = bookkeeping from (dbs_mig s).
Proof.
  intros CF D E Es Ex. destruct (pg_script_reads old new from ops script CF E Es) as (_ & Rd). unfold pg_exec in Ex. rewrite Rd, prun_app in Ex.
  destruct (prun pick allows (dbs_rest s) (rs (flat_map ast (d_all old new)))) as [db1|] eqn:R1; [|discriminate].
  destruct (pg_run_migrates pick allows Hp kw show read Hs old new (pf_old _ _ _ _ CF) (pf_new _ _ _ _ CF) (pf_old_fine _ _ _ _ CF) (pf_new_fine _ _ _ _ CF)
    (pf_defaults _ _ _ _ CF) (pf_change _ _ _ _ CF) (dbs_rest s) (pi_sorted _ _ _ _ D) (pi_has _ _ _ _ D) (rest_names old new s CF D) db1 R1) as (MG & S1).
  pose proof (key_free_there old new s db1 CF D MG S1) as KF.
  destruct (prun pick allows db1 _) as [db2|] eqn:R2; [|discriminate]. injection Ex as <-. cbn [dbs_rest dbs_mig].
  assert (M1 : mget mig_name db1 = match dbs_mig s with Some _ => Some pg_mig_tab | None => None end).
  { rewrite <- (pi_mig _ _ _ _ D). apply (proj1 (proj2 (proj2 MG))). intros n Hn. now apply (pf_apart _ _ _ _ CF). }
  assert (X : db2 = match from with Some _ => db1 | None => match mget mig_name db1 with Some _ => db1 | None => mput mig_name pg_mig_tab db1 end end).
  { destruct from; [cbn in R2; congruence|]. now apply (run_create db1 allows). }
  assert (C : pg_carried kw read old new (dbs_rest s) db2).
  { exists db1. split; [exact MG|]. rewrite X. destruct from; [now left|]. destruct (mget mig_name db1); [now left|now right]. }
  assert (O2 : forall m, m <> mig_name -> mget m db2 = mget m db1).
  { intros m N. rewrite X. destruct from; [reflexivity|]. destruct (mget mig_name db1); [reflexivity|]. rewrite Base.mget_mput by exact S1.
    destruct (keqb_spec m mig_name); congruence. }
  assert (M2 : mget mig_name db2 = match bookkeeping from (dbs_mig s) with Some _ => Some pg_mig_tab | None => None end).
  { rewrite X. unfold bookkeeping. destruct from; [destruct (dbs_mig s); exact M1|]. destruct (dbs_mig s); cbn in M1; rewrite M1; [exact M1|].
    rewrite Base.mget_mput by exact S1. reflexivity. }
  split; [exact C|].
  assert (B : match mget mig_name db2 with Some _ => Some (match dbs_mig s with Some l => l | None => [] end) | None => None end = bookkeeping from (dbs_mig s)).
  { rewrite M2. unfold bookkeeping. destruct (dbs_mig s), from; reflexivity. }
  split; [|exact B]. destruct MG as (G1 & G2 & G3 & _). constructor; cbn [dbs_rest dbs_mig].
  - rewrite X. destruct from; [exact S1|]. destruct (mget mig_name db1); [exact S1|now apply mput_sorted].
  - intros n t Ht. rewrite O2; [now apply G1|]. apply (pf_apart _ _ _ _ CF). right. now exists t.
  - intros m Nm H. rewrite O2 by exact Nm. destruct (table_dec kw old m) as [(n & Hn & <-)|No].
    + assert (Nn : ~ has_table new n) by (intros Y; now apply (H n)). rewrite G2 by assumption. symmetry. apply (pf_apart _ _ _ _ CF). now left.
    + rewrite G3; [|intros n [Y|Y]; auto]. now apply (pi_others _ _ _ _ D).
  - rewrite B. exact M2.
Qed.
(** When the catalogue is ready the script runs, unless something else is in its way. *)
Lemma prun_all al : (forall db x, al db x = true) -> forall xs db, prun pick al db xs = prun pick (fun _ _ => true) db xs.
Proof.
  intros H. induction xs as [|x xs IH]; intros db; [reflexivity|]. cbn [prun]. unfold pexec. rewrite H. destruct (pexec0 pick db x); [apply IH|reflexivity].
Qed.
Lemma pg_exec_ready old new from ops script s : (forall db x, allows db x = true) -> ok old new -> is old s -> pg_ready kw old new (dbs_rest s) ->
  diff_out old new = Ok ops -> pg_migration_sql kw show old (first_ops from ops) = Ok script -> exists s1, exec script s = Ok s1.
Proof.
  intros Al CF D RD E Es. destruct (pg_script_reads old new from ops script CF E Es) as (_ & Rd). unfold pg_exec. rewrite Rd, (prun_all allows Al), prun_app.
  destruct (pg_runs pick Hp kw show read Hs old new (pf_old _ _ _ _ CF) (pf_new _ _ _ _ CF) (pf_old_fine _ _ _ _ CF) (pf_new_fine _ _ _ _ CF)
    (pf_defaults _ _ _ _ CF) (pf_change _ _ _ _ CF) (dbs_rest s) (pi_sorted _ _ _ _ D) (pi_has _ _ _ _ D) (rest_names old new s CF D) RD) as (db1 & ->).
  destruct from; [cbn [prun]; eauto|]. destruct (create_runs db1) as (db2 & ->). eauto.
Qed.

(** * Migrations *)
Context {M : Type} (c : Coll M) (bs : list Backend).
Notation b := (pg_backend kw show).
Notation bk := (b_name b).
Notation scripted := (scripted c bs b).
Notation step := (pg_carried kw read).

Lemma pg_up_step from e m to r s s' : scripted from e ((m, to) :: r) -> ok e to -> is e s -> applies c exec bk m s s' ->
  step e to (dbs_rest s) (dbs_rest s') /\ is to s' /\
  exists l, bookkeeping from (dbs_mig s) = Some l /\ dbs_mig s' = Some (l ++ [cl_name c m]).
Proof.
  intros SC CF D (sql & s1 & E1 & E2 & l & E3 & _ & ->). inversion SC as [|? ? ? ? ? bf up down S W Z (_ & ops & dops & Ed & _ & Eu & _) Ku Kd _]. subst.
  pose proof (same_schema_sym _ _ S) as S'. pose proof (same_schema_refl to (pf_new _ _ _ _ CF)) as St.
  pose proof (pg_change_fine_any kw others e bf to to S' St W (pf_new _ _ _ _ CF) (pf_zeros _ _ _ _ CF) CF) as CF'.
  pose proof (pg_database_same kw others _ _ s S' D) as D'.
  destruct (pg_script_reads bf to from ops up CF' Ed Eu) as (NL & _).
  rewrite (kept_eq _ _ _ NL Ku E1) in E2.
  destruct (pg_exec_step bf to from ops up s s1 CF' D' Ed Eu E2) as (MG & [] & BK).
  split; [exact (pg_carried_any bf e to to S St (pf_zeros _ _ _ _ CF) (pf_zeros _ _ _ _ CF) kw read _ _ MG)|].
  split; [constructor; cbn [dbs_rest dbs_mig]; auto; now rewrite pi_mig, E3|].
  exists l. split; [congruence|reflexivity].
Qed.
Lemma pg_up_ready from e m to r s : (forall db x, allows db x = true) -> scripted from e ((m, to) :: r) -> ok e to -> is e s ->
  pg_ready kw e to (dbs_rest s) -> (exists l, bookkeeping from (dbs_mig s) = Some l /\ ~ In (cl_name c m) l) ->
  exists s', applies c exec bk m s s'.
Proof.
  intros Al SC CF D RD (l & BK & N). inversion SC as [|? ? ? ? ? bf up down S W Z (_ & ops & dops & Ed & _ & Eu & _) Ku Kd _]. subst.
  pose proof (same_schema_sym _ _ S) as S'. pose proof (same_schema_refl to (pf_new _ _ _ _ CF)) as St.
  pose proof (pg_change_fine_any kw others e bf to to S' St W (pf_new _ _ _ _ CF) (pf_zeros _ _ _ _ CF) CF) as CF'.
  pose proof (pg_database_same kw others _ _ s S' D) as D'.
  destruct (pg_script_reads bf to from ops up CF' Ed Eu) as (NL & _).
  destruct (pg_exec_ready bf to from ops up s Al CF' D' (pg_ready_any kw e bf to to _ S' St (pf_new_fine _ _ _ _ CF) (pf_zeros _ _ _ _ CF) (pf_zeros _ _ _ _ CF) RD) Ed Eu) as (s1 & E).
  destruct (pg_exec_step bf to from ops up s s1 CF' D' Ed Eu E) as (_ & _ & BK1).
  eexists. exists up, s1. split; [exact (kept_get _ _ NL Ku)|]. split; [exact E|]. exists l. split; [congruence|]. split; [exact N|reflexivity].
Qed.
Lemma pg_down_step from e m to r s s' : scripted from e ((m, to) :: r) -> ok to e -> is to s -> downgrades c exec bk m s s' ->
  step to e (dbs_rest s) (dbs_rest s') /\ is e s' /\
  exists l, dbs_mig s = Some l /\ dbs_mig s' = Some (remove string_dec (cl_name c m) l).
Proof.
  intros SC CF D (sql & s1 & E1 & E2 & l & E3 & ->). inversion SC as [|? ? ? ? ? bf up down S W Z (_ & ops & dops & _ & Ed & _ & Eu) Ku Kd _]. subst.
  pose proof (same_schema_sym _ _ S) as S'. pose proof (same_schema_refl to (pf_old _ _ _ _ CF)) as St.
  pose proof (pg_change_fine_any kw others to to e bf St S' (pf_old _ _ _ _ CF) W Z CF) as CF'.
  change dops with (first_ops (Some ""%string) dops) in Eu.
  destruct (pg_script_reads to bf _ dops down CF' Ed Eu) as (NL & _).
  rewrite (kept_eq _ _ _ NL Kd E1) in E2.
  destruct (pg_exec_step to bf _ dops down s s1 CF' D Ed Eu E2) as (MG & D1 & BK).
  split; [exact (pg_carried_any to to bf e St S Z (pf_zeros _ _ _ _ CF) kw read _ _ MG)|].
  split; [apply (pg_database_same kw others bf e) in D1; [|exact S]; destruct D1; constructor; cbn [dbs_rest dbs_mig]; auto; now rewrite pi_mig, E3|].
  exists l. split; [|reflexivity]. rewrite E3 in BK. unfold bookkeeping in BK. destruct (dbs_mig s); congruence.
Qed.
Lemma pg_down_ready from e m to r s : (forall db x, allows db x = true) -> scripted from e ((m, to) :: r) -> ok to e -> is to s ->
  pg_ready kw to e (dbs_rest s) -> dbs_mig s <> None -> exists s', downgrades c exec bk m s s'.
Proof.
  intros Al SC CF D RD N. inversion SC as [|? ? ? ? ? bf up down S W Z (_ & ops & dops & _ & Ed & _ & Eu) Ku Kd _]. subst.
  pose proof (same_schema_sym _ _ S) as S'. pose proof (same_schema_refl to (pf_old _ _ _ _ CF)) as St.
  pose proof (pg_change_fine_any kw others to to e bf St S' (pf_old _ _ _ _ CF) W Z CF) as CF'.
  change dops with (first_ops (Some ""%string) dops) in Eu.
  destruct (pg_script_reads to bf _ dops down CF' Ed Eu) as (NL & _).
  destruct (pg_exec_ready to bf _ dops down s Al CF' D
    (pg_ready_any kw to to e bf _ St S' (pf_new_fine _ _ _ _ CF) (pf_zeros _ _ _ _ CF) Z RD) Ed Eu) as (s1 & E).
  destruct (pg_exec_step to bf _ dops down s s1 CF' D Ed Eu E) as (_ & _ & BK1).
  destruct (dbs_mig s) as [l|]; [|congruence].
  eexists. exists down, s1. split; [exact (kept_get _ _ NL Kd)|]. split; [exact E|].
  exists l. split; [exact BK1|reflexivity].
Qed.

Definition pg_migrate_carries := DeployWalk.migrate_carries is ok step exec c bs b pg_up_step.
Definition pg_unmigrate_carries := DeployWalk.unmigrate_carries is ok step exec c bs b pg_down_step.
Definition pg_commands_walk := DeployWalk.commands_walk is ok step exec c bs b pg_up_step pg_down_step.
Definition pg_follows := DeployWalk.follows_scripted is ok step exec c bs b (pg_database_same kw others) pg_up_step pg_down_step.
Definition pg_migrate_reaches Al := DeployWalk.migrate_reaches is ok step (pg_ready kw) exec c bs b pg_up_step (fun from e m to r s => pg_up_ready from e m to r s Al).
Definition pg_unmigrate_reaches Al := DeployWalk.unmigrate_reaches is ok step (pg_ready kw) exec c bs b pg_down_step (fun from e m to r s => pg_down_ready from e m to r s Al).
End Step.
