(** Property theorems C54: migrations deployed on PostgreSQL. *)
From Verif Require Import Base SqlVal Sql Query QuerySpec Adb AdbSpec AdbProofs Literal LiteralSpec LiteralProofs
  Ddl DdlProofs DdlSpec SqliteDdl SqliteDdlProofs DdlFine PgDdl PgSem PgSpec PgDdlProofs PgLocal PgOps PgMain PgReady
  Backend BackendSpec ResolveProofs Chain ChainSpec ChainProofs Store StoreSpec StoreProofs FsStore FsSpec FsProofs
  Deploy DeploySpec DeploySame DeployMade DeployWalk PgDeploy PgDeploySpec PgDeploySame PgDeployProofs
  Props_Schema Props_Query Props_Filter Props_TursoScript Props_Migrations Props_Migrate Props_PgMigrate Props_Deploy.

(** ** C54 *)

(** What the theorems assume of PostgreSQL: the keyword list quotes what it reads as a
    keyword, names ending as constraints do are no keywords, printed reals are read back,
    and a constraint gets its usual name if that is free. *)
Record pg_engine_fine (dl : dialect) (kw : string -> bool) (show : f64 -> string) (read : bool -> string -> f64)
    (pick : pdb -> string -> string) : Prop := {
  pe_quotes : quotes_enough kw dl; pe_words : quotes_ddl kw ddl_words; pe_keys : key_free dl;
  pe_display : display_ok read show; pe_picks : picks pick }.
(** The engine has nothing to say against a statement but what the catalogue tells. *)
Definition never_refuses (allows : pdb -> ddl -> bool) : Prop := forall db x, allows db x = true.

(** [p] are the migrations already applied.  Whatever goes wrong at whatever call, and
    whatever the engine refuses, deploying leaves a prefix of the rest applied: recorded
    are [p] and that prefix, the tables are those of its last schema, and the tables that
    butane has nothing to do with are as they were. *)
Theorem C54_deploy : forall dl kw show read pick allows others M (c : Coll M) bs plan p q s r s',
  pg_engine_fine dl kw show read pick -> others_apart others ->
  coherent c -> chain c (map fst (p ++ q)) -> scripted c bs (pg_backend kw show) None adb_new (p ++ q) ->
  changes (pg_change_fine kw others) adb_new (map snd (p ++ q)) ->
  records c s (map fst p) -> pg_database_is kw others (schema_after p) s ->
  migrate (pg_exec pick allows dl) "pg" plan c (conn_on s) = (r, s') ->
  exists k, k <= length q /\ records c (cn_db s') (map fst (p ++ firstn k q))
    /\ carried_by (pg_carried kw read) (schema_after p) (map snd (firstn k q)) (dbs_rest s) (dbs_rest (cn_db s'))
    /\ pg_database_is kw others (schema_after (p ++ firstn k q)) (cn_db s') /\ (r = Val tt -> k = length q).
Proof.
  intros dl kw show read pick allows others M c bs plan p q s r s' [] Ho CO CH SC CF R D H.
  exact (pg_migrate_carries dl kw show read pick allows pe_quotes0 pe_words0 pe_keys0 pe_display0 pe_picks0 others Ho c bs plan p q s r s' CO CH SC CF R D H).
Qed.
Print Assumptions C54_deploy.
(** Without failures, if the catalogue is ready for each of the changes and the engine
    has nothing else against them, it succeeds. *)
Theorem C54_deploy_completes : forall dl kw show read pick allows others M (c : Coll M) bs p q s,
  pg_engine_fine dl kw show read pick -> others_apart others -> never_refuses allows ->
  coherent c -> chain c (map fst (p ++ q)) -> scripted c bs (pg_backend kw show) None adb_new (p ++ q) ->
  changes (pg_change_fine kw others) adb_new (map snd (p ++ q)) ->
  records c s (map fst p) -> pg_database_is kw others (schema_after p) s ->
  ready_by (pg_carried kw read) (pg_ready kw) (schema_after p) (map snd q) (dbs_rest s) ->
  exists s', migrate (pg_exec pick allows dl) "pg" no_fault c (conn_on s) = (Val tt, s').
Proof.
  intros dl kw show read pick allows others M c bs p q s [] Ho Al CO CH SC CF R D RD.
  exact (pg_migrate_reaches dl kw show read pick allows pe_quotes0 pe_words0 pe_keys0 pe_display0 pe_picks0 others Ho c bs Al p q s CO CH SC CF R D RD).
Qed.
Print Assumptions C54_deploy_completes.
(** Undoing, likewise, newest first. *)
Theorem C54_undo : forall dl kw show read pick allows others M (c : Coll M) bs plan p q s r s',
  pg_engine_fine dl kw show read pick -> others_apart others ->
  coherent c -> chain c (map fst (p ++ q)) -> scripted c bs (pg_backend kw show) None adb_new (p ++ q) ->
  changes_back (pg_change_fine kw others) adb_new (map snd p) ->
  records c s (map fst p) -> pg_database_is kw others (schema_after p) s ->
  unmigrate (pg_exec pick allows dl) "pg" plan c (conn_on s) = (r, s') ->
  exists k, k <= length p /\ records c (cn_db s') (map fst (firstn (length p - k) p))
    /\ carried_by (pg_carried kw read) (schema_after p) (firstn k (before_it p)) (dbs_rest s) (dbs_rest (cn_db s'))
    /\ pg_database_is kw others (schema_after (firstn (length p - k) p)) (cn_db s') /\ (r = Val tt -> k = length p).
Proof.
  intros dl kw show read pick allows others M c bs plan p q s r s' [] Ho CO CH SC CF R D H.
  exact (pg_unmigrate_carries dl kw show read pick allows pe_quotes0 pe_words0 pe_keys0 pe_display0 pe_picks0 others Ho c bs plan p q s r s' CO CH SC CF R D H).
Qed.
Print Assumptions C54_undo.
Theorem C54_undo_completes : forall dl kw show read pick allows others M (c : Coll M) bs p q s,
  pg_engine_fine dl kw show read pick -> others_apart others -> never_refuses allows ->
  coherent c -> chain c (map fst (p ++ q)) -> scripted c bs (pg_backend kw show) None adb_new (p ++ q) ->
  changes_back (pg_change_fine kw others) adb_new (map snd p) ->
  records c s (map fst p) -> pg_database_is kw others (schema_after p) s ->
  ready_by (pg_carried kw read) (pg_ready kw) (schema_after p) (before_it p) (dbs_rest s) ->
  exists s', unmigrate (pg_exec pick allows dl) "pg" no_fault c (conn_on s) = (Val tt, s').
Proof.
  intros dl kw show read pick allows others M c bs p q s [] Ho Al CO CH SC CF R D RD.
  exact (pg_unmigrate_reaches dl kw show read pick allows pe_quotes0 pe_words0 pe_keys0 pe_display0 pe_picks0 others Ho c bs Al p q s CO CH SC CF R D RD).
Qed.
Print Assumptions C54_undo_completes.
(** Any number of runs of both, each with its own failures. *)
Theorem C54_any_history : forall dl kw show read pick allows others M (c : Coll M) bs l cs i s,
  pg_engine_fine dl kw show read pick -> others_apart others ->
  coherent c -> chain c (map fst l) -> scripted c bs (pg_backend kw show) None adb_new l ->
  changes (pg_change_fine kw others) adb_new (map snd l) -> changes_back (pg_change_fine kw others) adb_new (map snd l) ->
  i <= length l -> records c s (map fst (firstn i l)) -> pg_database_is kw others (schema_after (firstn i l)) s ->
  let s' := commands c (pg_exec pick allows dl) "pg" cs s in
  exists j, j <= length l /\ records c s' (map fst (firstn j l)) /\ pg_database_is kw others (schema_after (firstn j l)) s'
    /\ walked (pg_carried kw read) (adb_new :: map snd l) i j (dbs_rest s) (dbs_rest s').
Proof.
  intros dl kw show read pick allows others M c bs l cs i s [] Ho CO CH SC CF CB L R D s'.
  exact (pg_commands_walk dl kw show read pick allows pe_quotes0 pe_words0 pe_keys0 pe_display0 pe_picks0 others Ho c bs l cs CO CH SC CF CB i s L R D).
Qed.
Print Assumptions C54_any_history.

(** Schemas asked for one after the other, their migrations created in the in-memory
    store, and the store deployed, undone and deployed again on a database with other
    tables in it, with any failures: the database always has the tables of the schema of
    the migration recorded last and the other tables, and whenever deploying succeeds
    that is the schema asked for last. *)
Lemma untouched_is kw others : others_apart others -> pg_database_is kw others adb_new (untouched others).
Proof. intros (S & N & _). constructor; cbn; auto. intros n t []. Qed.
Theorem C54_memory : forall dl kw show read pick allows others bs steps st,
  pg_engine_fine dl kw show read pick -> others_apart others ->
  NoDup (map b_name bs) -> In (pg_backend kw show) bs -> NoDup (map fst steps) ->
  (forall n to, In (n, to) steps -> wf_schema to /\ settled to /\ plain_zeros to) ->
  (forall made, made_of adb_new steps made ->
     changes (pg_change_fine kw others) adb_new (map snd made) /\ changes_back (pg_change_fine kw others) adb_new (map snd made)) ->
  mem_create_all bs mem_new steps = Ok st ->
  follows_by (pg_database_is kw others) (pg_carried kw read) others (mem_coll st) (pg_exec pick allows dl) "pg" steps.
Proof.
  intros dl kw show read pick allows others bs steps st [] Ho NDb Hb ND HS HC H.
  destruct (mem_scripted_new bs _ steps st NDb Hb ND HS H) as (l & MO & CO & CH & SC). destruct (HC _ MO) as [CF CB].
  apply (pg_follows dl kw show read pick allows pe_quotes0 pe_words0 pe_keys0 pe_display0 pe_picks0 others Ho _ bs others steps l (map DeployMade.named l)); auto;
    [now apply untouched_is|]. intros n to Hn. now apply (HS n to).
Qed.
Print Assumptions C54_memory.
(** And in the store on disk. *)
Theorem C54_disk : forall dl kw show read pick allows others ls bs steps fs fs' tr,
  pg_engine_fine dl kw show read pick -> others_apart others -> listing ls ->
  NoDup (map b_name bs) -> In (pg_backend kw show) bs -> fs_fresh fs -> NoDup (map fst steps) ->
  (forall n to, In (n, to) steps -> fs_get fs n = None /\ wf_schema to /\ settled to /\ plain_zeros to) ->
  (forall made, made_of adb_new steps made ->
     changes (pg_change_fine kw others) adb_new (map snd made) /\ changes_back (pg_change_fine kw others) adb_new (map snd made)) ->
  fs_create_all ls bs steps fs = (Ok tt, fs', tr) ->
  follows_by (pg_database_is kw others) (pg_carried kw read) others (fs_coll fs') (pg_exec pick allows dl) "pg" steps.
Proof.
  intros dl kw show read pick allows others ls bs steps fs fs' tr [] Ho PL NDb Hb Fr ND HS HC H.
  destruct (fs_scripted_new ls bs _ steps fs fs' tr PL NDb Hb Fr ND HS H) as (l & MO & CO & CH & SC). destruct (HC _ MO) as [CF CB].
  apply (pg_follows dl kw show read pick allows pe_quotes0 pe_words0 pe_keys0 pe_display0 pe_picks0 others Ho _ bs others steps l l); auto.
  - now apply untouched_is.
  - intros n to Hn. now apply (HS n to).
  - rewrite <- (map_id l) at 2. apply map_ext. intros [a b]. reflexivity.
Qed.
Print Assumptions C54_disk.

(** * A case *)
(** As in C51, but for the key of [tag], a text that is not numbered. *)
Definition pd_new : ADB :=
  {| a_tables := [("post", {| t_name := "post";
                     t_cols := [col "body" TText; pkcol "id" TInt;
                                {| c_name := "title"; c_type := KnownId (TyId TText); c_nullable := true; c_pk := false;
                                   c_auto := false; c_unique := true; c_default := Some (VText "x"); c_ref := None |}] |});
                  ("tag", {| t_name := "tag";
                     t_cols := [with_ref (col "p" TInt) (Some (RefLiteral {| rl_table := "post"; rl_column := "id" |}));
                                mk "tag" TText false true false false None None] |})]%string;
     a_types := [] |}.
Lemma pd_new_wf : wf_schema pd_new.
Proof. wf_tac. Qed.
Definition pd_asked : list (string * ADB) := [("m1", ex_old); ("m2", ex_old); ("m3", pd_new)]%string.
Lemma pd_settled : settled pd_new.
Proof.
  intros n t H. cbn in H. destruct H as [[= <- <-]|[[= <- <-]|[]]]; (split; [intros c Hc; cbn in Hc; repeat (destruct Hc as [<-|Hc]; [split; [eexists; reflexivity|first [left; reflexivity|right; eexists; reflexivity]]|]); destruct Hc|left]).
  - exists (pkcol "id" TInt). exists [col "body" TText]. eexists. split; [reflexivity|]. split; [reflexivity|]. intros x [<-|[]]. reflexivity.
  - exists (mk "tag" TText false true false false None None). eexists [_]. exists []. split; [reflexivity|]. split; [reflexivity|]. intros x [<-|[]]. reflexivity.
Qed.
Example pd_asked_ok : forall n to, In (n, to) pd_asked -> wf_schema to /\ settled to /\ plain_zeros to.
Proof.
  assert (Z : plain_zeros pd_new).
  { intros m t c r Hm Hc Ed. exfalso. cbn in Hm. destruct Hm as [[= <- <-]|[[= <- <-]|[]]]; cbn in Hc; repeat (destruct Hc as [<-|Hc]; [discriminate Ed|]); destruct Hc. }
  intros n to [[= <- <-]|[[= <- <-]|[[= <- <-]|[]]]]; [apply (ex_asked_ok "m1"); cbn; auto|apply (ex_asked_ok "m1"); cbn; auto|].
  split; [exact pd_new_wf|]. split; [exact pd_settled|exact Z].
Qed.
Definition ex_others : pdb := [
  ("audit", {| p_cols := [{| p_name := "id"; p_type := ["INTEGER"]; p_notnull := true; p_default := None |}]; p_cons := [("audit_pkey", PKey "id")] |});
  ("audit_line", {| p_cols := [{| p_name := "audit"; p_type := ["INTEGER"]; p_notnull := false; p_default := None |}];
                    p_cons := [("audit_line_audit_fkey", PRef {| fk_col := "audit"; fk_table := "audit"; fk_ref := "id" |})] |})]%string.
Example ex_pg_engine : pg_engine_fine pg_like ddl_kw bits_show ex_read careful_pick.
Proof. constructor; [apply pg_kw_ok|apply pg_kw_ok|exact pg_keys_free|exact ex_display|exact careful_picks]. Qed.
Example ex_others_apart : others_apart ex_others.
Proof.
  split; [repeat constructor|]. split; [reflexivity|]. intros [H|(m & b & y & G & H)]; [apply H; reflexivity|].
  apply mget_In in G. cbn in G. destruct G as [[= <- <-]|[[= <- <-]|[]]]; cbn in H; destruct H as [E|[]]; discriminate E.
Qed.
Definition apart_b (old new : ADB) (others : pdb) : bool :=
  forallb (fun n => match mget (cat ddl_kw n) others with None => true | Some _ => false end
                    && negb (String.eqb (cat ddl_kw n) mig_name) && negb (String.eqb (cat ddl_kw n) pg_mig_key)) (table_names old new)
  && forallb (fun p => forallb (fun s => negb (String.eqb s mig_name) && negb (String.eqb s pg_mig_key)) (three (cat ddl_kw (fst p)) (cat ddl_kw (snd p))))
       (column_names old ++ column_names new).
Lemma neqb a b : negb (String.eqb a b) = true -> a <> b.
Proof. intros H ->. now rewrite String.eqb_refl in H. Qed.
Lemma apart_ok old new others : apart_b old new others = true ->
  (forall n, table_named old new n -> mget (cat ddl_kw n) others = None /\ cat ddl_kw n <> mig_name /\ cat ddl_kw n <> pg_mig_key)
  /\ (forall n c x, PgSpec.named old new n c -> cons_col x = cat ddl_kw c -> usual_name (cat ddl_kw n) x <> mig_name /\ usual_name (cat ddl_kw n) x <> pg_mig_key).
Proof.
  unfold apart_b. rewrite andb_true_iff, !forallb_forall. intros [A B]. split.
  - intros n Hn. specialize (A n (table_names_In _ _ _ Hn)). rewrite !andb_true_iff in A. destruct A as [[A1 A2] A3].
    apply neqb in A2, A3. destruct (mget (cat ddl_kw n) others); [discriminate|auto].
  - intros n c x Hc E. specialize (B _ (column_names_In _ _ _ _ Hc)). cbn [fst snd] in B. rewrite forallb_forall in B.
    assert (Hi : In (usual_name (cat ddl_kw n) x) (three (cat ddl_kw n) (cat ddl_kw c))) by (destruct x as [y|y|f]; cbn [cons_col] in E; cbn [usual_name]; rewrite ?E; cbn; auto).
    specialize (B _ Hi). apply andb_true_iff in B as [B1 B2]. split; now apply neqb.
Qed.
Lemma ex_pg_fine : pg_schema_fine ex_old /\ pg_schema_fine pd_new.
Proof. split; pg_fine_tac. Qed.
Lemma ex_one_primary d n t : d = ex_old \/ d = pd_new -> In (n, t) (a_tables d) -> one_primary t.
Proof.
  intros [-> | ->] H c c' Hc Hc'; cbn in H; destruct H as [[= <- <-]|[[= <- <-]|[]]]; cbn in Hc, Hc';
    repeat (destruct Hc as [<-|Hc]); try destruct Hc; repeat (destruct Hc' as [<-|Hc']); try destruct Hc'; cbn; congruence.
Qed.
Lemma ex_zeros : plain_zeros ex_old /\ plain_zeros pd_new.
Proof. split; [apply (pd_asked_ok "m1")|apply (pd_asked_ok "m3")]; cbn; auto. Qed.
Lemma ex_pg_first : pg_change_fine ddl_kw ex_others adb_new ex_old.
Proof.
  destruct (apart_ok adb_new ex_old ex_others eq_refl) as [A K].
  constructor; [apply empty_wf|apply ex_old_wf|intros n t []|apply ex_pg_fine|pg_defaults_tac| |apply ex_zeros|apply clear_ok; vm_compute; reflexivity|exact A|exact K].
  constructor; [intros n t []|intros n t; apply ex_one_primary; auto|intros n t u c []|intros n c c' (t & u & [] & _)].
Qed.
Lemma ex_pg_first_back : pg_change_fine ddl_kw ex_others ex_old adb_new.
Proof.
  destruct (apart_ok ex_old adb_new ex_others eq_refl) as [A K].
  constructor; [apply ex_old_wf|apply empty_wf|apply ex_pg_fine|intros n t []|pg_defaults_tac| |intros n t c r []|apply clear_ok; vm_compute; reflexivity|exact A|exact K].
  constructor; [intros n t; apply ex_one_primary; auto|intros n t []|intros n t u c _ []|intros n c c' (t & u & _ & [] & _)].
Qed.
Ltac ex_kept A B := cbn in A, B; destruct A as [[= <- <-]|[[= <- <-]|[]]], B as [B|[B|[]]]; try discriminate B; injection B as <-.
Lemma ex_pg_next : pg_change_fine ddl_kw ex_others ex_old pd_new.
Proof.
  destruct (apart_ok ex_old pd_new ex_others eq_refl) as [A K].
  constructor; [apply ex_old_wf|apply pd_new_wf|apply ex_pg_fine|apply ex_pg_fine|pg_defaults_tac| |apply ex_zeros|apply clear_ok; vm_compute; reflexivity|exact A|exact K].
  constructor; [intros n t; apply ex_one_primary; auto|intros n t; apply ex_one_primary; auto| |].
  - intros n t u c Ht Hu _ _. ex_kept Ht Hu. exists (pkcol "id" TInt). cbn. auto.
  - intros n c c' (t & u & Ht & Hu & Hc & Hc' & E & _). ex_kept Ht Hu. cbn in Hc, Hc';
      repeat (destruct Hc as [<-|Hc]); try destruct Hc; repeat (destruct Hc' as [<-|Hc']); try destruct Hc'; cbn in E |- *; congruence.
Qed.
Lemma ex_pg_next_back : pg_change_fine ddl_kw ex_others pd_new ex_old.
Proof.
  destruct (apart_ok pd_new ex_old ex_others eq_refl) as [A K].
  constructor; [apply pd_new_wf|apply ex_old_wf|apply ex_pg_fine|apply ex_pg_fine|pg_defaults_tac| |apply ex_zeros|apply clear_ok; vm_compute; reflexivity|exact A|exact K].
  constructor; [intros n t; apply ex_one_primary; auto|intros n t; apply ex_one_primary; auto| |].
  - intros n t u c Ht Hu _ _. ex_kept Ht Hu. exists (pkcol "id" TInt). cbn. auto.
  - intros n c c' (t & u & Ht & Hu & Hc & Hc' & E & _). ex_kept Ht Hu. cbn in Hc, Hc';
      repeat (destruct Hc as [<-|Hc]); try destruct Hc; repeat (destruct Hc' as [<-|Hc']); try destruct Hc'; cbn in E |- *; congruence.
Qed.
Example pd_asked_fine : forall made, made_of adb_new pd_asked made ->
  changes (pg_change_fine ddl_kw ex_others) adb_new (map snd made) /\ changes_back (pg_change_fine ddl_kw ex_others) adb_new (map snd made).
Proof.
  assert (N1 : ~ same_schema adb_new ex_old) by (intros [_ H]; destruct (H _ _ (or_introl eq_refl)) as (t & [] & _)).
  assert (N2 : ~ same_schema ex_old pd_new).
  { intros [H _]. destruct (H _ _ (or_introl eq_refl)) as (t & Ht & _). cbn in Ht. destruct Ht as [E|[E|[]]]; discriminate E. }
  intros made H. inversion H as [|? ? ? ? ? SS R|? ? ? ? m1 N R]; subst; [contradiction|]. clear H.
  inversion R as [|? ? ? ? ? SS R1|? ? ? ? m2 N' R1]; subst; [|exfalso; apply N', same_schema_refl, ex_old_wf]. clear R.
  inversion R1 as [|? ? ? ? ? SS1 R2|? ? ? ? m3 N' R2]; subst; [contradiction|]. clear R1. inversion R2; subst. cbn.
  auto using ex_pg_first, ex_pg_first_back, ex_pg_next, ex_pg_next_back.
Qed.
(** A store with migrations for two backends.  The process stops in the first deployment,
    a later call fails, then all goes well.  Undone and deployed, again. *)
Definition ex_pg_backends : list Backend := [pg_backend ddl_kw bits_show; backend_of ddl_kw bits_show OnSqlite].
Example C54_case : exists st,
  mem_create_all ex_pg_backends mem_new pd_asked = Ok st
  /\ NoDup (map b_name ex_pg_backends) /\ In (pg_backend ddl_kw bits_show) ex_pg_backends
  /\ (let run cs := commands (mem_coll st) (pg_exec careful_pick (fun _ _ => true) pg_like) "pg" cs (untouched ex_others) in
      let shown s := (map fst (dbs_rest s), dbs_mig s) in
      shown (run [Deploy_all (stops_at 3 StopsBefore)]) = (["audit"; "audit_line"], None)
      /\ shown (run [Deploy_all (stops_at 7 Fails)]) = (["audit"; "audit_line"; "blog"; "butane_migrations"; "post"], Some ["m1"])
      /\ shown (run [Deploy_all (stops_at 3 StopsBefore); Deploy_all (stops_at 7 Fails); Deploy_all no_fault])
         = (["audit"; "audit_line"; "butane_migrations"; "post"; "tag"], Some ["m1"; "m3"])
      /\ shown (run [Deploy_all no_fault; Undo_all no_fault]) = (["audit"; "audit_line"; "butane_migrations"], Some [])
      /\ shown (run [Deploy_all no_fault; Undo_all no_fault; Deploy_all no_fault])
         = (["audit"; "audit_line"; "butane_migrations"; "post"; "tag"], Some ["m1"; "m3"]))%string.
Proof.
  eexists. split; [vm_compute; reflexivity|]. split; [repeat constructor; cbn; intuition discriminate|]. split; [left; reflexivity|].
  vm_compute. auto 10.
Qed.
Lemma mget_mput_other {V} (k x : string) (v : V) m : x <> k -> mget x (mput k v m) = mget x m.
Proof.
  intros N. assert (K : keqb x k = false) by (destruct (keqb x k) eqn:E; [apply keqb_eq in E; congruence|reflexivity]).
  induction m as [|[y w] m IH]; cbn [mput mget]; [now rewrite K|]. destruct (kcmp k y) eqn:E; cbn [mget].
  - apply kcmp_eq in E. subst y. now rewrite K.
  - now rewrite K.
  - now rewrite IH.
Qed.
(** The database with the other tables is ready for the whole of it. *)
Example C54_ready_case : ready_by (pg_carried ddl_kw ex_read) (pg_ready ddl_kw) adb_new [ex_old; pd_new] ex_others.
Proof.
  assert (OR : forall m b f, mget m ex_others = Some b -> In (PRef f) (map snd (p_cons b)) -> fk_table f = "audit"%string).
  { intros m b f G H. apply mget_In in G. cbn in G. destruct G as [[= <- <-]|[[= <- <-]|[]]]; cbn in H; destruct H as [[= <-]|[]]; reflexivity. }
  cbn [ready_by]. split.
  { constructor.
    - intros n (t & [[= <- <-]|[[= <- <-]|[]]]) _; reflexivity.
    - intros n t c r [].
    - intros n u c r _ (t & []).
    - intros m b f G _ H. right. rewrite (OR m b f G H). intros n [(t & [])|(t & [[= <- <-]|[[= <- <-]|[]]])]; discriminate.
    - intros n u c r [[= <- <-]|[[= <- <-]|[]]] _ Hc Er; cbn in Hc; repeat (destruct Hc as [<-|Hc]; [discriminate Er|]); destruct Hc.
    - intros n c (t & u & [] & _).
    - intros n t c o (t' & u & [] & _).
    - intros n c c' (t & u & [] & _). }
  intros db (db1 & (_ & _ & OT & _) & X). split; [|intros; exact I].
  assert (E : forall m, (m <> "blog" -> m <> "post" -> m <> mig_name -> mget m db = mget m ex_others)%string).
  { intros m N1 N2 N3. assert (E1 : mget m db1 = mget m ex_others) by (apply OT; intros n [(t & [])|(t & [[= <- <-]|[[= <- <-]|[]]])] E; vm_compute in E; congruence).
    destruct X as [-> |(_ & ->)]; [exact E1|]. rewrite mget_mput_other; [exact E1|exact N3]. }
  assert (M : mget mig_name db = None \/ mget mig_name db = Some pg_mig_tab).
  { destruct X as [-> |(_ & ->)]; [left|right; apply SqliteDdlProofs.mget_mput_eq].
    rewrite OT; [reflexivity|]. intros n [(t & [])|(t & [[= <- <-]|[[= <- <-]|[]]])]; discriminate. }
  constructor.
  - intros n (t & [[= <- <-]|[[= <- <-]|[]]]) No; [exfalso; apply No; eexists; right; left; reflexivity|]. rewrite E by discriminate. reflexivity.
  - intros n t c r [[= <- <-]|[[= <- <-]|[]]] _ Hc Er; cbn in Hc; repeat (destruct Hc as [<-|Hc]; [discriminate Er|]); destruct Hc.
  - intros n u c r [[= <- <-]|[[= <- <-]|[]]] (t & Hn) Hc Er; cbn in Hc; [repeat (destruct Hc as [<-|Hc]; [discriminate Er|]); destruct Hc|].
    cbn in Hn. destruct Hn as [Y|[Y|[]]]; discriminate Y.
  - intros m b f G El H. right.
    assert (N1 : m <> "blog"%string) by (intros ->; apply (El "blog"); [left; eexists; left; reflexivity|reflexivity]).
    assert (N2 : m <> "post"%string) by (intros ->; apply (El "post"); [left; eexists; right; left; reflexivity|reflexivity]).
    destruct (string_dec m mig_name) as [-> |N3].
    + rewrite G in M. destruct M as [M|[= ->]]; [discriminate|]. cbn in H. destruct H as [H|[]]. discriminate H.
    + rewrite (E m N1 N2 N3) in G. rewrite (OR m b f G H).
      intros n [(t & [[= <- <-]|[[= <- <-]|[]]])|(t & [[= <- <-]|[[= <- <-]|[]]])]; discriminate.
  - intros n u c r [[= <- <-]|[[= <- <-]|[]]] No Hc Er; cbn in Hc; [exfalso; apply No; eexists; right; left; reflexivity|].
    destruct Hc as [<-|[<-|[]]]; [|discriminate Er]. injection Er as <-. left.
    exists "post"%string. eexists. exists (pkcol "id" TInt). split; [left; reflexivity|]. split; [cbn; auto|]. auto.
  - intros n c (t & u & A & B & Hc & Nh). ex_kept A B. cbn in Hc. destruct Hc as [<-|[<-|[<-|[]]]]; [split; [reflexivity|discriminate]|..];
      exfalso; apply Nh, has_column_names; cbn; auto.
  - intros n t c o (t' & u & A & B & Hc & Nh) Pk. ex_kept A B. cbn in Hc. destruct Hc as [<-|[<-|[<-|[]]]]; try discriminate Pk.
    exfalso; apply Nh, has_column_names; cbn; auto.
  - intros n c c' (t & u & A & B & Hc & Hc' & En & Ns). ex_kept A B. cbn in Hc, Hc';
      repeat (destruct Hc as [<-|Hc]); try destruct Hc; repeat (destruct Hc' as [<-|Hc']); try destruct Hc'; try discriminate En;
      (split; [|split]); cbn; congruence || discriminate || reflexivity.
Qed.
