(** Property theorems C51: migrations deployed on a database. *)
From Verif Require Import Base SqlVal Sql Query QuerySpec Adb AdbSpec AdbProofs Literal LiteralSpec Ddl DdlProofs DdlSpec SqliteDdl SqliteDdlProofs DdlFine
  Backend BackendSpec SqliteSem MigrateSpec MigrateProofs MigrateInv MigrateMain MigrateReady
  ResolveProofs Chain ChainSpec ChainProofs Store StoreSpec StoreProofs FsStore FsSpec FsProofs Deploy DeploySpec DeploySame DeployMade DeployWalk DeployProofs DeployChain
  Props_Schema Props_Query Props_Filter Props_TursoScript Props_Migrations Props_Migrate.

(** ** The engines read the scripts *)
Lemma script_ends l : with_newline (script_of_lines l) = script_of_lines l.
Proof.
  unfold with_newline. assert (E : ends_with (script_of_lines l) newline = true) by (apply ends_with_iff; eexists; reflexivity). now rewrite E.
Qed.
Definition reads_of (e : dbms) : string -> option (list ddl) :=
  match e with OnSqlite => sqlite_reads sqlite_like | OnTurso => turso_reads sqlite_like end.
Lemma reads_back kw show read e : quotes_enough kw sqlite_like -> quotes_ddl kw ddl_words -> display_ok read show ->
  forall d ops script, ops_fine d ops -> (strict_of e = false -> Forall default_plain ops) -> b_sql (backend_of kw show e) d ops = Ok script ->
  with_newline script = script /\ reads_of e script = Some (ops_ast show (strict_of e) d ops).
Proof.
  intros Hq Hd Hs d ops script F P E. destruct e; cbn in *.
  - destruct (sqlite_script kw show read Hq Hd Hs d ops F) as (s & E1 & R). rewrite E in E1. injection E1 as <-.
    split; [|exact R]. unfold sqlite_migration_sql in E. destruct (lines_for_ops _ _ _) as [l| |]; [|discriminate..].
    injection E as <-. apply script_ends.
  - pose proof (turso_split kw show read Hq Hd Hs d ops script F (P eq_refl) E) as S. split.
    + unfold turso_migration_sql in E. destruct (lines_for_ops _ _ _) as [l| |]; [|discriminate..]. injection E as <-. apply script_ends.
    + unfold turso_reads. change (fun s : string => s) with as_is. clear - S. induction S as [|x y l m [H _] S IH]; [reflexivity|].
      cbn [mapm]. rewrite H, IH. reflexivity.
Qed.
Lemma exec_is conv veq read e : exec_of conv veq read sqlite_like e = engine_exec conv veq read (strict_of e) (reads_of e).
Proof. destruct e; reflexivity. Qed.

(** ** C51 *)

(** What the theorems below assume of the engine: the keyword list quotes what the engine
    reads as a keyword, printed reals are read back, values are stored by class. *)
Record engine_fine (kw : string -> bool) (show : f64 -> string) (read : bool -> string -> f64)
    (conv : bool -> list string -> lvalue -> option lvalue) (e : dbms) : Prop := {
  ef_quotes : quotes_enough kw sqlite_like; ef_words : quotes_ddl kw ddl_words;
  ef_display : display_ok read show; ef_storage : storage_ok conv (strict_of e) read }.

(** [p] are the migrations already applied.  Whatever goes wrong at whatever call,
    deploying leaves a prefix of the rest applied: recorded as applied are [p] and that
    prefix, the tables are those of its last schema, and the rows of before have been
    carried through its schemas one after the other. *)
Theorem C51_deploy : forall kw show read conv veq e M (c : Coll M) bs plan p q s r s', engine_fine kw show read conv e ->
  coherent c -> chain c (map fst (p ++ q)) -> scripted c bs (backend_of kw show e) None adb_new (p ++ q) ->
  changes_fine (strict_of e) adb_new (map snd (p ++ q)) ->
  records c s (map fst p) -> database_is conv (strict_of e) (schema_after p) s ->
  migrate (exec_of conv veq read sqlite_like e) (b_name (backend_of kw show e)) plan c (conn_on s) = (r, s') ->
  exists k, k <= length q /\ records c (cn_db s') (map fst (p ++ firstn k q))
    /\ carried conv (strict_of e) (schema_after p) (map snd (firstn k q)) (dbs_rest s) (dbs_rest (cn_db s'))
    /\ database_is conv (strict_of e) (schema_after (p ++ firstn k q)) (cn_db s') /\ (r = Val tt -> k = length q).
Proof.
  intros kw show read conv veq e M c bs plan p q s r s' [] CO CH SC CF R D. rewrite exec_is.
  exact (migrate_carries conv veq read show (strict_of e) ef_storage0 ef_display0 (reads_of e) c bs _
    (reads_back kw show read e ef_quotes0 ef_words0 ef_display0) plan p q s r s' CO CH SC CF R D).
Qed.
Print Assumptions C51_deploy.
(** Without failures, on a database ready for each of the changes, it succeeds. *)
Theorem C51_deploy_completes : forall kw show read conv veq e M (c : Coll M) bs p q s, engine_fine kw show read conv e ->
  coherent c -> chain c (map fst (p ++ q)) -> scripted c bs (backend_of kw show e) None adb_new (p ++ q) ->
  changes_fine (strict_of e) adb_new (map snd (p ++ q)) ->
  records c s (map fst p) -> database_is conv (strict_of e) (schema_after p) s ->
  ready_for conv veq (strict_of e) (schema_after p) (map snd q) (dbs_rest s) ->
  exists s', migrate (exec_of conv veq read sqlite_like e) (b_name (backend_of kw show e)) no_fault c (conn_on s) = (Val tt, s').
Proof.
  intros kw show read conv veq e M c bs p q s [] CO CH SC CF R D. rewrite exec_is.
  exact (migrate_reaches conv veq read show (strict_of e) ef_storage0 ef_display0 (reads_of e) c bs _
    (reads_back kw show read e ef_quotes0 ef_words0 ef_display0) p q s CO CH SC CF R D).
Qed.
Print Assumptions C51_deploy_completes.
(** Undoing, likewise, newest first. *)
Theorem C51_undo : forall kw show read conv veq e M (c : Coll M) bs plan p q s r s', engine_fine kw show read conv e ->
  coherent c -> chain c (map fst (p ++ q)) -> scripted c bs (backend_of kw show e) None adb_new (p ++ q) ->
  changes_back_fine (strict_of e) adb_new (map snd p) ->
  records c s (map fst p) -> database_is conv (strict_of e) (schema_after p) s ->
  unmigrate (exec_of conv veq read sqlite_like e) (b_name (backend_of kw show e)) plan c (conn_on s) = (r, s') ->
  exists k, k <= length p /\ records c (cn_db s') (map fst (firstn (length p - k) p))
    /\ carried conv (strict_of e) (schema_after p) (firstn k (before_it p)) (dbs_rest s) (dbs_rest (cn_db s'))
    /\ database_is conv (strict_of e) (schema_after (firstn (length p - k) p)) (cn_db s') /\ (r = Val tt -> k = length p).
Proof.
  intros kw show read conv veq e M c bs plan p q s r s' [] CO CH SC CF R D. rewrite exec_is.
  exact (unmigrate_carries conv veq read show (strict_of e) ef_storage0 ef_display0 (reads_of e) c bs _
    (reads_back kw show read e ef_quotes0 ef_words0 ef_display0) plan p q s r s' CO CH SC CF R D).
Qed.
Print Assumptions C51_undo.
Theorem C51_undo_completes : forall kw show read conv veq e M (c : Coll M) bs p q s, engine_fine kw show read conv e ->
  coherent c -> chain c (map fst (p ++ q)) -> scripted c bs (backend_of kw show e) None adb_new (p ++ q) ->
  changes_back_fine (strict_of e) adb_new (map snd p) ->
  records c s (map fst p) -> database_is conv (strict_of e) (schema_after p) s ->
  ready_for conv veq (strict_of e) (schema_after p) (before_it p) (dbs_rest s) ->
  exists s', unmigrate (exec_of conv veq read sqlite_like e) (b_name (backend_of kw show e)) no_fault c (conn_on s) = (Val tt, s').
Proof.
  intros kw show read conv veq e M c bs p q s [] CO CH SC CF R D. rewrite exec_is.
  exact (unmigrate_reaches conv veq read show (strict_of e) ef_storage0 ef_display0 (reads_of e) c bs _
    (reads_back kw show read e ef_quotes0 ef_words0 ef_display0) p q s CO CH SC CF R D).
Qed.
Print Assumptions C51_undo_completes.

(** Any number of runs of both, each with its own failures: the tables are always those
    of the schema of the migration recorded last, and the rows have been carried one
    schema at a time. *)
Theorem C51_any_history : forall kw show read conv veq e M (c : Coll M) bs l cs i s, engine_fine kw show read conv e ->
  coherent c -> chain c (map fst l) -> scripted c bs (backend_of kw show e) None adb_new l ->
  changes_fine (strict_of e) adb_new (map snd l) -> changes_back_fine (strict_of e) adb_new (map snd l) ->
  i <= length l -> records c s (map fst (firstn i l)) -> database_is conv (strict_of e) (schema_after (firstn i l)) s ->
  let s' := commands c (exec_of conv veq read sqlite_like e) (b_name (backend_of kw show e)) cs s in
  exists j, j <= length l /\ records c s' (map fst (firstn j l)) /\ database_is conv (strict_of e) (schema_after (firstn j l)) s'
    /\ stepped conv (strict_of e) (adb_new :: map snd l) i j (dbs_rest s) (dbs_rest s').
Proof.
  intros kw show read conv veq e M c bs l cs i s [] CO CH SC CF CB L R D s'. subst s'. rewrite exec_is.
  exact (commands_walk conv veq read show (strict_of e) ef_storage0 ef_display0 (reads_of e) c bs _
    (reads_back kw show read e ef_quotes0 ef_words0 ef_display0) l cs CO CH SC CF CB i s L R D).
Qed.
Print Assumptions C51_any_history.

(** ** From the schemas asked for to the database *)
Lemma nothing_is conv strict : database_is conv strict adb_new nothing_yet.
Proof. constructor; [constructor|reflexivity| |discriminate]. intros n t []. Qed.
(** Schemas asked for one after the other, their migrations created in the in-memory
    store, and the store deployed, undone and deployed again on an empty database,
    with any failures: the database always has the tables of the schema of the
    migration recorded last, with the rows carried along, and whenever deploying
    succeeds that is the schema asked for last. *)
Theorem C51_memory : forall kw show read conv veq e bs steps st, engine_fine kw show read conv e ->
  NoDup (map b_name bs) -> In (backend_of kw show e) bs -> NoDup (map fst steps) ->
  (forall n to, In (n, to) steps -> wf_schema to /\ settled to /\ plain_zeros to) ->
  (forall made, made_of adb_new steps made ->
     changes_fine (strict_of e) adb_new (map snd made) /\ changes_back_fine (strict_of e) adb_new (map snd made)) ->
  mem_create_all bs mem_new steps = Ok st ->
  follows conv e (mem_coll st) (exec_of conv veq read sqlite_like e) (b_name (backend_of kw show e)) steps.
Proof.
  intros kw show read conv veq e bs steps st EF NDb Hb ND HS HC H.
  destruct (mem_scripted_new bs _ steps st NDb Hb ND HS H) as (l & MO & CO & CH & SC). destruct (HC _ MO) as [CF CB].
  destruct EF. rewrite exec_is. apply (follows_scripted conv veq read show (strict_of e) ef_storage0 ef_display0 (reads_of e) _ bs _
    (reads_back kw show read e ef_quotes0 ef_words0 ef_display0) [] steps l (map named l)); auto; [apply nothing_is|]. intros n to Hn. now apply (HS n to).
Qed.
Print Assumptions C51_memory.
(** And in the store on disk. *)
Theorem C51_disk : forall kw show read conv veq e ls bs steps fs fs' tr, engine_fine kw show read conv e -> listing ls ->
  NoDup (map b_name bs) -> In (backend_of kw show e) bs -> fs_fresh fs -> NoDup (map fst steps) ->
  (forall n to, In (n, to) steps -> fs_get fs n = None /\ wf_schema to /\ settled to /\ plain_zeros to) ->
  (forall made, made_of adb_new steps made ->
     changes_fine (strict_of e) adb_new (map snd made) /\ changes_back_fine (strict_of e) adb_new (map snd made)) ->
  fs_create_all ls bs steps fs = (Ok tt, fs', tr) ->
  follows conv e (fs_coll fs') (exec_of conv veq read sqlite_like e) (b_name (backend_of kw show e)) steps.
Proof.
  intros kw show read conv veq e ls bs steps fs fs' tr EF PL NDb Hb Fr ND HS HC H.
  destruct (fs_scripted_new ls bs _ steps fs fs' tr PL NDb Hb Fr ND HS H) as (l & MO & CO & CH & SC). destruct (HC _ MO) as [CF CB].
  destruct EF. rewrite exec_is. apply (follows_scripted conv veq read show (strict_of e) ef_storage0 ef_display0 (reads_of e) _ bs _
    (reads_back kw show read e ef_quotes0 ef_words0 ef_display0) [] steps l l); auto; [apply nothing_is| |].
  - intros n to Hn. now apply (HS n to).
  - rewrite <- (map_id l) at 2. apply map_ext. intros [a b]. reflexivity.
Qed.
Print Assumptions C51_disk.

(** * A case *)
Example ex_engine : forall e, engine_fine ddl_kw bits_show ex_read ex_conv e.
Proof. intros e. constructor; [apply ddl_kw_ok|apply ddl_kw_ok|apply ex_display|apply ex_storage]. Qed.
Lemma length_app (a b : string) : String.length (a ++ b) = String.length a + String.length b.
Proof. induction a as [|x a IH]; [reflexivity|]. cbn. now rewrite IH. Qed.
Lemma short_temporary x n : String.length x < 12 -> x <> temporary n.
Proof. intros L ->. unfold temporary in L. rewrite length_app in L. cbn in L. lia. Qed.
Lemma ex_fine_first strict : change_fine strict adb_new ex_old.
Proof.
  assert (A : forall n c, ~ added_column adb_new ex_old n c) by (intros n c (t & u & [] & _)).
  constructor; [apply empty_wf|apply ex_old_wf|intros n t []|apply ex_fine|..].
  - intros n c H. destruct (A n c H).
  - intros n c H. destruct (A n c H).
  - intros n c H. destruct (A n c H).
  - intros m t c f n H Hc (r & Er & _). cbn in H. destruct H as [[= <- <-]|[[= <- <-]|[]]]; cbn in Hc; repeat (destruct Hc as [<-|Hc]; [discriminate Er|]); destruct Hc.
  - intros (t & []).
  - intros (t & H). cbn in H. destruct H as [E|[E|[]]]; discriminate E.
  - intros _ n c s H. destruct (A n c H).
Qed.
Lemma ex_fine_first_back strict : change_fine strict ex_old adb_new.
Proof.
  assert (A : forall n c, ~ added_column ex_old adb_new n c) by (intros n c (t & u & _ & [] & _)).
  constructor; [apply ex_old_wf|apply empty_wf|apply ex_fine|intros n t []|..].
  - intros n c H. destruct (A n c H).
  - intros n c H. destruct (A n c H).
  - intros n c H. destruct (A n c H).
  - intros m t c f n [].
  - intros (t & H). cbn in H. destruct H as [E|[E|[]]]; discriminate E.
  - intros (t & []).
  - intros _ n c s H. destruct (A n c H).
Qed.
Lemma ex_fine_next strict : change_fine strict ex_old ex_new.
Proof.
  destruct (ex_case strict). constructor; auto.
  - apply mc_temporary.
  - intros (t & H). cbn in H. destruct H as [E|[E|[]]]; discriminate E.
  - intros (t & H). cbn in H. destruct H as [E|[E|[]]]; discriminate E.
  - intros _. apply ex_defaults.
Qed.
Lemma ex_added_back n c : added_column ex_new ex_old n c -> c = col "likes" TInt.
Proof.
  intros (t & u & Ht & Hu & Hc & Nc). cbn in Ht, Hu.
  destruct Hu as [[= <- <-]|[[= <- <-]|[]]]; destruct Ht as [E|[E|[]]]; try discriminate E; injection E as <-.
  cbn in Hc. destruct Hc as [<-|[<-|[<-|[]]]]; [| |reflexivity]; exfalso; apply Nc; eexists;
    first [split; [cbn; right; left; reflexivity|reflexivity]|split; [cbn; right; right; left; reflexivity|reflexivity]].
Qed.
Lemma ex_fine_next_back strict : change_fine strict ex_new ex_old.
Proof.
  constructor; [apply ex_new_wf|apply ex_old_wf|apply ex_fine|apply ex_fine|..].
  - intros n c H. rewrite (ex_added_back n c H). eexists. split; reflexivity.
  - intros n c H. rewrite (ex_added_back n c H). intros d [= <-]. split; [lia|]. intros ty [= <-]. exists CInteger. split; reflexivity.
  - intros n c H. now rewrite (ex_added_back n c H).
  - intros m t c f n H Hc (r & Er & _). cbn in H. destruct H as [[= <- <-]|[[= <- <-]|[]]]; cbn in Hc; repeat (destruct Hc as [<-|Hc]; [discriminate Er|]); destruct Hc.
  - intros (t & H). cbn in H. destruct H as [E|[E|[]]]; discriminate E.
  - intros (t & H). cbn in H. destruct H as [E|[E|[]]]; discriminate E.
  - intros _ n c s H. rewrite (ex_added_back n c H). discriminate.
Qed.
Definition ex_asked : list (string * ADB) := [("m1", ex_old); ("m2", ex_old); ("m3", ex_new)]%string.
Example ex_asked_ok : forall n to, In (n, to) ex_asked -> wf_schema to /\ settled to /\ plain_zeros to.
Proof.
  intros n to H. assert (X : wf_schema to /\ settled to).
  { cbn in H. destruct H as [[= <- <-]|[[= <- <-]|[[= <- <-]|[]]]]; [apply (ex_steps_ok "m1")|apply (ex_steps_ok "m2")|apply (ex_steps_ok "m3")]; cbn; auto. }
  split; [apply X|]. split; [apply X|]. intros m t c r Hm Hc Ed. exfalso.
  cbn in H. destruct H as [[= <- <-]|[[= <- <-]|[[= <- <-]|[]]]]; cbn in Hm; destruct Hm as [[= <- <-]|[[= <- <-]|[]]]; cbn in Hc;
    repeat (destruct Hc as [<-|Hc]; [discriminate Ed|]); destruct Hc.
Qed.
Example ex_asked_fine : forall strict made, made_of adb_new ex_asked made ->
  changes_fine strict adb_new (map snd made) /\ changes_back_fine strict adb_new (map snd made).
Proof.
  assert (N1 : ~ same_schema adb_new ex_old) by (intros [_ H]; destruct (H _ _ (or_introl eq_refl)) as (t & [] & _)).
  assert (N2 : ~ same_schema ex_old ex_new).
  { intros [H _]. destruct (H _ _ (or_introl eq_refl)) as (t & Ht & _). cbn in Ht. destruct Ht as [E|[E|[]]]; discriminate E. }
  intros strict made H. inversion H as [|? ? ? ? ? SS R|? ? ? ? m1 N R]; subst; [contradiction|]. clear H.
  inversion R as [|? ? ? ? ? SS R1|? ? ? ? m2 N' R1]; subst; [|exfalso; apply N', same_schema_refl, ex_old_wf]. clear R.
  inversion R1 as [|? ? ? ? ? SS1 R2|? ? ? ? m3 N' R2]; subst; [contradiction|]. clear R1. inversion R2; subst. cbn.
  auto using ex_fine_first, ex_fine_first_back, ex_fine_next, ex_fine_next_back.
Qed.
Definition ex_backends (e : dbms) : list Backend := [backend_of ddl_kw bits_show e; toy].
(** The process stops in the first deployment, a later call fails, then all goes well;
    the database is as the schema asked for last says.  Undone and deployed, again. *)
Definition stops_at (n : nat) (k : fault) : nat -> fault := fun i => if Nat.eqb i n then k else NoFault.
Example C51_case : forall e, exists st,
  mem_create_all (ex_backends e) mem_new ex_asked = Ok st
  /\ NoDup (map b_name (ex_backends e)) /\ In (backend_of ddl_kw bits_show e) (ex_backends e)
  /\ (let run cs := commands (mem_coll st) (exec_of ex_conv ex_veq ex_read sqlite_like e) (b_name (backend_of ddl_kw bits_show e)) cs nothing_yet in
      let shown s := (map fst (dbs_rest s), dbs_mig s) in
      shown (run [Deploy_all (stops_at 3 StopsBefore)]) = ([], None)
      /\ shown (run [Deploy_all (stops_at 7 Fails)]) = (["blog"; "post"], Some ["m1"])%string
      /\ shown (run [Deploy_all (stops_at 3 StopsBefore); Deploy_all (stops_at 7 Fails); Deploy_all no_fault]) = (["post"; "tag"], Some ["m1"; "m3"])%string
      /\ shown (run [Deploy_all no_fault; Undo_all no_fault]) = ([], Some [])
      /\ shown (run [Deploy_all no_fault; Undo_all no_fault; Deploy_all no_fault]) = (["post"; "tag"], Some ["m1"; "m3"])%string).
Proof.
  intros e. destruct e.
  - eexists. split; [vm_compute; reflexivity|]. split; [repeat constructor; cbn; intuition discriminate|]. split; [left; reflexivity|].
    vm_compute. auto 10.
  - eexists. split; [vm_compute; reflexivity|]. split; [repeat constructor; cbn; intuition discriminate|]. split; [left; reflexivity|].
    vm_compute. auto 10.
Qed.
(** An empty database is ready for the whole of it. *)
Example C51_ready_case : forall strict, ready_for ex_conv ex_veq strict adb_new [ex_old; ex_new] [].
Proof.
  intros strict. cbn [ready_for].
  assert (NR : forall n, ~ rebuilt adb_new ex_old n) by (intros n (t & u & [] & _)).
  split.
  { constructor.
    - intros n _ _. reflexivity.
    - intros n R. destruct (NR n R).
    - intros n u H c c' Hc Hc'. cbn in H. destruct H as [[= <- <-]|[[= <- <-]|[]]]; cbn in Hc, Hc'.
      + destruct Hc as [<-|[<-|[]]], Hc' as [<-|[<-|[]]]; cbn; congruence.
      + destruct Hc as [<-|[<-|[<-|[]]]], Hc' as [<-|[<-|[<-|[]]]]; cbn; congruence.
    - intros n t u c c' [].
    - intros n t [].
    - intros n c (t & u & [] & _).
    - intros n t u c [].
    - intros n (t & []).
    - intros n m b f r v R. destruct (NR n R).
    - intros n m t u b c f r v R. destruct (NR n R).
    - intros n t u c f R. destruct (NR n R).
    - intros n t u b c R. destruct (NR n R). }
  intros db (RE & _ & FR & _ & OT). split; [|intros; exact I].
  assert (E : forall m b, mget m db = Some b -> (m = "blog" \/ m = "post")%string /\ b_rows b = [] /\ b_fks b = []).
  { intros m b G.
    assert (X : has_table ex_old m \/ ~ has_table ex_old m).
    { destruct (string_dec m "blog") as [->|N1]; [left; eexists; left; reflexivity|].
      destruct (string_dec m "post") as [->|N2]; [left; eexists; right; left; reflexivity|]. right. intros (t & H). cbn in H. destruct H as [[= <- <-]|[[= <- <-]|[]]]; congruence. }
    destruct X as [X|X].
    - destruct (FR m X) as (b' & G' & Er); [intros (t & [])|]. assert (b' = b) by congruence. subst b'.
      destruct X as (t & Ht). destruct (RE m t Ht) as (b' & G2 & (_ & _ & _ & _ & TF) & _). assert (b' = b) by congruence. subst b'.
      assert (Nf : b_fks b = []).
      { destruct (b_fks b) as [|f l]; [reflexivity|]. destruct (proj1 (TF f) (or_introl eq_refl)) as (c & Hc & (r & Ec & _)). exfalso.
        cbn in Ht. destruct Ht as [[= <- <-]|[[= <- <-]|[]]]; cbn in Hc; repeat (destruct Hc as [<-|Hc]; [discriminate Ec|]); destruct Hc. }
      split; [|auto]. cbn in Ht. destruct Ht as [[= <- <-]|[[= <- <-]|[]]]; auto.
    - assert (N : mget m db = mget m (@nil (string * etab))) by (apply OT; [intros (t & [])|exact X]). rewrite G in N. discriminate N. }
  assert (NoFk : forall m b f, mget m db = Some b -> ~ In f (b_fks b)).
  { intros m b f G Hf. destruct (E m b G) as (_ & _ & X). rewrite X in Hf. destruct Hf. }
  assert (NoRow : forall m b r, mget m db = Some b -> ~ In r (b_rows b)).
  { intros m b r G Hr. destruct (E m b G) as (_ & X & _). rewrite X in Hr. destruct Hr. }
  destruct (ex_ready strict). constructor; auto.
  - intros n (u & H) No. destruct (mget n db) as [b|] eqn:G; [|reflexivity]. exfalso. apply No.
    destruct (E n b G) as ([-> | ->] & _); [eexists; left; reflexivity|eexists; right; left; reflexivity].
  - intros n R. destruct (rd_temporary n R) as (_ & A & B). split; [|split; assumption].
    destruct (mget (temporary n) db) as [b|] eqn:G; [|reflexivity]. exfalso.
    destruct (E _ b G) as ([X|X] & _); symmetry in X; revert X; apply short_temporary; cbn; lia.
  - intros n _ _ m b f r v p G _ Hf. destruct (NoFk m b f G Hf).
  - intros n m b f r v _ G Hf. destruct (NoFk m b f G Hf).
  - intros n m t u b c f r v _ _ _ _ _ _ G Hr. destruct (NoRow m b r G Hr).
  - intros n t u b c _ _ _ G _. exists []. destruct (E n b G) as (_ & -> & _). split; [constructor|]. split; [constructor|]. split; [reflexivity|constructor].
Qed.
