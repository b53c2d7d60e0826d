(** Property theorems C57: stored rows through migrations. *)
From Verif Require Import Base SqlVal Sql SqlStmt Query QuerySpec Stmt StmtSpec Adb AdbSpec AdbProofs Literal LiteralSpec Ddl DdlSpec
  Backend BackendSpec Turso SqliteSem MigrateSpec SqliteData DataCalls StoredSpec
  RenderProofs MigrateProofs StoredRel StoredProofs StoredMain StoredDeploy
  FsSpec FsStore FsProofs Store StoreSpec Chain ChainSpec Deploy DeploySpec StoreProofs DeployMade DeployWalk CarriedSpec CarriedProofs
  Props_Schema Props_Query Props_Filter Props_TursoScript Props_Migrations Props_Migrate Props_Deploy Props_Stored.

(** ** One change *)
(** A database that keeps the rows [D] in the old schema keeps, after a gentle change, those
    rows in the new one: every row of every table that stays, with the values it had and
    defaults in new columns, no key twice and every reference to its row. *)
Theorem C57_change : forall json_text E veq conv strict old new D db db',
  compares_stored E veq -> usable old -> usable new -> gentle json_text old new ->
  keeps json_text E conv strict old D db -> migrated conv strict old new db db' -> msorted db' ->
  exists D', rows_after old new D D' /\ keeps json_text E conv strict new D' db'.
Proof.
  intros json_text E veq conv strict old new D db db' CS UO UN G K M S.
  destruct (rows_carried json_text E veq conv strict CS old new D db db' (us_wf _ UO) (us_wf _ UN) (us_keys _ UO) (us_keys _ UN) G (keeps_held _ _ _ _ _ _ _ K) M) as (D' & R & H).
  exists D'. split; [exact R|]. now apply held_keeps.
Qed.
Print Assumptions C57_change.

(** ** Deploying *)
(** [p] are the migrations of the program that stored the rows [D], [q] those that came
    since.  However far deploying gets, the database keeps the rows, carried that far. *)
Theorem C57_deploy : forall json_text E kw show read conv veq e M (c : Coll M) bs plan p q s D r s', engine_fine kw show read conv e ->
  compares_stored E veq -> Forall usable (map snd (p ++ q)) -> gentle_all json_text (schema_after p) (map snd q) ->
  coherent c -> chain c (map fst (p ++ q)) -> scripted c bs (backend_of kw show e) None adb_new (p ++ q) ->
  changes_fine (strict_of e) adb_new (map snd (p ++ q)) ->
  records c s (map fst p) -> database_is conv (strict_of e) (schema_after p) s ->
  keeps json_text E conv (strict_of e) (schema_after p) D (dbs_rest s) ->
  migrate (exec_of conv veq read sqlite_like e) (b_name (backend_of kw show e)) plan c (conn_on s) = (r, s') ->
  exists k D', k <= length q /\ records c (cn_db s') (map fst (p ++ firstn k q)) /\ (r = Val tt -> k = length q)
    /\ carried_by rows_after (schema_after p) (map snd (firstn k q)) D D'
    /\ keeps json_text E conv (strict_of e) (schema_after (p ++ firstn k q)) D' (dbs_rest (cn_db s')).
Proof.
  intros json_text E kw show read conv veq e M c bs plan p q s D r s' EF CS US GE CO CH SC CF R DI KP H.
  destruct (C51_deploy kw show read conv veq e M c bs plan p q s r s' EF CO CH SC CF R DI H) as (k & Lk & R' & CA & DI' & V).
  assert (UA : usable adb_new).
  { constructor; [split; [constructor|intros ? ? []]| |intros ? ? ? ? []]. intros ? ? []. }
  rewrite Forall_forall in US.
  assert (UP : usable (schema_after p)).
  { unfold schema_after. destruct p as [|x p]; [exact UA|]. apply US. rewrite map_app. apply in_app_iff. left.
    clear. generalize adb_new. cbn [map]. revert x. induction p as [|y p IH]; intros x d; [now left|]. cbn [map]. right. apply (IH y). }
  assert (UQ : Forall usable (map snd (firstn k q))).
  { apply Forall_forall. intros x Hx. apply US. rewrite map_app. apply in_app_iff. right. apply in_map_iff in Hx as (y & <- & Hy). apply in_map.
    rewrite <- (firstn_skipn k q). apply in_app_iff. now left. }
  assert (GK : gentle_all json_text (schema_after p) (map snd (firstn k q))).
  { clear -GE. revert GE k. generalize (schema_after p). induction q as [|[m x] q IH]; intros d GE [|k]; cbn in *; try exact I. split; [apply GE|]. now apply IH. }
  destruct (carried_rows json_text E veq conv (strict_of e) CS _ _ _ _ CA D UP UQ GK (keeps_held _ _ _ _ _ _ _ KP)) as (D' & RD & HD).
  exists k, D'. split; [exact Lk|]. split; [exact R'|]. split; [exact V|]. split; [exact RD|]. apply held_keeps; [apply DI'|].
  replace (schema_after (p ++ firstn k q)) with (last (map snd (firstn k q)) (schema_after p)); [exact HD|].
  unfold schema_after. rewrite map_app. clear. generalize (map snd (firstn k q)). intros l. induction (map snd p) as [|x m IH] using rev_ind; [reflexivity|].
  rewrite last_last, <- app_assoc. cbn [List.app]. clear IH. generalize adb_new. induction m as [|y m IH]; intros d; [symmetry; apply last_cons|]. change ((y :: m) ++ x :: l) with (y :: (m ++ x :: l)). rewrite last_cons. apply IH.
Qed.
Print Assumptions C57_deploy.

(** ** A life *)
(** The program uses the database, migrations are deployed and undone with any failures,
    in any order and any number of times.  At every moment the database keeps the rows
    that the calls accepted so far made of those it had, carried from schema to schema;
    the schema is that of the migration recorded last. *)
Theorem C57_life : forall json_text E fresh kw show read conv veq e M (c : Coll M) bs l es i s D,
  engine_fine kw show read conv e -> stores kw sqlite_like conv veq read (strict_of e) E ->
  Forall usable (map snd l) -> gentle_both json_text adb_new (map snd l) ->
  coherent c -> chain c (map fst l) -> scripted c bs (backend_of kw show e) None adb_new l ->
  changes_fine (strict_of e) adb_new (map snd l) -> changes_back_fine (strict_of e) adb_new (map snd l) ->
  i <= length l -> records c s (map fst (firstn i l)) -> database_is conv (strict_of e) (schema_after (firstn i l)) s ->
  keeps json_text E conv (strict_of e) (schema_after (firstn i l)) D (dbs_rest s) ->
  let lives := life c (exec_of conv veq read sqlite_like e) (b_name (backend_of kw show e)) (after_call kw sqlite_like conv veq read E fresh) in
  (forall pre k post, es = pre ++ Used k :: post ->
     forall j D1, let d := schema_after (firstn j l) in
       records c (lives pre s) (map fst (firstn j l)) -> keeps json_text E conv (strict_of e) d D1 (dbs_rest (lives pre s)) ->
       numbers_fit json_text fresh d (dbs_rest (lives pre s)) /\ call_fits json_text E sqlite_like d D1 k) ->
  exists j D', j <= length l /\ records c (lives es s) (map fst (firstn j l))
    /\ database_is conv (strict_of e) (schema_after (firstn j l)) (lives es s)
    /\ lived json_text E (adb_new :: map snd l) i D es j D'
    /\ keeps json_text E conv (strict_of e) (schema_after (firstn j l)) D' (dbs_rest (lives es s)).
Proof.
  intros json_text E fresh kw show read conv veq e M c bs l es i s D EF ST US GB CO CH SC CF CB Li R DI KP lives FIT.
  assert (UA : usable adb_new).
  { constructor; [split; [constructor|intros ? ? []]| |intros ? ? ? ? []]. intros ? ? []. }
  revert i s D Li R DI KP FIT. induction es as [|ev es IH]; intros i s D Li R DI KP FIT.
  - exists i, D. split; [exact Li|]. split; [exact R|]. split; [exact DI|]. split; [constructor|exact KP].
  - assert (GO : forall i1 D1, let s1 := lives [ev] s in i1 <= length l -> records c s1 (map fst (firstn i1 l)) ->
      database_is conv (strict_of e) (schema_after (firstn i1 l)) s1 -> keeps json_text E conv (strict_of e) (schema_after (firstn i1 l)) D1 (dbs_rest s1) ->
      (forall j D2, lived json_text E (adb_new :: map snd l) i1 D1 es j D2 -> lived json_text E (adb_new :: map snd l) i D (ev :: es) j D2) ->
      exists j D', j <= length l /\ records c (lives (ev :: es) s) (map fst (firstn j l))
        /\ database_is conv (strict_of e) (schema_after (firstn j l)) (lives (ev :: es) s)
        /\ lived json_text E (adb_new :: map snd l) i D (ev :: es) j D'
        /\ keeps json_text E conv (strict_of e) (schema_after (firstn j l)) D' (dbs_rest (lives (ev :: es) s))).
    { intros i1 D1 s1 L1 R1 DI1 KP1 LV. change (lives (ev :: es) s) with (lives es s1).
      destruct (IH i1 s1 D1 L1 R1 DI1 KP1) as (j & D' & H1 & H2 & H3 & H4 & H5).
      { intros pre k post Ep j D2. apply (FIT (ev :: pre) k post). now rewrite Ep. }
      exists j, D'. split; [exact H1|]. split; [exact H2|]. split; [exact H3|]. split; [now apply LV|exact H5]. }
    pose proof (nth_after l i Li) as Ni.
    destruct ev as [k|x].
    + pose proof (FIT [] k es eq_refl i D R KP) as [NF CFi]. change (lives [] s) with s in *.
      assert (US1 : usable (schema_after (firstn i l))).
      { destruct i as [|i]; [exact UA|]. cbn in Ni. rewrite Forall_forall in US. apply US. apply (nth_error_In _ _ Ni). }
      destruct (C55_history json_text kw sqlite_like conv veq read (strict_of e) E fresh _ [k] D (dbs_rest s) ST US1 KP) as (D1 & FO & KP1).
      { intros [|i0] k0 Hk0; [|now destruct i0]. injection Hk0 as <-. cbn [firstn]. unfold after_calls. cbn [fold_left]. split; [exact NF|].
        intros D2 KP2. apply (FIT [] k es eq_refl i D2 R KP2). }
      apply (GO i D1 Li R).
      * change (lives [Used k] s) with {| dbs_rest := after_call kw sqlite_like conv veq read E fresh (dbs_rest s) k; dbs_mig := dbs_mig s |}.
        unfold after_call. destruct (data_call kw sqlite_like conv veq read E fresh (dbs_rest s) k) as [db'| |] eqn:DC.
        -- exact (C55_migrations_go_on json_text kw sqlite_like conv veq read (strict_of e) E fresh _ D s k db' ST US1 DI KP NF CFi DC).
        -- destruct s; exact DI.
        -- destruct s; exact DI.
      * exact KP1.
      * intros j D2 LV. eapply lv_used; eassumption.
    + destruct (C51_any_history kw show read conv veq e M c bs l [x] i s EF CO CH SC CF CB Li R DI) as (j & Lj & Rj & DIj & W).
      destruct (walked_rows json_text E veq conv (strict_of e) (sr_compares _ _ _ _ _ _ _ ST) adb_new (map snd l) i j _ _ UA US GB W D _ Ni (keeps_held _ _ _ _ _ _ _ KP)) as (D1 & b & WR & Hb & HD).
      rewrite (nth_after l j Lj) in Hb. injection Hb as <-.
      apply (GO j D1 Lj Rj DIj).
      * apply held_keeps; [apply DIj|exact HD].
      * intros j2 D2 LV. eapply lv_commanded; eassumption.
Qed.
Print Assumptions C57_life.

(** Migrations made on disk of the schemas asked for, and the life of a database that
    starts empty. *)
Theorem C57_disk : forall json_text E fresh kw show read conv veq e ls bs steps fs fs' tr es,
  engine_fine kw show read conv e -> stores kw sqlite_like conv veq read (strict_of e) E -> listing ls ->
  NoDup (map b_name bs) -> In (backend_of kw show e) bs -> fs_fresh fs -> NoDup (map fst steps) ->
  (forall n to, In (n, to) steps -> fs_get fs n = None /\ settled to /\ plain_zeros to /\ usable to) ->
  (forall made, made_of adb_new steps made -> gentle_both json_text adb_new (map snd made)
     /\ changes_fine (strict_of e) adb_new (map snd made) /\ changes_back_fine (strict_of e) adb_new (map snd made)) ->
  fs_create_all ls bs steps fs = (Ok tt, fs', tr) ->
  let lives es := life (fs_coll fs') (exec_of conv veq read sqlite_like e) (b_name (backend_of kw show e)) (after_call kw sqlite_like conv veq read E fresh) es nothing_yet in
  (forall pre k post made, es = pre ++ Used k :: post -> made_of adb_new steps made ->
     forall j D1, let d := schema_after (firstn j made) in
       recorded_as (lives pre) (map fst (firstn j made)) -> keeps json_text E conv (strict_of e) d D1 (dbs_rest (lives pre)) ->
       numbers_fit json_text fresh d (dbs_rest (lives pre)) /\ call_fits json_text E sqlite_like d D1 k) ->
  exists made j D', made_of adb_new steps made /\ j <= length made /\ recorded_as (lives es) (map fst (firstn j made))
    /\ lived json_text E (adb_new :: map snd made) 0 (fun _ => []) es j D'
    /\ keeps json_text E conv (strict_of e) (schema_after (firstn j made)) D' (dbs_rest (lives es)).
Proof.
  intros json_text E fresh kw show read conv veq e ls bs steps fs fs' tr es EF ST PL NDb Hb Fr ND HS HC H lives FIT.
  destruct (fs_scripted_new ls bs _ steps fs fs' tr PL NDb Hb Fr ND) with (2 := H) as (made & MO & CO & CH & SC).
  { intros n to Hn. destruct (HS n to Hn) as (H1 & H2 & H3 & U). split; [exact H1|]. split; [apply U|]. auto. }
  destruct (HC made MO) as (GB & CF & CB).
  assert (US : Forall usable (map snd made)).
  { apply Forall_forall. intros x Hx. apply in_map_iff in Hx as ([n to] & <- & Hn). apply (HS n to). clear -MO Hn. induction MO; cbn in *; [exact Hn|right; auto|]. destruct Hn as [->|Hn]; auto. }
  assert (RA : forall (s : DBS edb) j, records (fs_coll fs') s (map fst (firstn j made)) <-> recorded_as s (map fst (firstn j made))).
  { intros s j. unfold records, recorded_as. change (names (fs_coll fs') (map fst (firstn j made))) with (map (fun x : string => x) (map fst (firstn j made))).
    rewrite map_id. reflexivity. }
  destruct (C57_life json_text E fresh kw show read conv veq e _ (fs_coll fs') bs made es 0 nothing_yet (fun _ => []) EF ST US GB CO CH SC CF CB (Nat.le_0_l _)) as (j & D' & L & R & _ & LV & KP).
  - reflexivity.
  - apply nothing_is.
  - constructor.
    + constructor.
    + intros n t [].
    + intros n. reflexivity.
    + intros n t [].
    + intros n b Hb'. discriminate Hb'.
    + constructor; [intros n t c i0 j0 r s x y []|intros n t c f r x []].
  - intros pre k post Ep j D1 d R K. apply (FIT pre k post made Ep MO j D1); [now apply RA|exact K].
  - exists made, j, D'. split; [exact MO|]. split; [exact L|]. split; [now apply RA|]. auto.
Qed.
Print Assumptions C57_disk.

(** * A case *)
Definition ca_old : ADB :=
  {| a_tables := [("post", {| t_name := "post"; t_cols := [pkcol "id" TInt; col "title" TText] |});
                  ("tag", {| t_name := "tag";
                     t_cols := [pkcol "tag" TText; col "n" TInt;
                                with_ref (col "p" TInt) (Some (RefLiteral {| rl_table := "post"; rl_column := "id" |}))] |})];
     a_types := [] |}.
(** A post gets a body and a number of views, the number of a tag becomes wide. *)
Definition ca_new : ADB :=
  {| a_tables := [("post", {| t_name := "post"; t_cols := [col "body" TText; pkcol "id" TInt; col "title" TText; col "views" TBigInt] |});
                  ("tag", {| t_name := "tag";
                     t_cols := [pkcol "tag" TText; col "n" TBigInt;
                                with_ref (col "p" TInt) (Some (RefLiteral {| rl_table := "post"; rl_column := "id" |}))] |})];
     a_types := [] |}.
Example ca_old_usable : usable ca_old.
Proof.
  constructor; [wf_tac|fine_tac|]. intros n t c f H Hc (r & Er & ->). cbn in H.
  destruct H as [[= <- <-]|[[= <- <-]|[]]]; cbn in Hc; repeat (destruct Hc as [<-|Hc]; [try discriminate Er|]); try destruct Hc.
  injection Er as <-. exists {| t_name := "post"; t_cols := [pkcol "id" TInt; col "title" TText] |}, (pkcol "id" TInt). cbn. auto 10.
Qed.
Example ca_new_usable : usable ca_new.
Proof.
  constructor; [wf_tac|fine_tac|]. intros n t c f H Hc (r & Er & ->). cbn in H.
  destruct H as [[= <- <-]|[[= <- <-]|[]]]; cbn in Hc; repeat (destruct Hc as [<-|Hc]; [try discriminate Er|]); try destruct Hc.
  injection Er as <-. exists {| t_name := "post"; t_cols := [col "body" TText; pkcol "id" TInt; col "title" TText; col "views" TBigInt] |}, (pkcol "id" TInt). cbn. auto 10.
Qed.
Ltac pick H := cbn in H; repeat destruct H as [<-|H]; try destruct H.
Ltac tables Ht Hu :=
  cbn in Ht, Hu; destruct Ht as [[= <- <-]|[[= <- <-]|[]]], Hu as [Eu|[Eu|[]]]; try discriminate Eu; injection Eu as <-.
Ltac gentle_tac :=
  constructor;
  [ intros n t u c c' ty Ht Hu Hc Hc' En K; tables Ht Hu; pick Hc; pick Hc'; try discriminate En;
      injection K as <-; eexists; (split; [reflexivity|]); unfold widens; auto
  | intros n t u c c' Ht Hu Hc Hc' En; tables Ht Hu; pick Hc; pick Hc'; try discriminate En;
      (split; [cbn; auto|]; split; [cbn; auto|]); intros f (r & Er & ->); try discriminate Er; exists r; auto
  | intros n c (t & u & Ht & Hu & Hc & N); tables Ht Hu; pick Hc; try (exfalso; apply N, has_column_names; cbn; auto 10; fail);
      (split; [reflexivity|]; split; [reflexivity|]; split; [reflexivity|]; eexists; split; [reflexivity|]; intros v [= <-]; eexists; split; [reflexivity|]; split; [now right|];
       split; [first [exact I|cbn; lia]|]; split; [intros (? & ? & X); discriminate X|]; split; discriminate) ].
Example ca_gentle : gentle Some ca_old ca_new.
Proof. gentle_tac. Qed.
(** Changes that can be undone: only the body. *)
Definition ca_mid : ADB :=
  {| a_tables := [("post", {| t_name := "post"; t_cols := [col "body" TText; pkcol "id" TInt; col "title" TText] |});
                  ("tag", {| t_name := "tag";
                     t_cols := [pkcol "tag" TText; col "n" TInt;
                                with_ref (col "p" TInt) (Some (RefLiteral {| rl_table := "post"; rl_column := "id" |}))] |})];
     a_types := [] |}.
Example ca_mid_usable : usable ca_mid.
Proof.
  constructor; [wf_tac|fine_tac|]. intros n t c f H Hc (r & Er & ->). cbn in H.
  destruct H as [[= <- <-]|[[= <- <-]|[]]]; cbn in Hc; repeat (destruct Hc as [<-|Hc]; [try discriminate Er|]); try destruct Hc.
  injection Er as <-. exists {| t_name := "post"; t_cols := [col "body" TText; pkcol "id" TInt; col "title" TText] |}, (pkcol "id" TInt). cbn. auto 10.
Qed.
Example ca_both : gentle_both Some adb_new [ca_old; ca_mid].
Proof.
  split; [constructor; [intros n t u c c' ty []|intros n t u c c' []|intros n c (t & u & [] & _)]|].
  split; [constructor; [intros n t u c c' ty _ []|intros n t u c c' _ []|intros n c (t & u & _ & [] & _)]|].
  split; [gentle_tac|]. split; [gentle_tac|exact I].
Qed.
Ltac refs_tac := intros m t c f n H Hc (r & Er & ->); cbn in H; destruct H as [[= <- <-]|[[= <- <-]|[]]]; pick Hc; try discriminate Er;
  injection Er as <-; apply short_temporary; cbn; lia.
Ltac name_tac := intros (t & H); cbn in H; destruct H as [X|[X|[]]]; discriminate X.
Ltac only_tac A := intros n c H; rewrite (A n c H).
Lemma ca_added n c : added_column ca_old ca_mid n c -> c = col "body" TText.
Proof. intros (t & u & Ht & Hu & Hc & N). tables Ht Hu; pick Hc; try (exfalso; apply N, has_column_names; cbn; auto 10; fail). reflexivity. Qed.
Lemma ca_added_back n c : ~ added_column ca_mid ca_old n c.
Proof. intros (t & u & Ht & Hu & Hc & N). tables Ht Hu; pick Hc; apply N, has_column_names; cbn; auto 10. Qed.
Example ca_fine : forall strict, changes_fine strict adb_new [ca_old; ca_mid] /\ changes_back_fine strict adb_new [ca_old; ca_mid].
Proof.
  intros strict. pose proof ca_old_usable as UO. pose proof ca_mid_usable as UM.
  assert (A : forall n c, ~ added_column adb_new ca_old n c) by (intros n c (t & u & [] & _)).
  assert (B : forall n c, ~ added_column ca_old adb_new n c) by (intros n c (t & u & _ & [] & _)).
  split; cbn [changes changes_back]; (split; [|split; [|exact I]]).
  - constructor; [apply empty_wf|apply UO|intros n t []|apply UO|..]; try (intros n c H; destruct (A n c H)); [refs_tac|intros (t & [])|name_tac|].
    intros _ n c s H. destruct (A n c H).
  - constructor; [apply UO|apply UM|apply UO|apply UM|..].
    + only_tac ca_added. eexists. split; reflexivity.
    + only_tac ca_added. intros d [= <-]. split; [exact I|]. intros ty [= <-]. exists CText. split; reflexivity.
    + only_tac ca_added. reflexivity.
    + refs_tac.
    + name_tac.
    + name_tac.
    + intros _ n c s H. rewrite (ca_added n c H). intros [= <-]. reflexivity.
  - constructor; [apply UO|apply empty_wf|apply UO|intros n t []|..]; try (intros n c H; destruct (B n c H)); [intros m t c f n []|name_tac|intros (t & [])|].
    intros _ n c s H. destruct (B n c H).
  - constructor; [apply UM|apply UO|apply UM|apply UO|..]; try (intros n c H; destruct (ca_added_back n c H)); [refs_tac|name_tac|name_tac|].
    intros _ n c s H. destruct (ca_added_back n c H).
Qed.
Definition ca_post (id : Z) (title : string) : DataCalls.call := InsertOnly "post" ["id"; "title"] [VInt id; VText title].
Definition ca_tag (tag : string) (n p : Z) : DataCalls.call := InsertOnly "tag" ["tag"; "n"; "p"] [VText tag; VInt n; VInt p].
(** The first deployment fails after the first migration; the program of that time stores
    two posts and a tag, and is refused a tag of no post; then the second migration. *)
Example C57_case : forall e, exists st,
  mem_create_all (ex_backends e) mem_new [("m1", ca_old); ("m2", ca_new)]%string = Ok st
  /\ (let lives es := life (mem_coll st) (exec_of ex_conv ex_veq ex_read sqlite_like e) (b_name (backend_of ddl_kw bits_show e))
        (after_call ddl_kw sqlite_like ex_conv st_veq ex_read st_engine (fun _ => 1%Z)) es nothing_yet in
      let rows s := map (fun p => (fst p, b_rows (snd p))) (dbs_rest s) in
      let before := [Commanded (Deploy_all (stops_at 7 Fails)); Used (ca_post 1 "a"); Used (ca_post 2 "b"); Used (ca_tag "x" 5 2); Used (ca_tag "y" 5 3)] in
      dbs_mig (lives before) = Some ["m1"]%string
      /\ rows (lives before) = [("post", [[("id", LInteger 1); ("title", LText "a")]; [("id", LInteger 2); ("title", LText "b")]]);
                                ("tag", [[("tag", LText "x"); ("n", LInteger 5); ("p", LInteger 2)]])]%string
      /\ dbs_mig (lives (before ++ [Commanded (Deploy_all no_fault)])) = Some ["m1"; "m2"]%string
      /\ rows (lives (before ++ [Commanded (Deploy_all no_fault)]))
         = [("post", [[("id", LInteger 1); ("title", LText "a"); ("body", LText ""); ("views", LInteger 0)]; [("id", LInteger 2); ("title", LText "b"); ("body", LText ""); ("views", LInteger 0)]]);
            ("tag", [[("tag", LText "x"); ("n", LInteger 5); ("p", LInteger 2)]])]%string).
Proof.
  intros e. destruct e; (eexists; split; [vm_compute; reflexivity|]; vm_compute; auto 10).
Qed.
